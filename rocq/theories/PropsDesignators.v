(** * PropsDesignators: routes and procedures are recognised by the form of their designator. *)
From Coq Require Import ZArith NArith List Bool String.
From Verif Require Import PyBase Enums Regex SyntaxTable Syntax Parser SpecRegex RegexProofs SyntaxProofs SpecDesignators DesignatorFacts.
Import List ListNotations.
Local Open Scope list_scope.
Local Open Scope nat_scope.

(** C58. *)
Theorem C58_routes : forall s : pstr,
  (get_token_type s = (F15_ROUTE, F15_SB_ATS) <-> re_in ats_route s) /\
  (get_token_type s = (F15_ROUTE, F15_SB_NAT) <-> re_in nat_track s) /\
  (get_token_type s = (F15_ROUTE, F15_SB_PTS) <-> re_in polar_track s) /\
  (get_token_type s = (F15_ROUTE, F15_SB_ATS_TURK) <-> re_in turkish_route s) /\
  (get_token_type s = (F15_ROUTE, F15_SB_ATS_OLD) <-> re_in old_route s /\ ~ re_in polar_track s) /\
  (get_token_type s = (F15_ROUTE, F15_SB_ATS_RUS) <-> re_in russian_route s /\ ~ re_in (any_of [nat_track; lit "STAY" +++ digit]) s).
Proof.
  intro s. repeat match goal with |- _ /\ _ => apply conj end;
    first [ apply turkish_iff | apply type_iff'; vm_compute; reflexivity | apply type_iff; vm_compute; reflexivity ].
Qed.
Print Assumptions C58_routes.

Theorem C58_route : forall s : pstr, 
  fst (get_token_type s) = F15_ROUTE <->
  re_in (any_of [ats_route; nat_track; polar_track; turkish_route; old_route; russian_route]) s /\ ~ re_in (lit "STAY" +++ digit) s.
Proof. intro s. apply base_iff; vm_compute; reflexivity. Qed.
Print Assumptions C58_route.

Theorem C58_procedures : forall s : pstr, get_token_type s = (F15_SID_STAR, F15_SB_STAR) <-> re_in procedure s.
Proof. intro s. apply type_iff'; vm_compute; reflexivity. Qed.
Print Assumptions C58_procedures.
Theorem C58_procedure : forall s : pstr, fst (get_token_type s) = F15_SID_STAR <-> re_in procedure s.
Proof. intro s. apply base_iff'; vm_compute; reflexivity. Qed.
Print Assumptions C58_procedure.

(** Everything that has a type at all. *)
Theorem C58_recognised : forall s : pstr, fst (get_token_type s) <> F15_UNKNOWN <-> re_in recognised s /\ ~ re_in unclimb s.
Proof. exact recognised_iff. Qed.
Print Assumptions C58_recognised.

Example C58_example : get_token_type ($"UL607") = (F15_ROUTE, F15_SB_ATS) /\ get_token_type ($"NATA") = (F15_ROUTE, F15_SB_NAT) /\
  get_token_type ($"A1234") = (F15_UNKNOWN, F15_SB_UNKNOWN) /\ get_token_type ($"CPT5J") = (F15_SID_STAR, F15_SB_STAR) /\ re_in procedure ($"CPT5J").
Proof. repeat (split; [vm_compute; reflexivity|]). apply fullmatch_spec; vm_compute; reflexivity. Qed.
