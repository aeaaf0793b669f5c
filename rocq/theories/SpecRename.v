(** * SpecRename: fields that differ in names only.

    Two fields are of the same form when they have the same number of elements and the elements at the same place have
    the same types and, unless they are names of points, routes and procedures, the same text.  What the parser makes of them
    differs in these names only, and in the positions.  Nothing here refers to the parser. *)
From Coq Require Import ZArith NArith List Bool String.
From Verif Require Import PyBase Enums Tokenizer Ers SpecTokenizer SpecParser SpecGrammar.
Import List ListNotations.
Local Open Scope list_scope.
Local Open Scope Z_scope.

(** Elements whose text is a name without a meaning of its own: points without coordinates, bearing and distance, routes,
    SIDs and STARs, STAY0 to STAY9, and what is not recognised. *)
Definition freely_named (b : base_type) (sb : sub_type) : bool :=
  match sb with
  | F15_SB_PRP_BD | F15_SB_LL_DEG | F15_SB_LL_MIN | F15_SB_LLBD_DEG | F15_SB_LLBD_MIN => false
  | _ => match b with F15_POINT | F15_ROUTE | F15_SID_STAR | F15_STAY | F15_UNKNOWN | F15_TOO_LONG => true | _ => false end
  end.
Definition alike (t u : token) : Prop :=
  t_base t = t_base u /\ t_sub t = t_sub u /\ (freely_named (t_base t) (t_sub t) = true \/ t_text t = t_text u).
Definition same_form (f g : pstr) : Prop := Forall2 alike (field_tokens f) (field_tokens g).
(** The elements at the same place. *)
Definition opposite (f g : pstr) (t u : token) : Prop :=
  exists n, nth_error (field_tokens f) n = Some t /\ nth_error (field_tokens g) n = Some u.

(** Record [r] of the first field and record [q] of the second one. *)
Definition stands_at (t : token) (r : rrec) : Prop := r_start r = t_start t /\ r_end r = t_end t.
Definition same_origin (P : token -> token -> Prop) (r q : rrec) : Prop :=
  (r_name r = r_name q /\ (r_start r, r_end r) = (0, 0) /\ (r_start q, r_end q) = (0, 0)) \/
  exists t u, P t u /\ stands_at t r /\ stands_at u q /\
    (r_name r = t_text t /\ r_name q = t_text u \/ r_name r = $"VFR" /\ r_name q = $"VFR").
Definition same_words (P : token -> token -> Prop) (r q : rrec) : Prop :=
  exists l m, Forall2 P l m /\ r_break r = join_sp (map t_text l) /\ r_break q = join_sp (map t_text m).
Definition same_values (r q : rrec) : Prop :=
  r_base r = r_base q /\ r_sub r = r_sub q /\ r_alt r = r_alt q /\ r_alt_si r = r_alt_si q /\ r_speed r = r_speed q /\ r_speed_si r = r_speed_si q /\
  r_rules r = r_rules q /\ r_err r = r_err q /\ r_stay r = r_stay q /\ r_cto r = r_cto q /\ r_cto_si r = r_cto_si q /\
  r_lat r = r_lat q /\ r_lon r = r_lon q /\ r_brg r = r_brg q /\ r_dist r = r_dist q /\ r_llv r = r_llv q.
Definition renamed (P : token -> token -> Prop) (r q : rrec) : Prop := same_values r q /\ same_origin P r q /\ same_words P r q.
Definition same_report (P : token -> token -> Prop) (x y : rrec) : Prop :=
  exists m t u, P t u /\ reports t m x /\ reports u m y.
