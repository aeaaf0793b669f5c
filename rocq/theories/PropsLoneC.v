(** * PropsLoneC: C118 — a C that is not followed by a slash stands for a point. *)
From Coq Require Import ZArith NArith List Bool String Lia.
From Verif Require Import PyBase PyFloat Enums ErrorTable Syntax Tokenizer Ers Utils Parser SpecNum SpecParser SpecGrammar SpecAccept SpecLayout SpecViable SpecLegs SpecRemoval SpecConnector SpecLoneC Removal Connector LoneC PropsParser PropsRemoval.
Import List ListNotations.
Local Open Scope list_scope.
Local Open Scope nat_scope.

(** C118. In an accepted field a C that is not followed by a slash can be replaced by any point given by its name: the field is
    accepted, all other records have the same values, legs included, and its own record has another name and other types only. *)
Theorem C118_c_to_point : forall (G : geodesic) (depth depth' : nat) (f : pstr) (s : st) pre c rest (w g : pstr),
  parse_field15 G depth f = Ok true s ->
  field_roles f = pre ++ (c, ROut) :: rest -> t_base c = F15_C -> ~ before_slash rest -> plain_name w ->
  element_texts g = wordsof pre ++ w :: wordsof rest -> 3 * n_tokens g <= depth' + 1 ->
  exists s', parse_field15 G depth' g = Ok true s' /\ one_replaced (t_text c) F15_C w F15_POINT (s_ers s) (s_ers s').
Proof. exact c_to_point. Qed.
Print Assumptions C118_c_to_point.
(** A point given by its name can be replaced by a C, unless a slash follows it, or it follows the first element, a SID, or a
    VFR, OAT or IFPSTOP section. *)
Theorem C118_point_to_c : forall (G : geodesic) (depth depth' : nat) (f : pstr) (s : st) pre q rest (g : pstr),
  parse_field15 G depth f = Ok true s ->
  field_roles f = pre ++ (q, ROut) :: rest -> t_base q = F15_POINT -> computed_point (t_sub q) = false -> ~ before_slash rest ->
  2 <= length pre -> ~ after_sid pre -> ~ after_section pre ->
  element_texts g = wordsof pre ++ $"C" :: wordsof rest -> 3 * n_tokens g <= depth' + 1 ->
  exists s', parse_field15 G depth' g = Ok true s' /\ one_replaced (t_text q) F15_POINT ($"C") F15_C (s_ers s) (s_ers s').
Proof. exact point_to_c. Qed.
Print Assumptions C118_point_to_c.

(** The restrictions are needed. A C after a section does not end it: it is part of its text. *)
Theorem C118_anywhere_refuted :
  (says_ok ($"N0450F350 ABC") /\ ~ says_ok ($"N0450F350 C")) /\
  (says_ok ($"N0450F350 ABC1A DEF") /\ ~ says_ok ($"N0450F350 ABC1A C")) /\
  (says_ok ($"N0450F350 ABC DEF/N0430F330") /\ ~ says_ok ($"N0450F350 ABC C/N0430F330")) /\
  (says_ok ($"N0450F350 ABC C/DEF/N0430F330F350") /\ ~ says_ok ($"N0450F350 ABC GHI/DEF/N0430F330F350")) /\
  (exists s s', parse_field15 flat 100 ($"N0450F350 ABC OAT GAT DEF") = Ok true s /\ parse_field15 flat 100 ($"N0450F350 ABC OAT GAT C") = Ok true s' /\
     length (e_recs (s_ers s)) = 5 /\ length (e_recs (s_ers s')) = 4 /\ map r_break (e_recs (s_ers s')) = [[]; []; $"GAT C"; []]).
Proof. split; [|split; [|split; [|split]]]; [..|eexists; eexists; split; [vm_compute; reflexivity|]; split; [vm_compute; reflexivity|]; vm_compute; auto]; (split; [eexists; vm_compute; reflexivity|]); intros (s & H); vm_compute in H; discriminate H. Qed.
Print Assumptions C118_anywhere_refuted.

Example C118_example :
  let f := $"N0450F350 ABC C STAY1/0030 UL9 DEF 48N005E" in
  says_ok f /\
  (exists pre c rest, field_roles f = pre ++ (c, ROut) :: rest /\ t_base c = F15_C /\ length pre = 2 /\ ~ before_slash rest /\ plain_name ($"GHI") /\
     element_texts ($"N0450F350 ABC GHI STAY1/0030 UL9 DEF 48N005E") = wordsof pre ++ $"GHI" :: wordsof rest) /\
  (exists pre q rest, field_roles f = pre ++ (q, ROut) :: rest /\ t_base q = F15_POINT /\ computed_point (t_sub q) = false /\ length pre = 7 /\
     ~ before_slash rest /\ ~ after_sid pre /\ ~ after_section pre /\
     element_texts ($"N0450F350 ABC C STAY1/0030 UL9 C 48N005E") = wordsof pre ++ $"C" :: wordsof rest).
Proof.
  set (f := $"N0450F350 ABC C STAY1/0030 UL9 DEF 48N005E"). set (w := field_roles f). split; [eexists; vm_compute; reflexivity|]. split.
  - exists (firstn 2 w), (fst (nth 2 w (dct_token, ROut))), (skipn 3 w). do 3 (split; [vm_compute; reflexivity|]). split; [|split; [split|]; vm_compute; reflexivity].
    intros (x & r0 & E & Hx). apply (f_equal (fun l => t_base (fst (hd (dct_token, ROut) l)))) in E. cbn [hd] in E. rewrite Hx in E. vm_compute in E. discriminate E.
  - exists (firstn 7 w), (fst (nth 7 w (dct_token, ROut))), (skipn 8 w). do 4 (split; [vm_compute; reflexivity|]). split; [|split; [|split; [|vm_compute; reflexivity]]].
    + intros (x & r0 & E & Hx). apply (f_equal (fun l => t_base (fst (hd (dct_token, ROut) l)))) in E. cbn [hd] in E. rewrite Hx in E. vm_compute in E. discriminate E.
    + intros (p0 & x & E & Hx). apply (f_equal (fun l => last l (dct_token, ROut))) in E. rewrite last_last in E. rewrite <- E in Hx. vm_compute in Hx. intuition discriminate.
    + intros (p0 & x & E & Hx). apply (f_equal (fun l => last l (dct_token, ROut))) in E. rewrite last_last in E. rewrite <- E in Hx. vm_compute in Hx. discriminate Hx.
Qed.
