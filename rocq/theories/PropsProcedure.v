(** * PropsProcedure: C95 — a SID or a STAR adds its own record and changes nothing else. *)
From Coq Require Import ZArith NArith List Bool String Lia.
From Verif Require Import PyBase PyFloat Enums ErrorTable Syntax Tokenizer Ers Utils Parser SpecNum SpecParser SpecGrammar SpecAccept SpecLayout SpecViable SpecRemoval SpecProcedure Removal Connector Procedure PropsParser PropsRemoval.
Import List ListNotations.
Local Open Scope list_scope.
Local Open Scope nat_scope.

(** C95. An accepted field without its STAR is accepted, unless nothing but the first element is left, and its result is the same
    without the record of the STAR. *)
Theorem C95_star_left_out : forall (G : geodesic) (depth depth' : nat) (f : pstr) (s : st) pre t (g : pstr),
  parse_field15 G depth f = Ok true s -> field_roles f = pre ++ [(t, ROut)] -> In (t_base t) [F15_STAR; F15_SID_STAR] -> 2 <= length pre ->
  element_texts g = wordsof pre -> 3 * n_tokens g <= depth' + 1 ->
  exists s', parse_field15 G depth' g = Ok true s' /\ one_more (t_text t) F15_STAR (s_ers s) (s_ers s').
Proof. exact star_left_out. Qed.
Print Assumptions C95_star_left_out.
(** The same for the SID, unless a route designator or a designator that is taken for a SID in its place comes next. *)
Theorem C95_sid_left_out : forall (G : geodesic) (depth depth' : nat) (f : pstr) (s : st) x t q rest (g : pstr),
  parse_field15 G depth f = Ok true s -> field_roles f = x :: (t, ROut) :: q :: rest -> In (t_base t) [F15_SID; F15_SID_STAR] ->
  t_base (fst q) <> F15_ROUTE -> t_base (fst q) <> F15_SID_STAR ->
  element_texts g = wordsof (x :: q :: rest) -> 3 * n_tokens g <= depth' + 1 ->
  exists s', parse_field15 G depth' g = Ok true s' /\ one_more (t_text t) F15_SID (s_ers s) (s_ers s').
Proof. exact sid_left_out. Qed.
Print Assumptions C95_sid_left_out.
(** A STAR can be put at the end of an accepted field that ends with a point and what belongs to it, a C or the SID. *)
Theorem C95_star_put_in : forall (G : geodesic) (depth depth' : nat) (f : pstr) (s : st) (w g : pstr),
  parse_field15 G depth f = Ok true s -> before_star (field_roles f) -> In (fst (classify w)) [F15_STAR; F15_SID_STAR] ->
  element_texts g = element_texts f ++ [w] -> 3 * n_tokens g <= depth' + 1 ->
  exists s', parse_field15 G depth' g = Ok true s' /\ one_more w F15_STAR (s_ers s') (s_ers s).
Proof. exact star_put_in. Qed.
Print Assumptions C95_star_put_in.
(** A SID can be put after the first element if a point, a STAR or the truncation indicator follows. *)
Theorem C95_sid_put_in : forall (G : geodesic) (depth depth' : nat) (f : pstr) (s : st) x q rest (w g : pstr),
  parse_field15 G depth f = Ok true s -> field_roles f = x :: (q, ROut) :: rest -> In (t_base q) [F15_POINT; F15_STAR; F15_TRUNCATE] ->
  In (fst (classify w)) [F15_SID; F15_SID_STAR] ->
  element_texts g = t_text (fst x) :: w :: wordsof ((q, ROut) :: rest) -> 3 * n_tokens g <= depth' + 1 ->
  exists s', parse_field15 G depth' g = Ok true s' /\ one_more w F15_SID (s_ers s') (s_ers s).
Proof. exact sid_put_in. Qed.
Print Assumptions C95_sid_put_in.

(** The exceptions are real: without the SID, a route designator is refused, and the STAR becomes a SID; a procedure cannot be left
    out if it is the only element; and no SID may come before a DCT, no STAR after one. *)
Theorem C95_anywhere_refuted :
  (says_ok ($"N0450F350 SID UL9 ABC") /\ ~ says_ok ($"N0450F350 UL9 ABC")) /\
  (exists s s', parse_field15 flat 100 ($"N0450F350 SID ABC1D") = Ok true s /\ parse_field15 flat 100 ($"N0450F350 ABC1D") = Ok true s' /\
     map r_base (e_recs (s_ers s)) = [F15_POINT; F15_SID; F15_STAR; F15_POINT] /\ map r_base (e_recs (s_ers s')) = [F15_POINT; F15_SID; F15_POINT]) /\
  (says_ok ($"N0450F350 STAR") /\ ~ says_ok ($"N0450F350")) /\
  (says_ok ($"N0450F350 DCT ABC") /\ ~ says_ok ($"N0450F350 SID DCT ABC")) /\
  (says_ok ($"N0450F350 ABC DCT") /\ ~ says_ok ($"N0450F350 ABC DCT STAR")).
Proof.
  split; [split; [eexists; vm_compute; reflexivity|intros (s & H); vm_compute in H; discriminate H]|].
  split; [do 2 eexists; split; [vm_compute; reflexivity|]; split; [vm_compute; reflexivity|]; split; vm_compute; reflexivity|].
  do 2 (split; [split; [eexists; vm_compute; reflexivity|intros (s & H); vm_compute in H; discriminate H]|]). split; [eexists; vm_compute; reflexivity|intros (s & H); vm_compute in H; discriminate H].
Qed.
Print Assumptions C95_anywhere_refuted.

(** All four apply to a field with both procedures and what is left of it. *)
Example C95_example :
  let f := $"N0450F350 ABC1D 48N005E DCT 50N006E/N0430F330 DEF2B" in
  let g := $"N0450F350 48N005E DCT 50N006E/N0430F330 DEF2B" in
  let h := $"N0450F350 48N005E DCT 50N006E/N0430F330" in
  says_ok f /\ says_ok g /\ says_ok h /\
  (exists x t q rest, field_roles f = x :: (t, ROut) :: q :: rest /\ In (t_base t) [F15_SID; F15_SID_STAR] /\ t_base (fst q) <> F15_ROUTE /\ t_base (fst q) <> F15_SID_STAR /\
     element_texts g = wordsof (x :: q :: rest)) /\
  (exists x q rest, field_roles g = x :: (q, ROut) :: rest /\ In (t_base q) [F15_POINT; F15_STAR; F15_TRUNCATE] /\ In (fst (classify ($"ABC1D"))) [F15_SID; F15_SID_STAR] /\
     element_texts f = t_text (fst x) :: $"ABC1D" :: wordsof ((q, ROut) :: rest)) /\
  (exists pre t, field_roles g = pre ++ [(t, ROut)] /\ In (t_base t) [F15_STAR; F15_SID_STAR] /\ 2 <= length pre /\ element_texts h = wordsof pre) /\
  (before_star (field_roles h) /\ In (fst (classify ($"DEF2B"))) [F15_STAR; F15_SID_STAR] /\ element_texts g = element_texts h ++ [$"DEF2B"]).
Proof.
  set (f := $"N0450F350 ABC1D 48N005E DCT 50N006E/N0430F330 DEF2B"). set (g := $"N0450F350 48N005E DCT 50N006E/N0430F330 DEF2B"). set (h := $"N0450F350 48N005E DCT 50N006E/N0430F330"). cbv zeta.
  do 3 (split; [eexists; vm_compute; reflexivity|]). set (d := (dct_token, ROut)). split; [|split; [|split]].
  - set (w := field_roles f). exists (nth 0 w d), (fst (nth 1 w d)), (nth 2 w d), (skipn 3 w). split; [vm_compute; reflexivity|]. split; [vm_compute; tauto|]. do 2 (split; [intro K; vm_compute in K; discriminate K|]). vm_compute. reflexivity.
  - set (w := field_roles g). exists (nth 0 w d), (fst (nth 1 w d)), (skipn 2 w). split; [vm_compute; reflexivity|]. do 2 (split; [vm_compute; tauto|]). vm_compute. reflexivity.
  - set (w := field_roles g). exists (firstn 6 w), (fst (nth 6 w d)). split; [vm_compute; reflexivity|]. split; [vm_compute; tauto|]. split; [vm_compute; lia|]. vm_compute. reflexivity.
  - set (w := field_roles h). split; [exists (firstn 5 w), (fst (nth 5 w d)); split; [vm_compute; reflexivity|left; vm_compute; tauto]|]. split; [vm_compute; tauto|]. vm_compute. reflexivity.
Qed.
