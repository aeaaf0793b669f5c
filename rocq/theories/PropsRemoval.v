(** * PropsRemoval: C72, C73, C74 — elements that can be left out without changing the result. *)
From Coq Require Import ZArith NArith List Bool String.
From Coq Require Import Floats.SpecFloat.
From Verif Require Import PyBase PyFloat Enums ErrorTable Tokenizer Ers Utils Parser SpecNum SpecParser SpecGrammar SpecAccept SpecLayout SpecViable SpecLegs SpecRemoval Removal PropsParser PropsLegs.
Import List ListNotations.
Local Open Scope list_scope.
Local Open Scope nat_scope.

(** C72. DCT is optional: an accepted field without a DCT that stands before a point (or, after the first element, before C)
    is accepted, and its records are those of the field without the record of that DCT, but for places and legs. *)
Theorem C72_dct_left_out : forall (G : geodesic) (depth depth' : nat) (f : pstr) (s : st) pre d q ro rest (g : pstr),
  parse_field15 G depth f = Ok true s ->
  field_roles f = pre ++ (d, ROut) :: (q, ro) :: rest -> t_base d = F15_DCT ->
  (t_base q = F15_POINT \/ (t_base q = F15_C /\ 2 <= length pre)) ->
  element_texts g = wordsof (pre ++ (q, ro) :: rest) -> 3 * n_tokens g <= depth' + 1 ->
  exists s' U x V, parse_field15 G depth' g = Ok true s' /\
    e_recs (s_ers s) = U ++ x :: V /\ (r_name x = t_text d /\ r_start x = t_start d /\ r_end x = t_end d /\ r_base x = F15_DCT) /\
    Forall2 same_but_leg (U ++ V) (e_recs (s_ers s')) /\ e_errs (s_ers s') = [] /\ e_rules (s_ers s') = e_rules (s_ers s).
Proof. exact dct_dropped. Qed.
Print Assumptions C72_dct_left_out.
(** A DCT can be put before a point of an accepted field, unless a route, a DCT, a SID or the text of a break section comes before it. *)
Theorem C72_dct_put_in : forall (G : geodesic) (depth depth' : nat) (f : pstr) (s : st) pre x q rest (g : pstr),
  parse_field15 G depth f = Ok true s ->
  field_roles f = pre ++ x :: (q, ROut) :: rest -> before_dct x -> t_base q = F15_POINT ->
  element_texts g = wordsof (pre ++ [x]) ++ $"DCT" :: wordsof ((q, ROut) :: rest) -> 3 * n_tokens g <= depth' + 1 ->
  exists s' U y V, parse_field15 G depth' g = Ok true s' /\
    e_recs (s_ers s') = U ++ y :: V /\ (r_name y = $"DCT" /\ r_base y = F15_DCT) /\
    Forall2 same_but_leg (U ++ V) (e_recs (s_ers s)) /\ e_errs (s_ers s') = [] /\ e_rules (s_ers s') = e_rules (s_ers s).
Proof. exact dct_inserted. Qed.
Print Assumptions C72_dct_put_in.
(** The legs are not the same: a DCT hides a located point from a leg that would span it. *)
Theorem C72_same_legs_refuted : exists (G : geodesic) (depth : nat) (f g : pstr) (s s' : st) a r p d q z r' rest',
  parse_field15 G depth f = Ok true s /\ parse_field15 G depth g = Ok true s' /\
  element_texts f = [$"N0450F350"; $"00N000E"; $"ABC"; $"DCT"; $"48N005E"] /\ element_texts g = [$"N0450F350"; $"00N000E"; $"ABC"; $"48N005E"] /\
  e_recs (s_ers s) = [a; r; p; d; q; z] /\ r_base d = F15_DCT /\ e_recs (s_ers s') = a :: r' :: rest' /\ same_but_leg r r' /\
  r_brg r = zero_f /\ r_brg r' = f_of_Z 48.
Proof.
  set (f := $"N0450F350 00N000E ABC DCT 48N005E"). set (g := $"N0450F350 00N000E ABC 48N005E").
  exists second, 100, f, g. do 2 eexists. exists (rec_at f 0), (rec_at f 1), (rec_at f 2), (rec_at f 3), (rec_at f 4), (rec_at f 5), (rec_at g 1), (skipn 2 (recs_of g)).
  do 7 (split; [vm_compute; reflexivity|]). split; [unfold same_but_leg; repeat (split; [vm_compute; reflexivity|]); vm_compute; reflexivity|]. split; vm_compute; reflexivity.
Qed.
Print Assumptions C72_same_legs_refuted.
Definition says_ok (f : pstr) : Prop := exists s, parse_field15 flat 100 f = Ok true s.
(** A field and the field without its DCT; and the restriction for C is needed. *)
Example C72_example :
  let f := $"N0450F350 DCT ABC DCT C/DEF/N0450F350F390 DCT GHI" in
  says_ok f /\ (exists pre d q ro rest, field_roles f = pre ++ (d, ROut) :: (q, ro) :: rest /\ t_base d = F15_DCT /\ t_base q = F15_C /\ length pre = 3 /\
     element_texts ($"N0450F350 DCT ABC C/DEF/N0450F350F390 DCT GHI") = wordsof (pre ++ (q, ro) :: rest)) /\
  says_ok ($"N0450F350 DCT C") /\ ~ says_ok ($"N0450F350 C").
Proof.
  set (f := $"N0450F350 DCT ABC DCT C/DEF/N0450F350F390 DCT GHI"). set (w := field_roles f). split; [eexists; vm_compute; reflexivity|].
  split; [|split; [eexists; vm_compute; reflexivity|intros (s & H); vm_compute in H; discriminate H]].
  exists (firstn 3 w), (fst (nth 3 w (dct_token, ROut))), (fst (nth 4 w (dct_token, ROut))), ROut, (skipn 5 w). repeat (split; [vm_compute; reflexivity|]). vm_compute. reflexivity.
Qed.
Example C72_example_in :
  let f := $"N0450F350 ABC STAY1/0100 DEF" in
  says_ok f /\ exists pre x q rest, field_roles f = pre ++ x :: (q, ROut) :: rest /\ before_dct x /\ t_base q = F15_POINT /\
    element_texts ($"N0450F350 ABC STAY1/0100 DCT DEF") = wordsof (pre ++ [x]) ++ $"DCT" :: wordsof ((q, ROut) :: rest).
Proof.
  set (f := $"N0450F350 ABC STAY1/0100 DEF"). set (w := field_roles f). split; [eexists; vm_compute; reflexivity|].
  exists (firstn 4 w), (nth 4 w (dct_token, ROut)), (fst (nth 5 w (dct_token, ROut))), (skipn 6 w). split; [vm_compute; reflexivity|]. split; [vm_compute; auto|]. split; vm_compute; reflexivity.
Qed.

(** C73. The truncation mark T adds nothing to an accepted field: without it (and with anything between the first element and it)
    the field is accepted with the same result. *)
Theorem C73_truncation_left_out : forall (G : geodesic) (depth depth' : nat) (f : pstr) (s : st) pre t (g : pstr),
  parse_field15 G depth f = Ok true s -> field_roles f = pre ++ [(t, ROut)] -> t_base t = F15_TRUNCATE ->
  2 <= length pre -> element_texts g = wordsof pre -> 3 * n_tokens g <= depth' + 1 ->
  exists s', parse_field15 G depth' g = Ok true s' /\ same_sequence (s_ers s) (s_ers s').
Proof. exact truncation_dropped. Qed.
Print Assumptions C73_truncation_left_out.
Example C73_example :
  let f := $"N0450F350 ABC UL613 T" in
  says_ok f /\ (exists pre t, field_roles f = pre ++ [(t, ROut)] /\ t_base t = F15_TRUNCATE /\ length pre = 3 /\ element_texts ($"N0450F350 ABC UL613") = wordsof pre) /\
  says_ok ($"N0450F350 T") /\ ~ says_ok ($"N0450F350").
Proof.
  set (f := $"N0450F350 ABC UL613 T"). set (w := field_roles f). split; [eexists; vm_compute; reflexivity|].
  split; [|split; [eexists; vm_compute; reflexivity|intros (s & H); vm_compute in H; discriminate H]].
  exists (firstn 3 w), (fst (nth 3 w (dct_token, ROut))). repeat (split; [vm_compute; reflexivity|]). vm_compute. reflexivity.
Qed.

(** C74. A "/speed/level" that gives the speed and the level in force can be left out; except at the point after the IFR that
    ends a VFR section, where it is required. *)
Theorem C74_repeated_speed_left_out : forall (G : geodesic) (depth depth' : nat) (f : pstr) (s : st) pre sl t rest (g : pstr),
  parse_field15 G depth f = Ok true s ->
  field_roles f = pre ++ (sl, ROut) :: (t, ROut) :: rest -> t_base t = F15_SPEED_ALTITUDE -> ~ just_resumed pre ->
  in_force pre = Some (speed_part (t_text t), first_level (t_text t)) ->
  element_texts g = wordsof (pre ++ rest) -> 3 * n_tokens g <= depth' + 1 ->
  exists s', parse_field15 G depth' g = Ok true s' /\ same_sequence (s_ers s) (s_ers s').
Proof. exact repeated_speed. Qed.
Print Assumptions C74_repeated_speed_left_out.
(** Of several "/speed/level" at a point only the last counts. *)
Theorem C74_overridden_speed_left_out : forall (G : geodesic) (depth depth' : nat) (f : pstr) (s : st) pre sl t sl' t' rest (g : pstr),
  parse_field15 G depth f = Ok true s ->
  field_roles f = pre ++ (sl, ROut) :: (t, ROut) :: (sl', ROut) :: (t', ROut) :: rest ->
  t_base t = F15_SPEED_ALTITUDE -> t_base sl' = F15_SLASH -> t_base t' = F15_SPEED_ALTITUDE ->
  element_texts g = wordsof (pre ++ (sl', ROut) :: (t', ROut) :: rest) -> 3 * n_tokens g <= depth' + 1 ->
  exists s', parse_field15 G depth' g = Ok true s' /\ same_sequence (s_ers s) (s_ers s').
Proof. exact overridden_speed. Qed.
Print Assumptions C74_overridden_speed_left_out.
Example C74_example :
  let f := $"N0450F350 ABC DEF/N0450F350 GHI/M080F350/N0430F330 T" in
  says_ok f /\
  (exists pre sl t rest, field_roles f = pre ++ (sl, ROut) :: (t, ROut) :: rest /\ t_base t = F15_SPEED_ALTITUDE /\ ~ just_resumed pre /\
     in_force pre = Some (speed_part (t_text t), first_level (t_text t)) /\ element_texts ($"N0450F350 ABC DEF GHI/M080F350/N0430F330 T") = wordsof (pre ++ rest)) /\
  (exists pre sl t sl' t' rest, field_roles f = pre ++ (sl, ROut) :: (t, ROut) :: (sl', ROut) :: (t', ROut) :: rest /\
     t_base t = F15_SPEED_ALTITUDE /\ t_base sl' = F15_SLASH /\ t_base t' = F15_SPEED_ALTITUDE /\
     element_texts ($"N0450F350 ABC DEF/N0450F350 GHI/N0430F330 T") = wordsof (pre ++ (sl', ROut) :: (t', ROut) :: rest)) /\
  (let h := $"N0450F350 ABC OAT GAT DEF/N0450F350" in says_ok h /\
     exists pre sl t, field_roles h = pre ++ [(sl, ROut); (t, ROut)] /\ t_base t = F15_SPEED_ALTITUDE /\ ~ just_resumed pre /\
       in_force pre = Some (speed_part (t_text t), first_level (t_text t)) /\ element_texts ($"N0450F350 ABC OAT GAT DEF") = wordsof pre) /\
  says_ok ($"N0450VFR x IFR ABC/N0450F050") /\ ~ says_ok ($"N0450VFR x IFR ABC").
Proof.
  set (f := $"N0450F350 ABC DEF/N0450F350 GHI/M080F350/N0430F330 T"). set (w := field_roles f). set (e := (dct_token, ROut)). split; [eexists; vm_compute; reflexivity|].
  split; [|split; [|split; [|split; [eexists; vm_compute; reflexivity|intros (s & H); vm_compute in H; discriminate H]]]].
  - exists (firstn 3 w), (fst (nth 3 w e)), (fst (nth 4 w e)), (skipn 5 w). split; [vm_compute; reflexivity|]. split; [vm_compute; reflexivity|]. split; [|split; vm_compute; reflexivity].
    intros (w0 & x & p & K & _). apply (f_equal (fun l => map snd (rev l))) in K. rewrite rev_app_distr in K. cbn [rev app map snd] in K. vm_compute in K. discriminate K.
  - exists (firstn 6 w), (fst (nth 6 w e)), (fst (nth 7 w e)), (fst (nth 8 w e)), (fst (nth 9 w e)), (skipn 10 w). repeat (split; [vm_compute; reflexivity|]). vm_compute. reflexivity.
  - clear w. set (h := $"N0450F350 ABC OAT GAT DEF/N0450F350"). set (w := field_roles h). cbv zeta. split; [eexists; vm_compute; reflexivity|].
    exists (firstn 5 w), (fst (nth 5 w e)), (fst (nth 6 w e)). split; [vm_compute; reflexivity|]. split; [vm_compute; reflexivity|]. split; [|split; vm_compute; reflexivity].
    intros (w0 & x & p & K & L). apply (f_equal (fun l => map (fun y => t_sub (fst y)) (rev l))) in K. rewrite rev_app_distr in K. cbn [rev app map fst] in K. rewrite L in K. vm_compute in K. discriminate K.
Qed.
