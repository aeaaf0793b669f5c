(** * PropsClimb: C92 — a cruise climb is a change of speed and level at its point, with a target. *)
From Coq Require Import ZArith NArith List Bool String Lia.
From Verif Require Import PyBase PyFloat Enums ErrorTable Syntax Tokenizer Ers Utils Parser SpecNum SpecParser SpecGrammar SpecAccept SpecLayout SpecViable SpecLegs SpecRemoval SpecConnector SpecClimb Removal Connector Climb PropsParser PropsAccept PropsRemoval.
Import List ListNotations.
Local Open Scope list_scope.
Local Open Scope nat_scope.

(** C92. In an accepted field, the cruise climb C/POINT/SPEED LEVEL TARGET can be written as a change of speed and level at the
    point, POINT/SPEED LEVEL. The field is accepted, and the results differ in the climb target of the record of that point
    alone: all other values of it and all other records are the same. Excepted is a computed point after a route designator. *)
Theorem C92_climb_to_change : forall (G : geodesic) (depth depth' : nat) (f : pstr) (s : st) pre c sl p sl2 t rest (w g : pstr),
  parse_field15 G depth f = Ok true s ->
  field_roles f = pre ++ (c, ROut) :: (sl, ROut) :: (p, RClimb) :: (sl2, ROut) :: (t, ROut) :: rest ->
  t_base p = F15_POINT -> ~ (after_route pre /\ computed_point (t_sub p) = true) ->
  fst (classify w) = F15_SPEED_ALTITUDE -> speed_part w = speed_part (t_text t) -> first_level w = first_level (t_text t) ->
  element_texts g = wordsof pre ++ t_text p :: $"/" :: w :: wordsof rest -> 3 * n_tokens g <= depth' + 1 ->
  exists s', parse_field15 G depth' g = Ok true s' /\ one_target (t_text p) (target_of t) (target_value t) (s_ers s) (s_ers s').
Proof. exact climb_to_point. Qed.
Print Assumptions C92_climb_to_change.
(** The other way: a change of speed and level at a point can be made a cruise climb, wherever a C may stand. *)
Theorem C92_change_to_climb : forall (G : geodesic) (depth depth' : nat) (f : pstr) (s : st) pre p sl w rest (t : token) (g : pstr),
  parse_field15 G depth f = Ok true s ->
  field_roles f = pre ++ (p, ROut) :: (sl, ROut) :: (w, ROut) :: rest ->
  t_base p = F15_POINT -> t_base sl = F15_SLASH -> t_base w = F15_SPEED_ALTITUDE -> before_c pre ->
  (t_base t, t_sub t) = classify (t_text t) -> is_climb t -> levels_ok t -> speed_part (t_text t) = speed_part (t_text w) -> first_level (t_text t) = first_level (t_text w) ->
  element_texts g = wordsof pre ++ $"C" :: $"/" :: t_text p :: $"/" :: t_text t :: wordsof rest -> 3 * n_tokens g <= depth' + 1 ->
  exists s', parse_field15 G depth' g = Ok true s' /\ one_target (t_text p) (target_of t) (target_value t) (s_ers s') (s_ers s).
Proof. exact point_to_climb. Qed.
Print Assumptions C92_change_to_climb.

(** The restrictions are needed: a climb hides a computed point from the check after a route designator, and need not be at a point
    at all; no climb may stand after the first element or after a SID; and before a C a VFR section does not end. *)
Theorem C92_anywhere_refuted :
  (says_ok ($"N0450F350 ABC UL9 C/48N005E/N0430F330F370 DEF") /\ ~ says_ok ($"N0450F350 ABC UL9 48N005E/N0430F330 DEF")) /\
  (says_ok ($"N0450F350 DCT C/UL9/N0430F330F370 DEF") /\ ~ says_ok ($"N0450F350 DCT UL9/N0430F330 DEF")) /\
  (says_ok ($"N0450F350 ABC/N0430F330 DEF") /\ ~ says_ok ($"N0450F350 C/ABC/N0430F330F370 DEF")) /\
  (says_ok ($"N0450F350 SID ABC/N0430F330 DEF") /\ ~ says_ok ($"N0450F350 SID C/ABC/N0430F330F370 DEF")) /\
  (exists s s', parse_field15 flat 100 ($"N0450F350 ABC VFR DEF IFR GHI/N0430F330 JKL") = Ok true s /\ parse_field15 flat 100 ($"N0450F350 ABC VFR DEF IFR C/GHI/N0430F330F370 JKL") = Ok true s' /\
     length (e_recs (s_ers s)) = 6 /\ length (e_recs (s_ers s')) = 4).
Proof. do 4 (split; [split; [eexists; vm_compute; reflexivity|intros (s & H); vm_compute in H; discriminate H]|]). do 2 eexists. do 2 (split; [vm_compute; reflexivity|]). split; vm_compute; reflexivity. Qed.
Print Assumptions C92_anywhere_refuted.

(** Both theorems apply to a field with a climb: the one makes it a change, the other makes the change a climb again. *)
Example C92_example :
  let f := $"N0450F350 DCT C/ABC/N0430F330F370 UL9 DEF" in
  let g := $"N0450F350 DCT ABC/N0430F330 UL9 DEF" in
  says_ok f /\ says_ok g /\
  (exists pre c sl p sl2 t rest, field_roles f = pre ++ (c, ROut) :: (sl, ROut) :: (p, RClimb) :: (sl2, ROut) :: (t, ROut) :: rest /\
     t_base p = F15_POINT /\ ~ (after_route pre /\ computed_point (t_sub p) = true) /\
     fst (classify ($"N0430F330")) = F15_SPEED_ALTITUDE /\ speed_part ($"N0430F330") = speed_part (t_text t) /\ first_level ($"N0430F330") = first_level (t_text t) /\
     element_texts g = wordsof pre ++ t_text p :: $"/" :: $"N0430F330" :: wordsof rest /\ target_of t = $"F370" /\ target_value t = PyInt 11278) /\
  (exists pre p sl w rest t, field_roles g = pre ++ (p, ROut) :: (sl, ROut) :: (w, ROut) :: rest /\
     t_base p = F15_POINT /\ t_base sl = F15_SLASH /\ t_base w = F15_SPEED_ALTITUDE /\ before_c pre /\
     (t_base t, t_sub t) = classify (t_text t) /\ is_climb t /\ levels_ok t /\ speed_part (t_text t) = speed_part (t_text w) /\ first_level (t_text t) = first_level (t_text w) /\
     element_texts f = wordsof pre ++ $"C" :: $"/" :: t_text p :: $"/" :: t_text t :: wordsof rest).
Proof.
  set (f := $"N0450F350 DCT C/ABC/N0430F330F370 UL9 DEF"). set (g := $"N0450F350 DCT ABC/N0430F330 UL9 DEF"). cbv zeta.
  split; [eexists; vm_compute; reflexivity|]. split; [eexists; vm_compute; reflexivity|].
  set (d := (dct_token, ROut)). split.
  - set (w := field_roles f). exists (firstn 2 w), (fst (nth 2 w d)), (fst (nth 3 w d)), (fst (nth 4 w d)), (fst (nth 5 w d)), (fst (nth 6 w d)), (skipn 7 w).
    do 2 (split; [vm_compute; reflexivity|]). split; [intros (_ & K); vm_compute in K; discriminate K|]. repeat split; vm_compute; reflexivity.
  - set (w := field_roles g). exists (firstn 2 w), (fst (nth 2 w d)), (fst (nth 3 w d)), (fst (nth 4 w d)), (skipn 5 w), (fst (nth 6 (field_roles f) d)).
    do 4 (split; [vm_compute; reflexivity|]). split.
    + exists (firstn 1 w), (nth 1 w d). split; [vm_compute; reflexivity|]. repeat split; intro K; vm_compute in K; discriminate K.
    + split; [vm_compute; reflexivity|]. split; [left; vm_compute; reflexivity|]. split; [|repeat split; vm_compute; reflexivity].
      assert (O : says_ok f) by (eexists; vm_compute; reflexivity). destruct O as (s & Hs). apply (proj1 (C34_flight_levels_partial flat 100 f s Hs)).
      change (In (nth 6 (field_roles f) d) (field_roles f)). apply nth_In. vm_compute. lia.
Qed.
