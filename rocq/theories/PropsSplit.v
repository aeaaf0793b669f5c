(** * PropsSplit: C77, C78, C79 — cutting a field in two and joining two fields. *)
From Coq Require Import ZArith NArith List Bool String.
From Coq Require Import Floats.SpecFloat.
From Verif Require Import PyBase PyFloat Enums ErrorTable Tokenizer Ers Utils Parser SpecNum SpecParser SpecGrammar SpecAccept SpecLayout SpecViable SpecLegs SpecRemoval SpecSplit Removal Split Join PropsParser PropsLegs PropsRemoval.
Import List ListNotations.
Local Open Scope list_scope.
Local Open Scope nat_scope.

(** C77. An accepted field cut before an element that begins something new is accepted, and its records are those
    of the field that start before the cut, but for places and legs. *)
Theorem C77_cut : forall (G : geodesic) (depth depth' : nat) (f : pstr) (s : st) pre q rest (g : pstr),
  parse_field15 G depth f = Ok true s -> field_roles f = pre ++ (q, ROut) :: rest -> begins_anew q -> 2 <= length pre ->
  element_texts g = wordsof pre -> 3 * n_tokens g <= depth' + 1 ->
  exists s' A B ades A' ades', parse_field15 G depth' g = Ok true s' /\ divided (t_start q) (e_recs (s_ers s)) A B ades /\
    e_recs (s_ers s') = A' ++ [ades'] /\ aerodrome ($"ADES") ades' /\ Forall2 same_but_leg A A'.
Proof. exact cut_field. Qed.
Print Assumptions C77_cut.
(** The legs of the field do depend on what comes after the cut. *)
Theorem C77_same_legs_refuted : exists (G : geodesic) (depth : nat) (f g : pstr) (s s' : st) a r rest r' rest',
  parse_field15 G depth f = Ok true s /\ parse_field15 G depth g = Ok true s' /\
  element_texts f = element_texts g ++ [$"48N005E"] /\ e_recs (s_ers s) = a :: r :: rest /\ e_recs (s_ers s') = a :: r' :: rest' /\ same_but_leg r r' /\
  r_brg r = f_of_Z 48 /\ r_brg r' = zero_f.
Proof.
  set (f := $"N0450F350 00N000E ABC 48N005E"). set (g := $"N0450F350 00N000E ABC").
  exists second, 100, f, g. do 2 eexists. exists (rec_at f 0), (rec_at f 1), (skipn 2 (recs_of f)), (rec_at g 1), (skipn 2 (recs_of g)).
  do 5 (split; [vm_compute; reflexivity|]). split; [unfold same_but_leg; repeat (split; [vm_compute; reflexivity|]); vm_compute; reflexivity|]. split; vm_compute; reflexivity.
Qed.
Print Assumptions C77_same_legs_refuted.
(** A cut elsewhere may not do: before the speed of the point where IFR resumes. *)
Example C77_example :
  let f := $"N0450F350 ABC VFR x IFR DEF/N0450F350 GHI" in
  says_ok f /\ (exists pre q rest, field_roles f = pre ++ (q, ROut) :: rest /\ begins_anew q /\ length pre = 5 /\ element_texts ($"N0450F350 ABC VFR x IFR") = wordsof pre) /\
  says_ok ($"N0450F350 ABC VFR x IFR") /\ ~ says_ok ($"N0450F350 ABC VFR x IFR DEF").
Proof.
  set (f := $"N0450F350 ABC VFR x IFR DEF/N0450F350 GHI"). set (w := field_roles f). split; [eexists; vm_compute; reflexivity|].
  split; [|split; [eexists; vm_compute; reflexivity|intros (s & H); vm_compute in H; discriminate H]].
  exists (firstn 5 w), (fst (nth 5 w (dct_token, ROut))), (skipn 6 w). split; [vm_compute; reflexivity|]. split; [vm_compute; auto|]. split; vm_compute; reflexivity.
Qed.

(** C78. The rest of an accepted field from one of its points on, with the speed and level in force there put before it,
    is accepted, and its records after ADEP are those of the field from that point on, but for places and legs. *)
Theorem C78_from_point : forall (G : geodesic) (depth depth' : nat) (f : pstr) (s : st) pre p rest sp lv (g : pstr),
  parse_field15 G depth f = Ok true s -> field_roles f = pre ++ (p, ROut) :: rest -> t_base p = F15_POINT -> ~ unchecked_point pre rest ->
  in_force pre = Some (sp, lv) -> element_texts g = (sp ++ lv) :: wordsof ((p, ROut) :: rest) -> 3 * n_tokens g <= depth' + 1 ->
  exists s' A B ades adep' B', parse_field15 G depth' g = Ok true s' /\ divided (t_start p) (e_recs (s_ers s)) A B ades /\
    e_recs (s_ers s') = adep' :: B' /\ aerodrome ($"ADEP") adep' /\ Forall2 same_but_leg (B ++ [ades]) B'.
Proof. exact from_point. Qed.
Print Assumptions C78_from_point.
Example C78_example :
  let f := $"K0830VFR x IFR ABC/N0450F350 UL613 C/DEF/M080F350F370 GHI OAT y" in
  says_ok f /\ (exists pre p rest, field_roles f = pre ++ (p, ROut) :: rest /\ t_base p = F15_POINT /\ ~ unchecked_point pre rest /\ in_force pre = Some ($"M080", $"F350") /\
    element_texts ($"M080F350 GHI OAT y") = ($"M080" ++ $"F350") :: wordsof ((p, ROut) :: rest)) /\
  (exists pre p rest, field_roles f = pre ++ (p, ROut) :: rest /\ t_base p = F15_POINT /\ ~ unchecked_point pre rest /\ in_force pre = Some ($"K0830", $"F050") /\
    element_texts ($"K0830F050 ABC/N0450F350 UL613 C/DEF/M080F350F370 GHI OAT y") = ($"K0830" ++ $"F050") :: wordsof ((p, ROut) :: rest)).
Proof.
  set (f := $"K0830VFR x IFR ABC/N0450F350 UL613 C/DEF/M080F350F370 GHI OAT y"). set (w := field_roles f). split; [eexists; vm_compute; reflexivity|]. split.
  - exists (firstn 12 w), (fst (nth 12 w (dct_token, ROut))), (skipn 13 w). split; [vm_compute; reflexivity|]. split; [vm_compute; reflexivity|]. split; [|split; vm_compute; reflexivity].
    intros (_ & sl & sv & r & K & B & _). apply (f_equal (fun l => match l with x :: _ => t_base (fst x) | [] => F15_UNKNOWN end)) in K. cbn [fst] in K. rewrite B in K. vm_compute in K. discriminate K.
  - exists (firstn 3 w), (fst (nth 3 w (dct_token, ROut))), (skipn 4 w). split; [vm_compute; reflexivity|]. split; [vm_compute; reflexivity|]. split; [|split; vm_compute; reflexivity].
    intros (_ & sl & sv & r & K & _ & B). apply (f_equal (fun l => match l with _ :: x :: _ => t_base (fst x) | _ => F15_UNKNOWN end)) in K. cbn [fst] in K. rewrite B in K. vm_compute in K. discriminate K.
Qed.

(** C79. Two accepted fields, the second of which begins with the speed and level in force at the end of the first and goes on
    with a point, can be joined; the records are those of the two fields without ADES of the first and ADEP of the second,
    but for places and legs. *)
Theorem C79_join : forall (G : geodesic) (depth1 depth2 depth3 : nat) (f g h : pstr) (s1 s2 : st) pre x t0 p rest,
  parse_field15 G depth1 f = Ok true s1 -> parse_field15 G depth2 g = Ok true s2 ->
  field_roles f = pre ++ [(x, ROut)] -> goes_on pre x ->
  field_roles g = (t0, ROut) :: (p, ROut) :: rest -> t_base t0 = F15_SPEED_ALTITUDE -> t_base p = F15_POINT ->
  (t_base x = F15_ROUTE -> computed_point (t_sub p) = false) ->
  in_force (field_roles f) = Some (speed_part (t_text t0), first_level (t_text t0)) ->
  element_texts h = element_texts f ++ tl (element_texts g) -> 3 * n_tokens h <= depth3 + 1 ->
  exists s3 A z a B A3 B3, parse_field15 G depth3 h = Ok true s3 /\ e_recs (s_ers s1) = A ++ [z] /\ e_recs (s_ers s2) = a :: B /\
    e_recs (s_ers s3) = A3 ++ B3 /\ Forall2 same_but_leg A A3 /\ Forall2 same_but_leg B B3.
Proof. exact join_fields. Qed.
Print Assumptions C79_join.
(** After a route the point must have a name. *)
Example C79_example :
  let f := $"N0450F350 ABC/M080F370 UL613" in let g := $"M080F370 DEF DCT GHI T" in
  says_ok f /\ says_ok g /\
  (exists pre x t0 p rest, field_roles f = pre ++ [(x, ROut)] /\ goes_on pre x /\ field_roles g = (t0, ROut) :: (p, ROut) :: rest /\ t_base t0 = F15_SPEED_ALTITUDE /\ t_base p = F15_POINT /\
     t_base x = F15_ROUTE /\ computed_point (t_sub p) = false /\ in_force (field_roles f) = Some (speed_part (t_text t0), first_level (t_text t0))) /\
  element_texts ($"N0450F350 ABC/M080F370 UL613 DEF DCT GHI T") = element_texts f ++ tl (element_texts g) /\
  says_ok ($"M080F370 48N005E") /\ ~ says_ok ($"N0450F350 ABC/M080F370 UL613 48N005E").
Proof.
  set (f := $"N0450F350 ABC/M080F370 UL613"). set (g := $"M080F370 DEF DCT GHI T"). set (w := field_roles f). set (u := field_roles g). set (e := (dct_token, ROut)).
  split; [eexists; vm_compute; reflexivity|]. split; [eexists; vm_compute; reflexivity|]. split.
  - exists (firstn 4 w), (fst (nth 4 w e)), (fst (nth 0 u e)), (fst (nth 1 u e)), (skipn 2 u). split; [vm_compute; reflexivity|]. split; [left; vm_compute; auto|]. repeat (split; [vm_compute; reflexivity|]). vm_compute. reflexivity.
  - split; [vm_compute; reflexivity|]. split; [eexists; vm_compute; reflexivity|intros (s & H); vm_compute in H; discriminate H].
Qed.
