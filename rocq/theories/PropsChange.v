(** * PropsChange: C112 — how far a change of speed and level reaches. *)
From Coq Require Import ZArith NArith List Bool String.
From Verif Require Import PyBase PyFloat Enums ErrorTable Syntax Tokenizer Ers Utils Parser SpecNum SpecParser SpecGrammar SpecAccept SpecLayout SpecViable SpecRemoval SpecChange Removal Change PropsParser PropsRemoval.
Import List ListNotations.
Local Open Scope list_scope.
Local Open Scope nat_scope.

(** C112. A change of speed and level can be put in at any point of an accepted field that is outside the text of sections (except at the point after
    the IFR that ends a section).  The field is accepted, and the results differ in the speed and level of the record of the point and of those after it,
    up to the record that the next change belongs to: they had the speed and level in force and have those of the change. *)
Theorem C112_put_in : forall (G : geodesic) (depth depth' : nat) (f : pstr) (s : st) pre p rest (w g : pstr),
  parse_field15 G depth f = Ok true s ->
  field_roles f = (pre ++ [(p, ROut)]) ++ rest -> t_base p = F15_POINT -> ~ just_ifr (pre ++ [(p, ROut)]) ->
  fst (classify w) = F15_SPEED_ALTITUDE -> fl_ok (first_level w) ->
  element_texts g = wordsof (pre ++ [(p, ROut)]) ++ $"/" :: w :: wordsof rest -> 3 * n_tokens g <= depth' + 1 ->
  exists s', parse_field15 G depth' g = Ok true s' /\ changed_from (pre ++ [(p, ROut)]) rest (speed_part w) (first_level w) (s_ers s) (s_ers s').
Proof. exact change_put_in. Qed.
Print Assumptions C112_put_in.
(** And any change of speed and level can be left out, with the same exception. *)
Theorem C112_left_out : forall (G : geodesic) (depth depth' : nat) (f : pstr) (s : st) pre sl t rest (g : pstr),
  parse_field15 G depth f = Ok true s ->
  field_roles f = pre ++ (sl, ROut) :: (t, ROut) :: rest -> t_base t = F15_SPEED_ALTITUDE -> ~ just_ifr pre ->
  element_texts g = wordsof (pre ++ rest) -> 3 * n_tokens g <= depth' + 1 ->
  exists s', parse_field15 G depth' g = Ok true s' /\ changed_from pre rest (speed_part (t_text t)) (first_level (t_text t)) (s_ers s') (s_ers s).
Proof. exact change_left_out. Qed.
Print Assumptions C112_left_out.

(** The change at DEF reaches four records: DEF, DCT, GHI and UL9; the next one is at JKL. *)
Example C112_example :
  let f := $"N0450F350 ABC DEF DCT GHI UL9 JKL/M080F370 MNO" in
  let g := $"N0450F350 ABC DEF/K0800S1100 DCT GHI UL9 JKL/M080F370 MNO" in
  says_ok f /\ says_ok g /\
  (exists pre p rest, field_roles f = (pre ++ [(p, ROut)]) ++ rest /\ t_base p = F15_POINT /\ ~ just_ifr (pre ++ [(p, ROut)]) /\
     fst (classify ($"K0800S1100")) = F15_SPEED_ALTITUDE /\ fl_ok (first_level ($"K0800S1100")) /\
     element_texts g = wordsof (pre ++ [(p, ROut)]) ++ $"/" :: $"K0800S1100" :: wordsof rest /\ reach 1 rest = 4) /\
  (exists pre sl t rest, field_roles g = pre ++ (sl, ROut) :: (t, ROut) :: rest /\ t_base t = F15_SPEED_ALTITUDE /\ ~ just_ifr pre /\
     element_texts f = wordsof (pre ++ rest) /\ reach 1 rest = 4) /\
  match parse_field15 flat 100 f, parse_field15 flat 100 g with
  | Ok _ s, Ok _ z =>
      map (fun r => (r_name r, r_speed r)) (e_recs (s_ers s)) = [($"ADEP", $"N0450"); ($"ABC", $"N0450"); ($"DEF", $"N0450"); ($"DCT", $"N0450"); ($"GHI", $"N0450"); ($"UL9", $"N0450"); ($"JKL", $"M080"); ($"MNO", $"M080"); ($"ADES", [])] /\
      map (fun r => (r_name r, r_speed r)) (e_recs (s_ers z)) = [($"ADEP", $"N0450"); ($"ABC", $"N0450"); ($"DEF", $"K0800"); ($"DCT", $"K0800"); ($"GHI", $"K0800"); ($"UL9", $"K0800"); ($"JKL", $"M080"); ($"MNO", $"M080"); ($"ADES", [])]
  | _, _ => False
  end.
Proof.
  set (f := $"N0450F350 ABC DEF DCT GHI UL9 JKL/M080F370 MNO"). set (g := $"N0450F350 ABC DEF/K0800S1100 DCT GHI UL9 JKL/M080F370 MNO"). cbv zeta.
  split; [eexists; vm_compute; reflexivity|]. split; [eexists; vm_compute; reflexivity|]. set (d := (dct_token, ROut)).
  assert (Nj : forall w, match rev w with _ :: (_, ro) :: _ => ro | _ => ROut end = ROut -> ~ just_ifr w).
  { intros w E (w0 & x & p & -> & _). rewrite rev_app_distr in E. cbn [rev app] in E. discriminate E. }
  split; [|split].
  - set (w := field_roles f). exists (firstn 2 w), (fst (nth 2 w d)), (skipn 3 w). do 2 (split; [vm_compute; reflexivity|]). split; [apply Nj; vm_compute; reflexivity|]. split; [vm_compute; reflexivity|]. split; [vm_compute; discriminate|]. split; vm_compute; reflexivity.
  - set (w := field_roles g). exists (firstn 3 w), (fst (nth 3 w d)), (fst (nth 4 w d)), (skipn 5 w). do 2 (split; [vm_compute; reflexivity|]). split; [apply Nj; vm_compute; reflexivity|]. split; vm_compute; reflexivity.
  - vm_compute. split; reflexivity.
Qed.
(** The exception: after IFR the change is needed, and a change before speed/VFR makes a point of the route of what is otherwise none. *)
Theorem C112_ifr_refuted :
  (says_ok ($"N0450VFR x IFR ABC/N0450F050") /\ ~ says_ok ($"N0450VFR x IFR ABC")) /\
  (exists s s', parse_field15 flat 100 ($"N0450VFR x IFR 48N005E/N0450VFR y") = Ok true s /\ parse_field15 flat 100 ($"N0450VFR x IFR 48N005E/N0450F350/N0450VFR y") = Ok true s' /\
     map r_llv (e_recs (s_ers s)) <> map r_llv (e_recs (s_ers s'))).
Proof. split; [split; [eexists; vm_compute; reflexivity|intros (s & H); vm_compute in H; discriminate H]|]. do 2 eexists. do 2 (split; [vm_compute; reflexivity|]). vm_compute. discriminate. Qed.
Print Assumptions C112_ifr_refuted.
