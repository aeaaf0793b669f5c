(** * PropsCross: C114, C115 — two routes through the same points. *)
From Coq Require Import ZArith NArith List Bool String.
From Verif Require Import PyBase PyFloat Enums ErrorTable Syntax Tokenizer Ers Utils Parser SpecNum SpecParser SpecGrammar SpecAccept SpecLayout SpecViable SpecRemoval SpecChange SpecCross Removal Change Cross PropsParser PropsRemoval.
Import List ListNotations.
Local Open Scope list_scope.
Local Open Scope nat_scope.

(** C114. If two accepted fields pass the same point, the one up to this point and the other from there on are an accepted field.  Its records before
    the point are those of the one, the others those of the other; until the first change of speed and level the speed and level are those in force in the one. *)
Theorem C114_cross : forall (G : geodesic) (depth1 depth2 depth3 : nat) (f g x : pstr) (s1 s2 : st) pre p rest pre' p' rest',
  parse_field15 G depth1 f = Ok true s1 -> parse_field15 G depth2 g = Ok true s2 ->
  field_roles f = (pre ++ [(p, ROut)]) ++ rest -> field_roles g = (pre' ++ [(p', ROut)]) ++ rest' -> t_base p = F15_POINT -> t_text p = t_text p' ->
  ~ just_ifr (pre ++ [(p, ROut)]) -> ~ just_ifr (pre' ++ [(p', ROut)]) ->
  element_texts x = wordsof (pre ++ [(p, ROut)]) ++ wordsof rest' -> 3 * n_tokens x <= depth3 + 1 ->
  exists s3, parse_field15 G depth3 x = Ok true s3 /\ e_errs (s_ers s3) = [] /\
    crossed (pre ++ [(p, ROut)]) (pre' ++ [(p', ROut)]) rest' (e_recs (s_ers s1)) (e_recs (s_ers s2)) (e_recs (s_ers s3)).
Proof. exact cross_fields. Qed.
Print Assumptions C114_cross.
(** Not at the point after the IFR that ends a VFR section: there the speed and level are part of the ending. *)
Theorem C114_ifr_refuted :
  let f := $"N0450VFR x IFR ABC/N0450F350 DEF" in let g := $"N0430F350 ABC" in let x := $"N0450VFR x IFR ABC" in
  says_ok f /\ says_ok g /\ ~ says_ok x /\
  (exists pre p rest pre' p' rest', field_roles f = (pre ++ [(p, ROut)]) ++ rest /\ field_roles g = (pre' ++ [(p', ROut)]) ++ rest' /\
     t_base p = F15_POINT /\ t_text p = t_text p' /\ element_texts x = wordsof (pre ++ [(p, ROut)]) ++ wordsof rest').
Proof.
  set (f := $"N0450VFR x IFR ABC/N0450F350 DEF"). set (g := $"N0430F350 ABC"). cbv zeta.
  split; [eexists; vm_compute; reflexivity|]. split; [eexists; vm_compute; reflexivity|]. split; [intros (s & H); vm_compute in H; discriminate H|].
  set (w := field_roles f). set (v := field_roles g). exists (firstn 3 w), (fst (nth 3 w (dct_token, ROut))), (skipn 4 w), (firstn 1 v), (fst (nth 1 v (dct_token, ROut))), (skipn 2 v). repeat (split; [vm_compute; reflexivity|]). vm_compute. reflexivity.
Qed.
Print Assumptions C114_ifr_refuted.
(** The speed of the first field reaches DEF and UL9, up to the change at GHI. *)
Example C114_example :
  let f := $"N0450F350 ABC DCT DEF UN871 XYZ" in let g := $"K0800S1100 MNO DEF UL9 GHI/M080F370 JKL" in let x := $"N0450F350 ABC DCT DEF UL9 GHI/M080F370 JKL" in
  says_ok f /\ says_ok g /\
  (exists pre p rest pre' p' rest', field_roles f = (pre ++ [(p, ROut)]) ++ rest /\ field_roles g = (pre' ++ [(p', ROut)]) ++ rest' /\ t_base p = F15_POINT /\ t_text p = t_text p' /\
     ~ just_ifr (pre ++ [(p, ROut)]) /\ ~ just_ifr (pre' ++ [(p', ROut)]) /\ element_texts x = wordsof (pre ++ [(p, ROut)]) ++ wordsof rest' /\
     n_before (pre ++ [(p, ROut)]) = 3 /\ n_before (pre' ++ [(p', ROut)]) = 2 /\ reach 1 rest' = 2) /\
  match parse_field15 flat 100 x with
  | Ok _ s => map (fun r => (r_name r, r_speed r)) (e_recs (s_ers s)) = [($"ADEP", $"N0450"); ($"ABC", $"N0450"); ($"DCT", $"N0450"); ($"DEF", $"N0450"); ($"UL9", $"N0450"); ($"GHI", $"M080"); ($"JKL", $"M080"); ($"ADES", [])]
  | _ => False
  end.
Proof.
  set (f := $"N0450F350 ABC DCT DEF UN871 XYZ"). set (g := $"K0800S1100 MNO DEF UL9 GHI/M080F370 JKL"). cbv zeta.
  split; [eexists; vm_compute; reflexivity|]. split; [eexists; vm_compute; reflexivity|]. split; [|vm_compute; reflexivity].
  set (w := field_roles f). set (v := field_roles g). exists (firstn 3 w), (fst (nth 3 w (dct_token, ROut))), (skipn 4 w), (firstn 2 v), (fst (nth 2 v (dct_token, ROut))), (skipn 3 v).
  do 4 (split; [vm_compute; reflexivity|]). do 2 (split; [apply not_just_ifr; vm_compute; reflexivity|]). repeat (split; [vm_compute; reflexivity|]). vm_compute. reflexivity.
Qed.

(** C115. If two accepted fields pass the same two points, the part between these points can be taken from the other.  The field is accepted.  Its records
    before the first point are those of the one, those up to the second point those of the other, and those from the second point on those of the one; the
    latter two but for the speed and level in force, and the last with these if the speed and level in force at the second point are the same. *)
Theorem C115_detour : forall (G : geodesic) (depth1 depth2 depth3 : nat) (f g x : pstr) (s1 s2 : st) pre p mid q post pre' p' mid' q' post',
  parse_field15 G depth1 f = Ok true s1 -> parse_field15 G depth2 g = Ok true s2 ->
  field_roles f = (pre ++ [(p, ROut)]) ++ (mid ++ [(q, ROut)]) ++ post -> field_roles g = (pre' ++ [(p', ROut)]) ++ (mid' ++ [(q', ROut)]) ++ post' ->
  t_base p = F15_POINT -> t_base q = F15_POINT -> t_text p = t_text p' -> t_text q = t_text q' ->
  ~ just_ifr (pre ++ [(p, ROut)]) -> ~ just_ifr ((pre ++ [(p, ROut)]) ++ mid ++ [(q, ROut)]) -> ~ just_ifr (pre' ++ [(p', ROut)]) -> ~ just_ifr ((pre' ++ [(p', ROut)]) ++ mid' ++ [(q', ROut)]) ->
  element_texts x = wordsof (pre ++ [(p, ROut)]) ++ wordsof (mid' ++ [(q', ROut)]) ++ wordsof post -> 3 * n_tokens x <= depth3 + 1 ->
  exists s3, parse_field15 G depth3 x = Ok true s3 /\ e_errs (s_ers s3) = [] /\
    detoured (pre ++ [(p, ROut)]) (mid ++ [(q, ROut)]) (pre' ++ [(p', ROut)]) (mid' ++ [(q', ROut)]) (e_recs (s_ers s1)) (e_recs (s_ers s2)) (e_recs (s_ers s3)).
Proof. exact detour_fields. Qed.
Print Assumptions C115_detour.
(** From DEF to GHI by UL9 and the section of military flight instead of DCT. *)
Example C115_example :
  let f := $"N0450F350 ABC DEF DCT GHI UN871 XYZ" in let g := $"K0800S1100 DEF UL9 MNO OAT y GAT GHI" in let x := $"N0450F350 ABC DEF UL9 MNO OAT y GAT GHI UN871 XYZ" in
  says_ok f /\ says_ok g /\
  (exists pre p mid q post pre' p' mid' q' post', field_roles f = (pre ++ [(p, ROut)]) ++ (mid ++ [(q, ROut)]) ++ post /\ field_roles g = (pre' ++ [(p', ROut)]) ++ (mid' ++ [(q', ROut)]) ++ post' /\
     t_base p = F15_POINT /\ t_base q = F15_POINT /\ t_text p = t_text p' /\ t_text q = t_text q' /\
     ~ just_ifr (pre ++ [(p, ROut)]) /\ ~ just_ifr ((pre ++ [(p, ROut)]) ++ mid ++ [(q, ROut)]) /\ ~ just_ifr (pre' ++ [(p', ROut)]) /\ ~ just_ifr ((pre' ++ [(p', ROut)]) ++ mid' ++ [(q', ROut)]) /\
     element_texts x = wordsof (pre ++ [(p, ROut)]) ++ wordsof (mid' ++ [(q', ROut)]) ++ wordsof post /\
     in_force ((pre ++ [(p, ROut)]) ++ mid' ++ [(q', ROut)]) = in_force ((pre ++ [(p, ROut)]) ++ mid ++ [(q, ROut)])) /\
  match parse_field15 flat 100 x with
  | Ok _ s => map (fun r => (r_name r, r_speed r)) (e_recs (s_ers s)) = [($"ADEP", $"N0450"); ($"ABC", $"N0450"); ($"DEF", $"N0450"); ($"UL9", $"N0450"); ($"MNO", $"N0450"); ($"OAT", $"N0450"); ($"GHI", $"N0450"); ($"UN871", $"N0450"); ($"XYZ", $"N0450"); ($"ADES", [])]
  | _ => False
  end.
Proof.
  set (f := $"N0450F350 ABC DEF DCT GHI UN871 XYZ"). set (g := $"K0800S1100 DEF UL9 MNO OAT y GAT GHI"). cbv zeta.
  split; [eexists; vm_compute; reflexivity|]. split; [eexists; vm_compute; reflexivity|]. split; [|vm_compute; reflexivity].
  set (w := field_roles f). set (v := field_roles g). set (d := (dct_token, ROut)).
  exists (firstn 2 w), (fst (nth 2 w d)), (firstn 1 (skipn 3 w)), (fst (nth 4 w d)), (skipn 5 w), (firstn 1 v), (fst (nth 1 v d)), (firstn 5 (skipn 2 v)), (fst (nth 7 v d)), (skipn 8 v).
  do 6 (split; [vm_compute; reflexivity|]). split; [apply not_just_ifr; vm_compute; reflexivity|]. split; [apply not_just_ifr; vm_compute; reflexivity|]. split; [apply not_just_ifr; vm_compute; reflexivity|].
  split; [intros (w0 & y & z & E & K); apply (f_equal (@rev _)) in E; rewrite (rev_app_distr w0) in E; cbn [rev app] in E; vm_compute in E; injection E; intros; subst; discriminate K|]. split; vm_compute; reflexivity.
Qed.
