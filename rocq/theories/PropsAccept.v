(** * PropsAccept: the records of accepted fields. *)
From Coq Require Import ZArith NArith List Bool String Sorted.
From Verif Require Import PyBase PyFloat Enums ErrorTable Tokenizer Ers Utils Parser SpecNum SpecParser SpecGrammar SpecAccept AcceptFacts.
From Verif Require Import PropsParser PropsGrammar.
Import List ListNotations.
Local Open Scope list_scope.
Local Open Scope nat_scope.

(** An accepted field with every kind of element. *)
Definition full_route : pstr :=
  $"M082F310 ABC1A ABC/N0430F330 UL613 DEF STAY1/0130 DCT 48N005E OAT one two GAT GHI VFR x y IFR JKL/K0800F350 C/MNO/N0450F350F390 DCT PQR T".
Definition accepts (field : pstr) : Prop := exists s, parse_field15 flat 200 field = Ok true s.
Example full_route_accepted : accepts full_route. Proof. eexists. vm_compute. reflexivity. Qed.

Definition no_token : token := mkToken [] 0 0 F15_UNKNOWN F15_SB_UNKNOWN.

(** C22. The start indices of the records of an accepted field increase. *)
Theorem C22_source_order_partial : forall (G : geodesic) (depth : nat) (field : pstr) (s : st),
  parse_field15 G depth field = Ok true s ->
  exists a mid z, e_recs (s_ers s) = a :: mid ++ [z] /\ StronglySorted Z.lt (map r_start mid).
Proof. exact starts_increase. Qed.
Print Assumptions C22_source_order_partial.

(** Not so when the field is rejected: a latitude/longitude after an ATS route is recorded after what follows it. *)
Theorem C22_source_order_refuted : exists (G : geodesic) (depth : nat) (field : pstr) (s : st) (a b : rrec) (l1 l2 : list rrec),
  parse_field15 G depth field = Ok false s /\ e_recs (s_ers s) = l1 ++ a :: b :: l2 /\ l1 <> [] /\ l2 <> [] /\ (r_start b < r_start a)%Z.
Proof.
  exists flat, 100, ($"N0450F350 ABC UA1 00N000E XYZ"). eexists.
  exists (nth 3 (e_recs (s_ers (final (parse_field15 flat 100 ($"N0450F350 ABC UA1 00N000E XYZ"))))) (dummy [])).
  exists (nth 4 (e_recs (s_ers (final (parse_field15 flat 100 ($"N0450F350 ABC UA1 00N000E XYZ"))))) (dummy [])).
  exists (firstn 3 (e_recs (s_ers (final (parse_field15 flat 100 ($"N0450F350 ABC UA1 00N000E XYZ")))))).
  exists (skipn 5 (e_recs (s_ers (final (parse_field15 flat 100 ($"N0450F350 ABC UA1 00N000E XYZ")))))).
  split; [vm_compute; reflexivity|]. split; [vm_compute; reflexivity|]. split; [vm_compute; discriminate|]. split; [vm_compute; discriminate|]. vm_compute. reflexivity.
Qed.
Print Assumptions C22_source_order_refuted.

(** C23. Every token of an accepted field has its record, is text, or is a modifier or a piece of a construct. *)
Theorem C23_nothing_dropped_partial : forall (G : geodesic) (depth : nat) (field : pstr) (s : st),
  parse_field15 G depth field = Ok true s -> forall i x, nth_error (field_roles field) i = Some x ->
  snd x = RText \/ (snd x = ROut /\ is_piece (fst x) = true) \/ In i (recorded_at 0 (field_roles field)).
Proof. exact accepted_covered. Qed.
Print Assumptions C23_nothing_dropped_partial.

(** The tokens of the scan are those of the field. *)
Theorem C23_all_tokens : forall field : pstr, map fst (field_roles field) = field_tokens field.
Proof. exact field_roles_fst. Qed.
Print Assumptions C23_all_tokens.

Example C23_example : map (fun x => match snd x with RText => 1 | ROut => 0 | RClimb => 2 end) (field_roles full_route)
  = [0; 0; 0; 0; 0; 0; 0; 0; 0; 0; 0; 0; 0; 1; 1; 1; 0; 0; 1; 1; 1; 0; 0; 0; 0; 0; 2; 0; 0; 0; 0; 0].
Proof. vm_compute. reflexivity. Qed.

(** A rejected field may lose points: they appear in no record, no error and no text. *)
Definition lost (t : token) (e : ers) : Prop :=
  Forall (fun r => r_start r <> t_start t /\ r_break r = []) (e_recs e) /\ Forall (fun r => r_start r <> t_start t) (e_errs e).
Theorem C23_nothing_dropped_refuted : exists (G : geodesic) (depth : nat) (field : pstr) (s : st) (t u : token),
  parse_field15 G depth field = Ok false s /\ In t (field_tokens field) /\ In u (field_tokens field) /\ t_start t <> t_start u /\
  t_base t = F15_POINT /\ t_base u = F15_POINT /\ lost t (s_ers s) /\ lost u (s_ers s).
Proof.
  exists flat, 100, ($"N0450F350 ?? IFR DCT ABC XYZ"). eexists.
  exists (nth 4 (field_tokens ($"N0450F350 ?? IFR DCT ABC XYZ")) no_token), (nth 5 (field_tokens ($"N0450F350 ?? IFR DCT ABC XYZ")) no_token).
  split; [vm_compute; reflexivity|]. vm_compute. repeat split; auto 10; repeat constructor; discriminate.
Qed.
Print Assumptions C23_nothing_dropped_refuted.

(** C26. *)
Theorem C26_rules : forall (G : geodesic) (depth : nat) (field : pstr) (s : st),
  parse_field15 G depth field = Ok true s ->
  each_part field (e_recs (s_ers s)) (fun r lo _ => rules_right (field_roles field) r lo) (fun rs z => exists l, rs = removelast rs ++ [l] /\ r_rules z = r_rules l).
Proof. exact accepted_rules. Qed.
Print Assumptions C26_rules.

Example C26_example : exists s, parse_field15 flat 200 full_route = Ok true s /\
  map r_rules (e_recs (s_ers s)) = [$"IFR"; $"IFR"; $"IFR"; $"IFR"; $"IFR"; $"IFR"; $"IFR"; $"OAT"; $"IFR"; $"VFR"; $"IFR"; $"IFR"; $"IFR"; $"IFR"; $"IFR"].
Proof. vm_compute. eexists. split; reflexivity. Qed.

(** C27. *)
Theorem C27_break_text : forall (G : geodesic) (depth : nat) (field : pstr) (s : st),
  parse_field15 G depth field = Ok true s ->
  each_part field (e_recs (s_ers s)) (fun r lo hi => text_right (field_roles field) r lo hi /\ (r_break r <> [] -> opens_section (field_roles field) lo)) (fun _ z => r_break z = []).
Proof. exact accepted_texts. Qed.
Print Assumptions C27_break_text.

Example C27_example : exists s, parse_field15 flat 200 full_route = Ok true s /\
  map r_break (e_recs (s_ers s)) = [[]; []; []; []; []; []; []; $"one two GAT"; []; $"x y IFR"; []; []; []; []; []].
Proof. vm_compute. eexists. split; reflexivity. Qed.

(** C28. *)
Theorem C28_carried_forward : forall (G : geodesic) (depth : nat) (field : pstr) (s : st),
  parse_field15 G depth field = Ok true s ->
  each_part field (e_recs (s_ers s)) (fun r _ hi => performance_right (field_roles field) r hi) (fun _ z => r_speed z = [] /\ r_alt z = []).
Proof. exact accepted_performance. Qed.
Print Assumptions C28_carried_forward.

Example C28_example : exists s, parse_field15 flat 200 full_route = Ok true s /\
  map (fun r => (r_speed r, r_alt r)) (e_recs (s_ers s)) =
    [($"M082", $"F310"); ($"M082", $"F310"); ($"N0430", $"F330"); ($"N0430", $"F330"); ($"N0430", $"F330"); ($"N0430", $"F330"); ($"N0430", $"F330");
     ($"N0430", $"F330"); ($"N0430", $"F330"); ($"N0430", $"F330"); ($"K0800", $"F350"); ($"N0450", $"F350"); ($"N0450", $"F350"); ($"N0450", $"F350"); ([], [])].
Proof. vm_compute. eexists. split; reflexivity. Qed.

(** C29. ADES never has a speed or an altitude. *)
Theorem C29_ades_performance_refuted : (exists (G : geodesic) (depth : nat) (field : pstr) (s : st), parse_field15 G depth field = Ok true s) /\
  forall (G : geodesic) (depth : nat) (field : pstr) (b : bool) (s : st), parse_field15 G depth field = Ok b s ->
  exists rs z, e_recs (s_ers s) = rs ++ [z] /\ r_name z = $"ADES" /\ no_performance z.
Proof. exact ades_bare. Qed.
Print Assumptions C29_ades_performance_refuted.

(** C33. A speed/VFR element sets the level F050, and a Mach number is converted with the speed of sound at 1524 m. *)
Theorem C33_mach_vfr_partial : forall (G : geodesic) (depth : nat) (field : pstr) (b : bool) (s : st),
  parse_field15 G depth field = Ok b s ->
  Forall (fun r => r_alt r = $"F050" -> r_alt_si r = PyInt 1524 /\ forall es, r_speed r = 77%N :: es ->
    exists f v, mach_to_ms_speed (decimal es) 1524 = inr f /\ f_trunc (fadd f (flit 1 2)) = inr v /\ r_speed_si r = PyInt v) (e_recs (s_ers s)).
Proof. exact vfr_level. Qed.
Print Assumptions C33_mach_vfr_partial.

(** That is not the speed at sea level. *)
Theorem C33_mach_vfr_refuted : exists (G : geodesic) (depth : nat) (field : pstr) (s : st) (r : rrec),
  parse_field15 G depth field = Ok true s /\ In r (e_recs (s_ers s)) /\ r_name r = $"VFR" /\ r_speed r = $"M084" /\
  forall f v, mach_to_ms_speed 84 0 = inr f -> f_trunc (fadd f (flit 1 2)) = inr v -> r_speed_si r <> PyInt v.
Proof.
  exists flat, 100, ($"M084VFR"). eexists. exists (nth 1 (e_recs (s_ers (final (parse_field15 flat 100 ($"M084VFR"))))) (dummy [])).
  split; [vm_compute; reflexivity|]. split; [vm_compute; auto|]. split; [vm_compute; reflexivity|]. split; [vm_compute; reflexivity|].
  intros f v Hf Hv. vm_compute in Hf. injection Hf as <-. vm_compute in Hv. injection Hv as <-. vm_compute. discriminate.
Qed.
Print Assumptions C33_mach_vfr_refuted.

(** C34. Every speed/level element meets [levels_ok]: only the target of some cruise climbs is not checked.
    So the level of every record is a multiple of 5 if given with F. *)
Theorem C34_flight_levels_partial : forall (G : geodesic) (depth : nat) (field : pstr) (s : st),
  parse_field15 G depth field = Ok true s ->
  (forall t, In (t, ROut) (field_roles field) -> levels_ok t) /\ Forall (fun r => fl_ok (r_alt r)) (e_recs (s_ers s)).
Proof. exact accepted_all_levels. Qed.
Print Assumptions C34_flight_levels_partial.

Theorem C34_flight_levels_refuted : exists (G : geodesic) (depth : nat) (field : pstr) (s : st) (t : token),
  parse_field15 G depth field = Ok true s /\ In (t, ROut) (field_roles field) /\ t_base t = F15_SPEED_ALTITUDE_ALTITUDE /\ second_level (t_text t) = $"F402".
Proof.
  exists flat, 100, ($"N0450F350 DCT C/ABC/M084F350F402 DCT"). eexists. exists (nth 6 (field_tokens ($"N0450F350 DCT C/ABC/M084F350F402 DCT")) no_token).
  split; [vm_compute; reflexivity|]. vm_compute. auto 20.
Qed.
Print Assumptions C34_flight_levels_refuted.

(** C35. The target of a cruise climb is kept if the speed is in K or N and the first level in F or A. *)
Theorem C35_climb_target_partial : forall (G : geodesic) (depth : nat) (field : pstr) (s : st),
  parse_field15 G depth field = Ok true s -> Forall full_climb (field_roles field) ->
  each_part field (e_recs (s_ers s)) (fun r lo hi => match last_some climb_target (cut (field_roles field) (from lo) hi) with
    | Some (l, v) => r_cto r = l /\ (v <> PyZeroFloat -> r_cto_si r = v)
    | None => r_cto r = [] /\ r_cto_si r = PyZeroFloat
    end) (fun _ z => r_cto z = [] /\ r_cto_si z = PyZeroFloat).
Proof. exact full_targets. Qed.
Print Assumptions C35_climb_target_partial.

Example C35_example : Forall full_climb (field_roles full_route) /\ exists s, parse_field15 flat 200 full_route = Ok true s /\
  map (fun r => (r_cto r, r_cto_si r)) (skipn 10 (e_recs (s_ers s))) = [([], PyZeroFloat); ($"F390", PyInt 11887); ([], PyZeroFloat); ([], PyZeroFloat); ([], PyZeroFloat)].
Proof. split; [vm_compute; repeat constructor|]. vm_compute. eexists. split; reflexivity. Qed.

(** In general what is kept is [stored_target], *)
Theorem C35_stored_target : forall (G : geodesic) (depth : nat) (field : pstr) (s : st),
  parse_field15 G depth field = Ok true s ->
  each_part field (e_recs (s_ers s)) (fun r lo hi => target_right (field_roles field) r lo hi) (fun _ z => r_cto z = [] /\ r_cto_si z = PyZeroFloat).
Proof. exact accepted_targets. Qed.
Print Assumptions C35_stored_target.

(** which is not the second level of the element. *)
Theorem C35_climb_target_refuted : exists (G : geodesic) (depth : nat) (field : pstr) (s : st) (r : rrec) (t : token),
  parse_field15 G depth field = Ok true s /\ In r (e_recs (s_ers s)) /\ r_name r = $"ABC" /\ In (t, ROut) (field_roles field) /\
  t_base t = F15_SPEED_ALTITUDE_ALTITUDE /\ second_level (t_text t) = $"S1234" /\ r_cto r = $"1234" /\ r_cto_si r = PyInt 234 /\ level_value ($"S1234") = 12340%Z.
Proof.
  exists flat, 100, ($"N0450F350 DCT C/ABC/N0450S1000S1234 DCT"). eexists.
  exists (nth 2 (e_recs (s_ers (final (parse_field15 flat 100 ($"N0450F350 DCT C/ABC/N0450S1000S1234 DCT"))))) (dummy [])).
  exists (nth 6 (field_tokens ($"N0450F350 DCT C/ABC/N0450S1000S1234 DCT")) no_token).
  split; [vm_compute; reflexivity|]. vm_compute. repeat split; auto 20.
Qed.
Print Assumptions C35_climb_target_refuted.

(** C38. The values of every point are in range, but for a point between a break section and a speed/VFR. *)
Theorem C38_coordinates_partial : forall (G : geodesic) (depth : nat) (field : pstr) (s : st),
  parse_field15 G depth field = Ok true s ->
  (forall pre t rest, field_roles field = pre ++ (t, ROut) :: rest -> t_base t = F15_POINT -> angles_ok t \/ unchecked_point pre rest) /\
  (forall t, In (t, RClimb) (field_roles field) -> angles_ok t).
Proof. exact accepted_angles. Qed.
Print Assumptions C38_coordinates_partial.

Theorem C38_coordinates_refuted : exists (G : geodesic) (depth : nat) (field : pstr) (s : st) (t : token),
  parse_field15 G depth field = Ok true s /\ In (t, ROut) (field_roles field) /\ t_base t = F15_POINT /\ t_text t = $"99N999E".
Proof.
  exists flat, 100, ($"N0450VFR IFR 99N999E/N0450VFR"). eexists. exists (nth 2 (field_tokens ($"N0450VFR IFR 99N999E/N0450VFR")) no_token).
  split; [vm_compute; reflexivity|]. vm_compute. auto 10.
Qed.
Print Assumptions C38_coordinates_refuted.

(** C40. A SID is the second token of the field and a STAR the last one, but for the element after "C/". *)
Theorem C40_sid_star_partial : forall (G : geodesic) (depth : nat) (field : pstr) (s : st),
  parse_field15 G depth field = Ok true s ->
  (forall pre t rest, field_roles field = pre ++ (t, ROut) :: rest ->
    (t_base t = F15_SID -> length pre = 1) /\ (t_base t = F15_STAR -> rest = []) /\ (t_base t = F15_SID_STAR -> length pre = 1 \/ rest = [])) /\
  each_part field (e_recs (s_ers s)) (fun r lo _ =>
    (r_base r = F15_SID -> lo = Some 1 \/ is_climb (field_roles field) lo) /\
    (r_base r = F15_STAR -> (exists j, lo = Some j /\ S j = length (field_roles field)) \/ is_climb (field_roles field) lo) /\
    (r_base r = F15_SID_STAR -> is_climb (field_roles field) lo)) (fun _ _ => True).
Proof. exact accepted_sid_star. Qed.
Print Assumptions C40_sid_star_partial.

Example C40_example : exists s, parse_field15 flat 100 ($"N0450F350 ABC1A ABC DEF1B") = Ok true s /\
  map (fun r => (r_name r, r_base r)) (firstn 3 (skipn 1 (e_recs (s_ers s)))) = [($"ABC1A", F15_SID); ($"ABC", F15_POINT); ($"DEF1B", F15_STAR)].
Proof. vm_compute. eexists. split; reflexivity. Qed.

Theorem C40_sid_star_refuted : exists (G : geodesic) (depth : nat) (field : pstr) (s : st) (a b c d e f : rrec),
  parse_field15 G depth field = Ok true s /\ e_recs (s_ers s) = [a; b; c; d; e; f] /\ r_name c = $"SID" /\ r_base c = F15_SID.
Proof.
  exists flat, 100, ($"N0450F350 DCT C/SID/N0450F350F400 DCT ABC"). eexists. do 6 eexists.
  split; [vm_compute; reflexivity|]. vm_compute. repeat split.
Qed.
Print Assumptions C40_sid_star_refuted.

(** C41. What may follow DCT and an ATS route, and what may precede an ATS route. *)
Theorem C41_connectors : forall (G : geodesic) (depth : nat) (field : pstr) (s : st),
  parse_field15 G depth field = Ok true s ->
  forall pre t rest, field_roles field = pre ++ (t, ROut) :: rest ->
  (t_base t = F15_DCT -> followed_by rest after_dct) /\
  (t_base t = F15_ROUTE -> followed_by rest after_route /\
     forall pre0 x mods, pre = pre0 ++ x :: mods -> changes mods -> ~ is_computed x).
Proof. exact accepted_connectors. Qed.
Print Assumptions C41_connectors.

Example C41_example : accepts ($"N0450F350 DCT 00N000E DCT ABC UA1 DEF") /\ ~ accepts ($"N0450F350 DCT 00N000E UA1 DEF") /\
  ~ accepts ($"N0450F350 DCT ABC UA1 00N000E") /\ ~ accepts ($"N0450F350 DCT ABC UA1 UA2 DEF") /\ ~ accepts ($"N0450F350 DCT UA1 DEF").
Proof.
  split; [eexists; vm_compute; reflexivity|]. repeat split; intros (s & H); vm_compute in H; discriminate.
Qed.

(** A STAY element between a coordinate point and a route hides the point. *)
Theorem C41_adjacent_records_refuted : exists (G : geodesic) (depth : nat) (field : pstr) (s : st) (a b c d e f : rrec),
  parse_field15 G depth field = Ok true s /\ e_recs (s_ers s) = [a; b; c; d; e; f] /\ r_sub c = F15_SB_LL_DEG /\ r_base d = F15_ROUTE.
Proof.
  exists flat, 100, ($"N0450F350 DCT 00N000E STAY1/0100 UA1 ABC"). eexists. do 6 eexists.
  split; [vm_compute; reflexivity|]. vm_compute. repeat split.
Qed.
Print Assumptions C41_adjacent_records_refuted.

(** C42. *)
Theorem C42_recognised_partial : forall (G : geodesic) (depth : nat) (field : pstr) (s : st),
  parse_field15 G depth field = Ok true s -> forall t, In (t, ROut) (field_roles field) -> recognised (t_base t) = true.
Proof. exact accepted_recognised. Qed.
Print Assumptions C42_recognised_partial.

(** The element after "C/" may be anything. *)
Theorem C42_recognised_refuted : exists (G : geodesic) (depth : nat) (field : pstr) (s : st) (t : token),
  parse_field15 G depth field = Ok true s /\ In t (field_tokens field) /\ ~ In (t, RText) (field_roles field) /\ t_base t = F15_UNKNOWN.
Proof.
  exists flat, 100, ($"N0450F350 DCT C/??/N0450F350F400"). eexists. exists (nth 4 (field_tokens ($"N0450F350 DCT C/??/N0450F350F400")) no_token).
  split; [vm_compute; reflexivity|]. vm_compute. split; [auto 10|]. split; [|reflexivity].
  intro H. repeat (destruct H as [H|H]; [discriminate|]). exact H.
Qed.
Print Assumptions C42_recognised_refuted.

(** C43. *)
Theorem C43_stays : forall (G : geodesic) (depth : nat) (field : pstr) (s : st),
  parse_field15 G depth field = Ok true s ->
  each_part field (e_recs (s_ers s)) (fun r lo hi => stay_right (field_roles field) r lo hi) (fun _ z => r_stay z = 0%Z).
Proof. exact accepted_stays. Qed.
Print Assumptions C43_stays.

Theorem C43_stays_in_range : forall (G : geodesic) (depth : nat) (field : pstr) (b : bool) (s : st),
  parse_field15 G depth field = Ok b s -> Forall (fun r => (0 <= r_stay r <= 1439)%Z) (e_recs (s_ers s)).
Proof. exact stays_in_range. Qed.
Print Assumptions C43_stays_in_range.

Example C43_example : exists s, parse_field15 flat 200 full_route = Ok true s /\
  map r_stay (e_recs (s_ers s)) = [0; 0; 0; 0; 90; 0; 0; 0; 0; 0; 0; 0; 0; 0; 0]%Z.
Proof. vm_compute. eexists. split; reflexivity. Qed.

(** C49. *)
Theorem C49_truncation : forall (G : geodesic) (depth : nat) (field : pstr) (s : st),
  parse_field15 G depth field = Ok true s ->
  forall pre t rest, field_roles field = pre ++ (t, ROut) :: rest -> t_base t = F15_TRUNCATE -> rest = [].
Proof. exact accepted_truncation. Qed.
Print Assumptions C49_truncation.

Example C49_example : accepts ($"N0450F350 DCT ABC T") /\ ~ accepts ($"N0450F350 DCT ABC T DEF") /\ accepts ($"N0450F350 DCT ABC VFR T DEF").
Proof.
  split; [eexists; vm_compute; reflexivity|]. split; [intros (s & H); vm_compute in H; discriminate|eexists; vm_compute; reflexivity].
Qed.

(** C52. The records of an accepted field are its recorded tokens, with their names, positions and types. *)
Theorem C52_records_are_elements : forall (G : geodesic) (depth : nat) (field : pstr) (s : st),
  parse_field15 G depth field = Ok true s ->
  each_part field (e_recs (s_ers s)) (fun r lo _ => identity (field_roles field) r lo) (fun _ _ => True).
Proof. exact accepted_identity. Qed.
Print Assumptions C52_records_are_elements.

Example C52_example : exists s, parse_field15 flat 200 full_route = Ok true s /\
  map (fun r => (r_name r, r_base r)) (e_recs (s_ers s)) =
    [($"ADEP", F15_POINT); ($"ABC1A", F15_SID); ($"ABC", F15_POINT); ($"UL613", F15_ROUTE); ($"DEF", F15_POINT); ($"DCT", F15_DCT); ($"48N005E", F15_POINT);
     ($"OAT", F15_BREAK_START); ($"GHI", F15_POINT); ($"VFR", F15_BREAK_START); ($"JKL", F15_POINT); ($"MNO", F15_POINT); ($"DCT", F15_DCT); ($"PQR", F15_POINT); ($"ADES", F15_POINT)].
Proof. vm_compute. eexists. split; reflexivity. Qed.
