(** * PropsLocal: C108 — what is made of the elements after a point does not depend on what comes before it. *)
From Coq Require Import ZArith NArith List Bool String.
From Coq Require Import Floats.SpecFloat.
From Verif Require Import PyBase PyFloat Enums ErrorTable Syntax Tokenizer Ers Utils Parser SpecNum SpecParser SpecGrammar SpecLocal Local PropsParser PropsLegs.
Import List ListNotations.
Local Open Scope list_scope.
Local Open Scope nat_scope.

(** C108. Two fields, accepted or not, that have the same elements from a recorded point on, give the same records from that point on and the same
    errors after it, whatever comes before: errors do not spread past a point.  Speed and level are the same from the first record on
    in which they are the same. *)
Theorem C108_after_a_point_partial : forall (G : geodesic) (depth depth' : nat) (f f' : pstr) (b b' : bool) (s s' : st) A x p R A' x' p' R',
  field_tokens f = A ++ x :: p :: R -> field_tokens f' = A' ++ x' :: p' :: R' -> map t_text (p :: R) = map t_text (p' :: R') ->
  parse_field15 G depth f = Ok b s -> parse_field15 G depth' f' = Ok b' s' ->
  stands_alone x p -> stands_alone x' p' -> Forall (fun t => ~ too_long t) (A ++ [x]) -> Forall (fun t => ~ too_long t) (A' ++ [x']) ->
  Forall (fun t => ~ ends_a_section t) R ->
  (exists r, In r (e_recs (s_ers s)) /\ r_start r = t_start p) -> (exists r, In r (e_recs (s_ers s')) /\ r_start r = t_start p') ->
  same_from_there (from_on (t_start p) (e_recs (s_ers s))) (from_on (t_start p') (e_recs (s_ers s'))) /\
  Forall2 same_error (after (t_start p) (e_errs (s_ers s))) (after (t_start p') (e_errs (s_ers s'))).
Proof. exact local. Qed.
Print Assumptions C108_after_a_point_partial.

Definition nothing : token := mkToken [] 0 0 F15_UNKNOWN F15_SB_UNKNOWN.
(** The fields share what follows element [n] of the first and [n'] of the second; the point is recorded in both. *)
Definition meet (f f' : pstr) (n n' : nat) (A : list token) (x p : token) (R A' : list token) (x' p' : token) (R' : list token) : Prop :=
  field_tokens f = A ++ x :: p :: R /\ field_tokens f' = A' ++ x' :: p' :: R' /\ map t_text (p :: R) = map t_text (p' :: R') /\
  List.length A = n /\ List.length A' = n' /\ stands_alone x p /\ stands_alone x' p'.

(** A keyword that ends a section must not follow: outside a section it takes the parser back to an element before the point, or to the end of the field.
    Here DCT GHI is read in the second field only. *)
Theorem C108_end_keyword_refuted : exists (G : geodesic) (depth : nat) (f f' : pstr) (b b' : bool) (s s' : st) A x p R A' x' p' R',
  meet f f' 2 4 A x p R A' x' p' R' /\ parse_field15 G depth f = Ok b s /\ parse_field15 G depth f' = Ok b' s' /\
  Forall (fun t => ~ too_long t) (A ++ [x]) /\ Forall (fun t => ~ too_long t) (A' ++ [x']) /\ 
  map r_name (from_on (t_start p) (e_recs (s_ers s))) = [$"DEF"] /\ map r_name (from_on (t_start p') (e_recs (s_ers s'))) = [$"DEF"; $"DCT"; $"GHI"].
Proof.
  set (f := $"N0450F350 ABC DCT DEF ?? IFR DCT GHI"). set (f' := $"N0450F350 ABC UL9 4830N00500W DCT DEF ?? IFR DCT GHI").
  exists flat, 100, f, f'. do 4 eexists. exists (firstn 2 (field_tokens f)), (nth 2 (field_tokens f) nothing), (nth 3 (field_tokens f) nothing), (skipn 4 (field_tokens f)).
  exists (firstn 4 (field_tokens f')), (nth 4 (field_tokens f') nothing), (nth 5 (field_tokens f') nothing), (skipn 6 (field_tokens f')).
  split. { unfold meet, stands_alone. do 5 (split; [vm_compute; reflexivity|]). split; (split; [vm_compute; reflexivity|]); repeat split; vm_compute; discriminate. }
  split; [vm_compute; reflexivity|]. split; [vm_compute; reflexivity|]. split; [unfold too_long; vm_compute; repeat constructor; discriminate|]. split; [unfold too_long; vm_compute; repeat constructor; discriminate|].
  split; vm_compute; reflexivity.
Qed.
Print Assumptions C108_end_keyword_refuted.
(** Nor may a word of a section before the point be too long: it becomes text of the last record of the field. *)
Theorem C108_too_long_refuted : exists (G : geodesic) (depth : nat) (f f' : pstr) (b b' : bool) (s s' : st) A x p R A' x' p' R',
  meet f f' 1 6 A x p R A' x' p' R' /\ parse_field15 G depth f = Ok b s /\ parse_field15 G depth f' = Ok b' s' /\ Forall (fun t => ~ ends_a_section t) R /\
  map r_break (from_on (t_start p) (e_recs (s_ers s))) = [[]; []] /\
  map r_break (from_on (t_start p') (e_recs (s_ers s'))) = [[]; $"ABCDEFGHIJKLMNOPQRSTUVWXYZ"].
Proof.
  set (f := $"N0450F350 DCT DEF GHI"). set (f' := $"N0450F350 ABC OAT X ABCDEFGHIJKLMNOPQRSTUVWXYZ ?? DCT DEF GHI").
  exists flat, 100, f, f'. do 4 eexists. exists (firstn 1 (field_tokens f)), (nth 1 (field_tokens f) nothing), (nth 2 (field_tokens f) nothing), (skipn 3 (field_tokens f)).
  exists (firstn 6 (field_tokens f')), (nth 6 (field_tokens f') nothing), (nth 7 (field_tokens f') nothing), (skipn 8 (field_tokens f')).
  split. { unfold meet, stands_alone. do 5 (split; [vm_compute; reflexivity|]). split; (split; [vm_compute; reflexivity|]); repeat split; vm_compute; discriminate. }
  split; [vm_compute; reflexivity|]. split; [vm_compute; reflexivity|]. split; [unfold ends_a_section; vm_compute; repeat constructor; discriminate|].
  split; vm_compute; reflexivity.
Qed.
Print Assumptions C108_too_long_refuted.

(** Two fields with several errors before and after the point, and other speeds at first. *)
Definition one_way : pstr := $"N0450F350 ABC UL9 4830N00500W DCT DEF UL613 UL614 GHI / / JKL STAY1/0100 M082F330 MNO/M080F330 ?? OAT X STAR".
Definition another_way : pstr := $"M082F310 VFR X Y IFR DCT DEF UL613 UL614 GHI / / JKL STAY1/0100 M082F330 MNO/M080F330 ?? OAT X STAR".
Example C108_example : exists b b' s s' A x p R A' x' p' R',
  meet one_way another_way 4 5 A x p R A' x' p' R' /\ parse_field15 flat 100 one_way = Ok b s /\ parse_field15 flat 100 another_way = Ok b' s' /\
  Forall (fun t => ~ too_long t) (A ++ [x]) /\ Forall (fun t => ~ too_long t) (A' ++ [x']) /\ Forall (fun t => ~ ends_a_section t) R /\
  (exists r, In r (e_recs (s_ers s)) /\ r_start r = t_start p) /\ (exists r, In r (e_recs (s_ers s')) /\ r_start r = t_start p') /\
  map (fun r => (r_name r, r_speed r)) (from_on (t_start p) (e_recs (s_ers s))) =
    [($"DEF", $"N0450"); ($"UL613", $"N0450"); ($"GHI", $"N0450"); ($"JKL", $"N0450"); ($"MNO", $"M080"); ($"OAT", $"M080")] /\
  map (fun r => (r_name r, r_speed r)) (from_on (t_start p') (e_recs (s_ers s'))) =
    [($"DEF", $"M082"); ($"UL613", $"M082"); ($"GHI", $"M082"); ($"JKL", $"M082"); ($"MNO", $"M080"); ($"OAT", $"M080")] /\
  map r_name (after (t_start p) (e_errs (s_ers s))) = [$"UL614"; $"/"; $"M082F330"; $"??"].
Proof.
  do 4 eexists. exists (firstn 4 (field_tokens one_way)), (nth 4 (field_tokens one_way) nothing), (nth 5 (field_tokens one_way) nothing), (skipn 6 (field_tokens one_way)).
  exists (firstn 5 (field_tokens another_way)), (nth 5 (field_tokens another_way) nothing), (nth 6 (field_tokens another_way) nothing), (skipn 7 (field_tokens another_way)).
  split. { unfold meet, stands_alone. do 5 (split; [vm_compute; reflexivity|]). split; (split; [vm_compute; reflexivity|]); repeat split; vm_compute; discriminate. }
  split; [vm_compute; reflexivity|]. split; [vm_compute; reflexivity|]. split; [unfold too_long; vm_compute; repeat constructor; discriminate|]. split; [unfold too_long; vm_compute; repeat constructor; discriminate|].
  split; [unfold ends_a_section; vm_compute; repeat constructor; discriminate|].
  split; [eexists; split; [apply (nth_error_In _ 4); vm_compute; reflexivity|vm_compute; reflexivity]|].
  split; [eexists; split; [apply (nth_error_In _ 4); vm_compute; reflexivity|vm_compute; reflexivity]|].
  split; [vm_compute; reflexivity|]. split; vm_compute; reflexivity.
Qed.
