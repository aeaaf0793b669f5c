(** * PropsBeginning: which fields can still be completed. *)
From Coq Require Import ZArith NArith List Bool String.
From Verif Require Import PyBase PyFloat Enums ErrorTable Tokenizer Ers Utils Parser SpecTokenizer SpecParser SpecDiagnosis SpecViable SpecBeginning Viable Beginning.
From Verif Require Import PropsParser PropsAccept PropsDiagnosis.
Import List ListNotations.
Local Open Scope list_scope.
Local Open Scope nat_scope.

(** C75. The elements of a field are the beginning of the elements of some accepted field exactly if its first
    error (C54) is none, or says that something is missing at the end, or is message 22 about one of the last
    two elements. *)
Theorem C75_completable : forall (G : geodesic) (field : pstr),
  (exists g s, parse_field15 G (3 * n_tokens g) g = Ok true s /\ firstn (length (element_texts field)) (element_texts g) = element_texts field) <->
  open_ended (field_tokens field).
Proof. exact beginning_iff. Qed.
Print Assumptions C75_completable.

(** Beyond that no continuation helps, whatever the recursion limit. *)
Theorem C75_no_continuation : forall (G : geodesic) (field g : pstr) (depth : nat) (s : st),
  ~ open_ended (field_tokens field) -> firstn (length (element_texts field)) (element_texts g) = element_texts field ->
  parse_field15 G depth g <> Ok true s.
Proof. exact no_continuation. Qed.
Print Assumptions C75_no_continuation.

(** Fields that can be completed, with a completion, and fields that cannot. *)
Example C75_example :
  says ($"N0450F350 ABC VFR x IFR DEF") = Some ($"DEF", 22%Z) /\ open_ended (field_tokens ($"N0450F350 ABC VFR x IFR DEF")) /\
  says ($"N0450F350 ABC VFR x IFR DEF/") = Some ($"DEF", 22%Z) /\ open_ended (field_tokens ($"N0450F350 ABC VFR x IFR DEF/")) /\
  accepts ($"N0450F350 ABC VFR x IFR DEF/N0450F350") /\
  says ($"N0450F350 ABC VFR x IFR DEF/DCT") = Some ($"DEF", 22%Z) /\ ~ open_ended (field_tokens ($"N0450F350 ABC VFR x IFR DEF/DCT")) /\
  open_ended (field_tokens ($"N0450F350")) /\ open_ended (field_tokens ($"N0450F350 ABC STAY1")) /\ open_ended (field_tokens ($"N0450F350 ABC DCT")) /\
  ~ open_ended (field_tokens ($"N0450F350 ABC T DEF")) /\ ~ open_ended (field_tokens ($"N0450F352")) /\
  ~ open_ended (field_tokens ($"N0450F350 DCT C/ABC/N0450A0350S1000")).
Proof.
  assert (K : forall w ts, diagnose ts = Report w 22 -> forall a b, ts = a ++ w :: b -> length b <= 1 -> open_ended ts).
  { intros w ts E a b Ets L. unfold open_ended. rewrite E. right. split; [reflexivity|]. now exists a, b. }
  set (f1 := field_tokens ($"N0450F350 ABC VFR x IFR DEF")). set (f2 := field_tokens ($"N0450F350 ABC VFR x IFR DEF/")). set (f3 := field_tokens ($"N0450F350 ABC VFR x IFR DEF/DCT")).
  set (z := nth 5 f3 (mkToken [] 0 0 F15_DCT F15_SB_DCT)).
  split; [vm_compute; reflexivity|]. split.
  { apply (K (nth 5 f1 z) f1 ltac:(vm_compute; reflexivity) (firstn 5 f1) []); [vm_compute; reflexivity|repeat constructor]. }
  split; [vm_compute; reflexivity|]. split.
  { apply (K (nth 5 f2 z) f2 ltac:(vm_compute; reflexivity) (firstn 5 f2) (skipn 6 f2)); [vm_compute; reflexivity|vm_compute; repeat constructor]. }
  split; [eexists; vm_compute; reflexivity|]. split; [vm_compute; reflexivity|]. split.
  { unfold open_ended. replace (diagnose f3) with (Report z 22) by (vm_compute; reflexivity). intros [H|[_ (a & b & E & L)]]; [discriminate H|].
    apply (near_test z f3 5); [apply ft_nodup|vm_compute; reflexivity|vm_compute; repeat constructor|]. now exists a, b. }
  split; [vm_compute; left; reflexivity|]. split; [vm_compute; left; reflexivity|]. split; [vm_compute; exact I|].
  split; [vm_compute; intros [H|[H _]]; discriminate H|]. split; [vm_compute; intros [H|[H _]]; discriminate H|]. vm_compute. intros [].
Qed.
