(** * PropsViable: what the first error says about fields that begin alike. *)
From Coq Require Import ZArith NArith List Bool String.
From Verif Require Import PyBase PyFloat Enums ErrorTable Tokenizer Ers Utils Parser SpecTokenizer SpecParser SpecDiagnosis SpecViable Viable.
From Verif Require Import PropsParser PropsAccept PropsDiagnosis.
Import List ListNotations.
Local Open Scope list_scope.
Local Open Scope nat_scope.

(** C55. What stands before the reported element is the beginning of some accepted field: nothing before it is wrong. *)
Theorem C55_before_is_viable : forall (G : geodesic) (field : pstr) (i : nat) (t : token) (m : Z),
  diagnose (field_tokens field) = Report t m -> nth_error (field_tokens field) i = Some t ->
  exists g s, parse_field15 G (3 * n_tokens g) g = Ok true s /\
    firstn (length (firstn i (element_texts field))) (element_texts g) = firstn i (element_texts field).
Proof. exact before_error. Qed.
Print Assumptions C55_before_is_viable.

(** Every field with the same elements up to the reported one has the same first error, whatever follows;
    except for messages that depend on what follows ([settled]). *)
Theorem C55_rest_cannot_help : forall (G : geodesic) (field g : pstr) (i : nat) (t : token) (m : Z),
  diagnose (field_tokens field) = Report t m -> nth_error (field_tokens field) i = Some t ->
  settled (match i with O => None | S j => nth_error (field_tokens field) j end) m = true ->
  firstn (S i) (element_texts g) = firstn (S i) (element_texts field) ->
  forall depth b s, parse_field15 G depth g = Ok b s ->
  b = false /\ exists u e es, nth_error (field_tokens g) i = Some u /\ e_errs (s_ers s) = e :: es /\ reports u m e.
Proof. exact same_first_error. Qed.
Print Assumptions C55_rest_cannot_help.

(** When the message says that something is missing at the end, the field is the beginning of an accepted one. *)
Theorem C55_missing_at_the_end : forall (G : geodesic) (field : pstr) (t : token) (m : Z),
  diagnose (field_tokens field) = Report t m -> end_message m = true ->
  exists g s, parse_field15 G (3 * n_tokens g) g = Ok true s /\ firstn (length (element_texts field)) (element_texts g) = element_texts field.
Proof. exact incomplete. Qed.
Print Assumptions C55_missing_at_the_end.

(** A settled error, a missing end, and two errors that disappear when the rest is changed. *)
Example C55_example :
  says ($"N0450F350 ABC UL613 DCT XYZ") = Some ($"DCT", 14%Z) /\ settled (nth_error (field_tokens ($"N0450F350 ABC UL613 DCT XYZ")) 2) 14 = true /\
  says ($"N0450F350 ABC UL613 DCT DEF C/") = Some ($"DCT", 14%Z) /\
  says ($"N0450F350 ABC STAY1/") = Some ($"/", 37%Z) /\ end_message 37 = true /\ accepts ($"N0450F350 ABC STAY1/0100") /\
  says ($"N0450F350 ABC VFR x IFR DEF") = Some ($"DEF", 22%Z) /\ accepts ($"N0450F350 ABC VFR x IFR DEF/N0450F350") /\
  says ($"N0450F350 ABC VFR x IFR 91N000E/N0450F350") = Some ($"91N000E", 42%Z) /\ accepts ($"N0450F350 ABC VFR x IFR 91N000E/N0450VFR").
Proof.
  repeat (split; [try (vm_compute; reflexivity); eexists; vm_compute; reflexivity|]). eexists. vm_compute. reflexivity.
Qed.
