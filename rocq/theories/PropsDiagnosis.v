(** * PropsDiagnosis: the first error of a rejected field. *)
From Coq Require Import ZArith NArith List Bool String.
From Verif Require Import PyBase PyFloat Enums ErrorTable Tokenizer Ers Utils Parser SpecNum SpecParser SpecGrammar SpecDiagnosis DiagFacts.
From Verif Require Import PropsParser PropsGrammar PropsAccept.
Import List ListNotations.
Local Open Scope list_scope.
Local Open Scope nat_scope.

(** C54. The first error record names the first offending element and the message of its situation. *)
Theorem C54_first_error : forall (G : geodesic) (depth : nat) (field : pstr) (b : bool) (s : st),
  field_tokens field <> [] -> parse_field15 G depth field = Ok b s ->
  match diagnose (field_tokens field) with
  | Fine => b = true /\ e_errs (s_ers s) = []
  | Report t m => b = false /\ exists e es, e_errs (s_ers s) = e :: es /\ reports t m e
  | Fails => False
  end.
Proof. exact first_error_field. Qed.
Print Assumptions C54_first_error.

(** What it names is an element of the field and a message of the table. *)
Theorem C54_names_an_element : forall (ts : list token) (t : token) (m : Z),
  diagnose ts = Report t m -> error_message m <> None /\ In t ts.
Proof. exact diagnose_names. Qed.
Print Assumptions C54_names_an_element.

(** Nothing is wrong exactly with the sentences of the grammar of C24. *)
Theorem C54_fine_sentence : forall (field : pstr), field_tokens field <> [] ->
  (diagnose (field_tokens field) = Fine <-> sentence (field_tokens field)).
Proof. exact (fine_sentence flat). Qed.
Print Assumptions C54_fine_sentence.

(** The two unconvertible cruise climbs raise ValueError (C13) whenever nothing is wrong before them. *)
Theorem C54_fails : forall (G : geodesic) (depth : nat) (field : pstr), field_tokens field <> [] -> 3 * n_tokens field <= depth + 1 ->
  diagnose (field_tokens field) = Fails -> exists s, parse_field15 G depth field = Exn ValueError s.
Proof. exact fails_field. Qed.
Print Assumptions C54_fails.

(** Verdicts of a few fields: the text reported and the message. *)
Definition says (field : pstr) : option (pstr * Z) :=
  match diagnose (field_tokens field) with Report t m => Some (t_text t, m) | _ => None end.
Example C54_example :
  field_tokens ($"N0450F350 ABC UL613") <> [] /\ (exists s, parse_field15 flat 100 ($"N0450F350 ABC UL613 DCT XYZ") = Ok false s) /\
  says ($"N0450F350 ABC UL613 DCT XYZ") = Some ($"DCT", 14%Z) /\
  says ($"N0450F350 ABC STAY1 XYZ ?? DCT") = Some ($"XYZ", 36%Z) /\
  says ($"N0450F350 ABC/N0430F332 XYZ/") = Some ($"N0430F332", 40%Z) /\
  says ($"N0450F350 DCT ABC VFR x IFR DEF/GHI DCT") = Some ($"DEF", 22%Z) /\
  says ($"N0450F350 DCT C/91N000E/N0450F350PLUS") = Some ($"91N000E", 42%Z) /\
  says ($"N0450F350 DCT C/ABC/N0450F350PLUS STAR XYZ") = Some ($"XYZ", 34%Z) /\
  says ($"DCT ABC") = Some ($"DCT", 1%Z) /\ says ($"N0450F350") = Some ($"N0450F350", 49%Z) /\
  diagnose (field_tokens full_route) = Fine /\
  diagnose (field_tokens ($"N0450F350 DCT C/ABC/N0450A0350S1000 XYZ")) = Fails.
Proof. split; [vm_compute; discriminate|]. split; [eexists; vm_compute; reflexivity|]. repeat (split; [vm_compute; reflexivity|]). vm_compute. reflexivity. Qed.
