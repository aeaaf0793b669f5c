(** * PropsXmlUnique: the XML output determines the result. *)
From Coq Require Import ZArith NArith List Bool String.
From Verif Require Import PyBase PyFloat Enums ErrorTable Tokenizer Ers Utils Parser Xml SpecNum SpecParser SpecXml SpecXmlUnique XmlFacts XmlUnique.
From Verif Require Import PropsParser PropsErs.
Import List ListNotations.
Local Open Scope list_scope.
Local Open Scope nat_scope.

(** C66. If the results of two fields without special XML characters have the same XML output, then they agree in the flight rules and,
    record for record and error for error, in everything that is written. *)
Theorem C66_determined : forall (v : py_version) (G G' : geodesic) (depth depth' : nat) (field field' : pstr) (b b' : bool) (s s' : st),
  no_escape field -> no_escape field' ->
  parse_field15 G depth field = Ok b s -> parse_field15 G' depth' field' = Ok b' s' ->
  ers_as_xml v (s_ers s) = ers_as_xml v (s_ers s') ->
  e_rules (s_ers s) = e_rules (s_ers s') /\
  Forall2 (agree false) (e_recs (s_ers s)) (e_recs (s_ers s')) /\
  Forall2 (agree true) (e_errs (s_ers s)) (e_errs (s_ers s')).
Proof. exact xml_unique. Qed.
Print Assumptions C66_determined.

(** Two different fields with the same output, and one with another. *)
Example C66_example : let f := $"N0450F350 91N010E DCT ??" in let f' := $"N0450F350" ++ [9]%N ++ $"91N010E DCT ??" in let g := $"N0450F350 91N010E DCT" in
  no_escape f /\ no_escape f' /\ no_escape g /\
  match parse_field15 flat 60 f, parse_field15 flat 60 f', parse_field15 flat 60 g with
  | Ok b s, Ok b' s', Ok c u => b = false /\ b' = false /\ f <> f' /\ ers_as_xml Py311 (s_ers s) = ers_as_xml Py311 (s_ers s') /\ ers_as_xml Py311 (s_ers s) <> ers_as_xml Py311 (s_ers u)
  | _, _, _ => False
  end.
Proof.
  split; [apply no_escape_by; vm_compute; reflexivity|]. split; [apply no_escape_by; vm_compute; reflexivity|]. split; [apply no_escape_by; vm_compute; reflexivity|].
  vm_compute. repeat split; discriminate.
Qed.
