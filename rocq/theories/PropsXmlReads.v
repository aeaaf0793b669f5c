(** * PropsXmlReads: what a reader of the XML output gets. *)
From Coq Require Import ZArith NArith List Bool String.
From Verif Require Import PyBase PyFloat Enums ErrorTable Tokenizer Ers Xml Utils Parser SpecParser SpecXml XmlReads XmlForged.
From Verif Require Import PropsParser.
Import List ListNotations.
Local Open Scope list_scope.
Local Open Scope nat_scope.

(** C76. A text can be read as an element in one way only. *)
Theorem C76_one_reading : forall (e e' : xml) (s : pstr), well_formed e s -> well_formed e' s -> e = e'.
Proof. exact reads_once. Qed.
Print Assumptions C76_one_reading.

(** If the field has no characters that need escaping, every reader of the output gets the result or finds the text malformed. *)
Theorem C76_reads_as_result_partial : forall (G : geodesic) (depth : nat) (field : pstr) (b : bool) (s : st) (v : py_version) (e : xml),
  no_escape field -> parse_field15 G depth field = Ok b s -> well_formed e (ers_as_xml v (s_ers s)) -> is_ers v (s_ers s) e.
Proof. exact read_result. Qed.
Print Assumptions C76_reads_as_result_partial.

(** In general false: accepted fields whose output is well-formed but shows something else.  Here the break texts of
    two VFR sections begin and end an XML comment; the two points in between are not shown. *)
Theorem C76_hidden_records_refuted : forall (G : geodesic) (v : py_version), exists s e,
  parse_field15 G 100 hiding_field = Ok true s /\ well_formed e (ers_as_xml v (s_ers s)) /\ ~ is_ers v (s_ers s) e /\
  map r_name (e_recs (s_ers s)) = [$"ADEP"; $"ABC"; $"VFR"; $"DEF"; $"GHI"; $"VFR"; $"ADES"] /\
  length (filter (fun k => match k with Elem n _ _ => pstr_eqb n ($"ers_record") | _ => false end) (kids_of e)) = 4.
Proof. exact hidden_records. Qed.
Print Assumptions C76_hidden_records_refuted.
Example C76_example : no_escape route /\ exists s e, parse_field15 flat 100 route = Ok true s /\ well_formed e (ers_as_xml Py311 (s_ers s)).
Proof.
  split; [apply XmlFacts.no_escape_by; vm_compute; reflexivity|].
  assert (P : exists s, parse_field15 flat 100 route = Ok true s) by (eexists; vm_compute; reflexivity). destruct P as [s E].
  destruct (XmlFacts.xml_accepted flat 100 route s Py311 ltac:(apply XmlFacts.no_escape_by; vm_compute; reflexivity) E) as (e & W & _). exists s, e. split; [exact E|exact W].
Qed.
