(** * XmlForged: fields whose XML output shows something else (lemmas behind PropsXmlReads). *)
From Coq Require Import ZArith NArith List Bool String Lia.
From Verif Require Import PyBase PyFloat Enums ErrorTable Tokenizer Ers Xml Utils Parser SpecParser SpecXml XmlFacts XmlReads.
Import List ListNotations.
Local Open Scope list_scope.
Local Open Scope nat_scope.

Definition kids_of (e : xml) : list xml := match e with Elem _ _ k => k | _ => [] end.
(** N0450F350 ABC VFR, a double quote followed by the begin of a comment, IFR DEF/N0450F350 GHI VFR, the end of a comment. *)
Definition hiding_field : pstr := $"N0450F350 ABC VFR " ++ dq ++ $"><!-- IFR DEF/N0450F350 GHI VFR -->".

Lemma read_result G depth field b s v e : no_escape field -> parse_field15 G depth field = Ok b s -> well_formed e (ers_as_xml v (s_ers s)) -> is_ers v (s_ers s) e.
Proof.
  intros N H W. assert (K : forall e0, In e0 (e_errs (s_ers s)) -> ~ In 60%N (r_err e0)) by (apply (xml_exact G depth field b s v N H); now exists e).
  destruct (xml_tree G depth field b s v N H K) as (e' & W' & I'). now rewrite (reads_once e e' _ W W').
Qed.

(** The text after, and before, the first occurrence. *)
Fixpoint after_first (x s : pstr) : pstr :=
  match s with [] => [] | _ :: r => if pstr_eqb x (firstn (length x) s) then skipn (length x) s else after_first x r end.
Fixpoint before_first (x s : pstr) : pstr :=
  match s with [] => [] | c :: r => if pstr_eqb x (firstn (length x) s) then [] else c :: before_first x r end.

Lemma hidden_records (G : geodesic) (v : py_version) : exists s e,
  parse_field15 G 100 hiding_field = Ok true s /\ well_formed e (ers_as_xml v (s_ers s)) /\ ~ is_ers v (s_ers s) e /\
  map r_name (e_recs (s_ers s)) = [$"ADEP"; $"ABC"; $"VFR"; $"DEF"; $"GHI"; $"VFR"; $"ADES"] /\
  length (filter (fun k => match k with Elem n _ _ => pstr_eqb n ($"ers_record") | _ => false end) (kids_of e)) = 4.
Proof.
  set (s := final (parse_field15 G 100 hiding_field)).
  set (R := fun i => nth i (e_recs (s_ers s)) (dummy [])). set (w := Text (nl ++ $"      ")).
  set (c := before_first ($"-->") (after_first ($"<!--") (ers_as_xml v (s_ers s)))).
  set (kids := [w; Elem ($"derived_flight_rules") [] [Text ($"Y")]; w; record_elem v (R 0); w; record_elem v (R 1); w;
    Elem ($"ers_record") (record_atts v (R 2) ($"break_text", [])) [Comment c; Text (dq ++ $">VFR")]; w; record_elem v (R 6); Text (nl ++ $"   ")]).
  exists s, (Elem ($"ers") [] kids).
  assert (F : length (filter (fun k => match k with Elem n _ _ => pstr_eqb n ($"ers_record") | _ => false end) kids) = 4) by (vm_compute; reflexivity).
  split; [vm_compute; reflexivity|]. split; [|split; [|split; [vm_compute; reflexivity|exact F]]].
  - replace (ers_as_xml v (s_ers s)) with ($"   " ++ ser (Elem ($"ers") [] kids) ++ []).
    + apply ser_well_formed; [intros x Hx; cbn in Hx; repeat (destruct Hx as [<-|Hx]; [reflexivity|]); destruct Hx|exact no_spaces|]. destruct v; vm_compute; reflexivity.
    + destruct v; vm_compute; reflexivity.
  - intros (kids' & E & K). injection E as <-. assert (Ee : e_errs (s_ers s) = []) by (vm_compute; reflexivity). rewrite Ee in K.
    apply (f_equal (@length xml)) in K. assert (L1 : length (nodes kids) = 5) by (vm_compute; reflexivity). assert (L2 : length (e_recs (s_ers s)) = 7) by (vm_compute; reflexivity).
    rewrite L1 in K. cbn [length] in K. rewrite map_length, L2 in K. discriminate K.
Qed.
