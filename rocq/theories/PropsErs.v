(** * PropsErs: C44, C47, C48 — the route sequence class and its XML output. *)
From Coq Require Import ZArith NArith List Bool String Lia.
From Coq Require Import Floats.SpecFloat.
From Coq Require Import ZifyBool ZifyNat ZifyN.
From Verif Require Import PyBase PyFloat Enums ErrorTable Tokenizer Ers Xml Utils Parser SpecParser SpecXml.
From Verif Require Import ErrMono RecMono ErsFacts XmlFacts PropsParser.
Import List ListNotations.
Local Open Scope list_scope.
Local Open Scope Z_scope.

(** C44: get_element_at is right for every integer except the number of elements. *)
Theorem C44_get_element_at_partial : forall (x : ers) (i : Z), i <> zlen (e_recs x) ->
  (0 <= i < zlen (e_recs x) -> exists r, get_element_at x i = inr (Some (Z.to_nat i)) /\ nth_error (e_recs x) (Z.to_nat i) = Some r) /\
  (~ 0 <= i < zlen (e_recs x) -> get_element_at x i = inr None).
Proof. exact element_at_spec. Qed.
Print Assumptions C44_get_element_at_partial.
(** At the number of elements it raises IndexError, for every route sequence. *)
Theorem C44_element_at_count : forall x : ers, get_element_at x (zlen (e_recs x)) = inl IndexError.
Proof. exact element_at_count. Qed.
Print Assumptions C44_element_at_count.
Theorem C44_get_element_at_refuted : exists (x : ers) (i : Z), ~ 0 <= i < zlen (e_recs x) /\ get_element_at x i = inl IndexError.
Proof. exists new_ers, 1. split; [intros [_ H]; discriminate H|exact (element_at_count new_ers)]. Qed.
Print Assumptions C44_get_element_at_refuted.
(** The callers in the parser never ask for that position: the class always holds ADEP. *)
Theorem C44_other_getters : forall x : ers, e_recs x <> [] ->
  get_first_element x = inr (Some 0%nat) /\
  get_last_element x = inr (Some (length (e_recs x) - 1)%nat) /\
  get_previous_to_last_element x = inr (if (length (e_recs x) =? 1)%nat then None else Some (length (e_recs x) - 2)%nat).
Proof. exact other_getters. Qed.
Print Assumptions C44_other_getters.
Example get_element_example : map (get_element_at new_ers) [-1; 0; 1; 2] = [inr None; inr (Some 0%nat); inl IndexError; inr None].
Proof. reflexivity. Qed.

(** C47 is false for every pair of fields: after a second parse into the same route sequence
    the list of records is never that of a parse into a fresh one, not even up to the
    flight data: it still begins with the records of the first route, ADES included. *)
Theorem C47_never_the_same : forall G depth (f1 f2 : pstr) b1 s1 b2 s2 k b s,
  parse_field15 G depth f1 = Ok b1 s1 -> parse_field15 G depth f2 = Ok b2 s2 -> reparse G depth f2 (s_ers s1) k = Ok b s ->
  e_recs (s_ers s) <> e_recs (s_ers s2) /\
  map (fun r => (r_name r, r_start r, r_end r)) (e_recs (s_ers s)) <> map (fun r => (r_name r, r_start r, r_end r)) (e_recs (s_ers s2)).
Proof. exact reuse_differs. Qed.
Print Assumptions C47_never_the_same.
(** The witness: two fields that both return, and the second into the sequence left by the first. *)
Definition names (o : out bool) : list pstr := map r_name (e_recs (s_ers (final o))).
Example reuse_example : forall G,
  let o1 := parse_field15 G 100 ($"N0450F350 AAA") in
  let o2 := parse_field15 G 100 ($"N0450F350 BBB") in
  let o := reparse G 100 ($"N0450F350 BBB") (s_ers (final o1)) 0 in
  returns o1 /\ returns o2 /\ returns o /\
  names o2 = [$"ADEP"; $"BBB"; $"ADES"] /\ names o = [$"ADEP"; $"AAA"; $"ADES"; $"BBB"; $"ADES"].
Proof. intro G. vm_compute. repeat split. Qed.
Theorem C47_reuse_refuted : exists G depth (f1 f2 : pstr) s1 s2 s,
  parse_field15 G depth f1 = Ok true s1 /\ parse_field15 G depth f2 = Ok true s2 /\ reparse G depth f2 (s_ers s1) (s_calls s1) = Ok true s /\
  e_recs (s_ers s) <> e_recs (s_ers s2).
Proof.
  exists flat, 100%nat, ($"N0450F350 AAA"), ($"N0450F350 BBB"). eexists. eexists. eexists.
  repeat (split; [vm_compute; reflexivity|]). intro E. apply (f_equal (@length _)) in E. discriminate E.
Qed.
Print Assumptions C47_reuse_refuted.
(** What holds for every route sequence: old records keep their names and positions, new ones follow. *)
Theorem C47_records_appended : forall G depth (f2 : pstr) x k b s, reparse G depth f2 x k = Ok b s ->
  exists old new, e_recs (s_ers s) = old ++ new /\ new <> [] /\
    map (fun r => (r_name r, r_start r, r_end r)) old = map (fun r => (r_name r, r_start r, r_end r)) (e_recs x).
Proof. intros G depth f2 x k b s. exact (records_kept G depth _ x k b s). Qed.
Print Assumptions C47_records_appended.
(** Errors are never cleared: once a field has been rejected, every later field is. *)
Theorem C47_rejected_for_ever : forall G depth (f2 : pstr) x k b s, reparse G depth f2 x k = Ok b s ->
  (exists e, e_errs (s_ers s) = e_errs x ++ e) /\ (e_errs x <> [] -> b = false).
Proof. intros G depth f2 x k b s H. exact (conj (errors_kept G depth _ x k b s H) (fun N => stays_rejected G depth _ x k b s N H)). Qed.
Print Assumptions C47_rejected_for_ever.
Example rejected_example : forall G,
  let o1 := parse_field15 G 100 ($"AAA") in
  let o := reparse G 100 ($"N0450F350 BBB") (s_ers (final o1)) 0 in
  match parse_field15 G 100 ($"N0450F350 BBB"), o with Ok true _, Ok false _ => True | _, _ => False end.
Proof. intro G. vm_compute. exact I. Qed.

(** C48: if the field has only XML characters other than less-than sign, ampersand and
    double quote, and not the string "]]>", and no error text has a less-than sign, the
    output is a well-formed element with the records and errors as children in order. *)
Theorem C48_well_formed_partial : forall G depth (field : pstr) b s v, no_escape field -> parse_field15 G depth field = Ok b s ->
  (forall e, In e (e_errs (s_ers s)) -> ~ In 60%N (r_err e)) ->
  exists e, well_formed e (ers_as_xml v (s_ers s)) /\ is_ers v (s_ers s) e.
Proof. exact xml_tree. Qed.
Print Assumptions C48_well_formed_partial.
(** For such fields the condition on the errors is exact. *)
Theorem C48_exactly_when_partial : forall G depth (field : pstr) b s v, no_escape field -> parse_field15 G depth field = Ok b s ->
  (forall e, In e (e_errs (s_ers s)) -> ~ In 60%N (r_err e)) <-> (exists e, well_formed e (ers_as_xml v (s_ers s))).
Proof. exact xml_exact. Qed.
Print Assumptions C48_exactly_when_partial.
(** Accepted fields: no condition on errors is left. *)
Theorem C48_accepted_partial : forall G depth (field : pstr) s v, no_escape field -> parse_field15 G depth field = Ok true s ->
  exists e, well_formed e (ers_as_xml v (s_ers s)) /\ is_ers v (s_ers s) e.
Proof. exact xml_accepted. Qed.
Print Assumptions C48_accepted_partial.
(** C48 is false in general: the message of the error for bad minutes has a less-than sign,
    and any character of the field reaches the output. *)
Theorem C48_well_formed_refuted : forall G v,
  (exists s, parse_field15 G 100 ($"N0450F350 4660N00000E") = Ok false s /\ ~ exists e, well_formed e (ers_as_xml v (s_ers s))) /\
  (exists s, parse_field15 G 100 ($"N0450VFR A<B") = Ok true s /\ ~ exists e, well_formed e (ers_as_xml v (s_ers s))).
Proof. exact xml_witness. Qed.
Print Assumptions C48_well_formed_refuted.
Example no_escape_example : no_escape route /\ no_escape bad_route.
Proof. split; apply no_escape_by; vm_compute; reflexivity. Qed.
