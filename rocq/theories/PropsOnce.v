(** * PropsOnce: each error of an element is reported once.

    Only theorems that are claimed in MANIFEST.json, and examples for them. *)
From Coq Require Import ZArith NArith List Bool String.
From Verif Require Import PyBase Enums ErrorTable Tokenizer Ers Utils Parser SpecParser SpecReader SpecComplete SpecOnce Once PropsParser.
Import List ListNotations.
Local Open Scope list_scope.
Local Open Scope nat_scope.

(** C101: no error record has the place and the text of another one, unless it says that a flight level does not end in zero or five. *)
Theorem C101_once_partial : forall (G : geodesic) (depth : nat) (field : pstr) (b : bool) (s : st),
  field_tokens field <> [] -> parse_field15 G depth field = Ok b s ->
  forall i j x y, i < j -> nth_error (e_errs (s_ers s)) i = Some x -> nth_error (e_errs (s_ers s)) j = Some y -> r_start x = r_start y -> r_err x = r_err y ->
  exists t, In t (field_tokens field) /\ reports t 40 x.
Proof. exact told_once. Qed.
Print Assumptions C101_once_partial.

(** At most four error records are about one element. *)
Theorem C101_four : forall (G : geodesic) (depth : nat) (field : pstr) (b : bool) (s : st) (n : Z),
  field_tokens field <> [] -> parse_field15 G depth field = Ok b s ->
  length (filter (fun x => (r_start x =? n)%Z) (e_errs (s_ers s))) <= 4.
Proof. exact four_at_most. Qed.
Print Assumptions C101_four.

(** The errors an element can have together are those of [once]; each error record is about an element of the field. *)
Theorem C101_together : forall (G : geodesic) (depth : nat) (field : pstr) (b : bool) (s : st),
  field_tokens field <> [] -> parse_field15 G depth field = Ok b s ->
  exists e, e_errs (s_ers s) = map error_of e /\ Forall (fun q => In (fst q) (field_tokens field)) e /\ forall t, In t (field_tokens field) -> once t (about t e).
Proof. exact errors_once. Qed.
Print Assumptions C101_together.

(** The flight levels of a cruise climb: the same record twice. *)
Theorem C101_once_refuted : exists (G : geodesic) (depth : nat) (field : pstr) (s : st) (x : rrec),
  parse_field15 G depth field = Ok false s /\ e_errs (s_ers s) = [x; x].
Proof.
  exists flat, 100, ($"N0450F350 PNT C/ABC/N0450F351F362"). eexists. eexists. split; [vm_compute; reflexivity|]. cbn [e_errs s_ers]. reflexivity.
Qed.
Print Assumptions C101_once_refuted.

Example C101_example : exists s, parse_field15 flat 100 ($"N0450F350 PNT STAR 9960N19060W361010 ??") = Ok false s /\
  map r_start (e_errs (s_ers s)) = [19; 19; 19; 19; 37]%Z /\ length (filter (fun x => (r_start x =? 19)%Z) (e_errs (s_ers s))) = 4 /\
  field_tokens ($"N0450F350 PNT STAR 9960N19060W361010 ??") <> [].
Proof. eexists. split; [vm_compute; reflexivity|]. split; [reflexivity|]. split; [reflexivity|discriminate]. Qed.
