(** * PropsPlaces: C97 — the positions in a result follow the elements of the field. *)
From Coq Require Import ZArith NArith List Bool String Lia.
From Verif Require Import PyBase PyFloat Enums Tokenizer Ers Utils Parser SpecTokenizer SpecParser SpecLayout SpecPlaces Places PropsParser.
Import List ListNotations.
Local Open Scope list_scope.
Local Open Scope nat_scope.

(** C97. Two fields with the same elements: some function takes the position of each element in the one to its position in the other ... *)
Theorem C97_takes : forall a b : pstr, texts f15_whitespace a = texts f15_whitespace b -> exists h, takes h a b.
Proof. exact takes_exists. Qed.
Print Assumptions C97_takes.

(** ... and every such function takes the position of each record and of each error in the one result to that in the other; all else is
    the same (C50). *)
Theorem C97_moved : forall (G : geodesic) (depth : nat) (h : moving) (a b : pstr),
  texts f15_whitespace a = texts f15_whitespace b -> takes h a b ->
  moved_outcome h (parse_field15 G depth a) (parse_field15 G depth b).
Proof. intros G depth h a b T K. exact (places h (proj1 K) G depth a b T K). Qed.
Print Assumptions C97_moved.

(** Blanks put in between two elements, around a '/' or at either end move what comes after them by their number. *)
Theorem C97_blanks : forall (G : geodesic) (depth : nat) (a bs b : pstr), apart a b -> Forall blank bs ->
  moved_outcome (shift (zlen a) (zlen bs)) (parse_field15 G depth (a ++ b)) (parse_field15 G depth (a ++ bs ++ b)).
Proof. exact blanks_put_in. Qed.
Print Assumptions C97_blanks.

(** Which blanks they are does not matter at all. *)
Theorem C97_which : forall (G : geodesic) (depth : nat) (a bs cs b : pstr), Forall blank bs -> Forall blank cs -> length bs = length cs ->
  parse_field15 G depth (a ++ bs ++ b) = parse_field15 G depth (a ++ cs ++ b).
Proof. exact blanks_replaced. Qed.
Print Assumptions C97_which.

Definition spots (f : pstr) : list (pstr * Z * Z) := map (fun r => (r_name r, r_start r, r_end r)) (e_recs (s_ers (final (parse_field15 flat 60 f))) ++ e_errs (s_ers (final (parse_field15 flat 60 f)))).
Example C97_example :
  let a := $"N0450F350 ABC" in let b := $"/N0400F206 DEF x" in
  apart a b /\
  spots (a ++ b) = [($"ADEP", 0, 0); ($"ABC", 10, 13); ($"DEF", 24, 27); ($"ADES", 0, 0); ($"N0400F206", 14, 23); ($"x", 28, 29)]%Z /\
  spots (a ++ [32; 9; 10]%N ++ b) = [($"ADEP", 0, 0); ($"ABC", 10, 13); ($"DEF", 27, 30); ($"ADES", 0, 0); ($"N0400F206", 17, 26); ($"x", 31, 32)]%Z.
Proof.
  cbv zeta. split; [right; right; right; do 2 eexists; split; [reflexivity|cbn; tauto]|]. split; vm_compute; reflexivity.
Qed.
(** Inside an element blanks are not harmless. *)
Example C97_inside : ~ same_outcome (parse_field15 flat 60 ($"N0450F350 ABC")) (parse_field15 flat 60 ($"N0450F3" ++ [32]%N ++ $"50 ABC")).
Proof. vm_compute. intros [K _]. discriminate K. Qed.
