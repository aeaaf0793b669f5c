(** * PropsPrint: C62 and C63, the report on the console. *)
From Coq Require Import ZArith NArith List Bool String.
From Coq Require Import Floats.SpecFloat.
From Verif Require Import PyBase PyFloat Enums Tokenizer Ers Utils Parser Print SpecNum SpecText SpecParser SpecPrint PrintReport.
From Verif Require PropsParser.
Import List ListNotations.
Local Open Scope list_scope.
Local Open Scope Z_scope.

(** A library with fixed answers. *)
Definition steady : geodesic := {| geo_inverse := fun _ _ _ _ => (f_of_Z (-90), f_of_Z 20003931); geo_direct := fun _ _ _ _ => (f_of_Z 48, f_of_Z (-5)) |}.
Definition no_library : geodesic := {| geo_inverse := fun _ _ _ _ => (f_of_Z 1234567, f_of_Z (-1)); geo_direct := fun _ _ _ _ => (f_of_Z 48, f_of_Z (-5)) |}.
Example sane_example : sane steady /\ ~ sane no_library.
Proof.
  split; [split; intros; vm_compute; repeat split; discriminate|].
  intros [_ H]. destruct (H (f_of_Z 0) (f_of_Z 0) (f_of_Z 0) (f_of_Z 0)) as [A _]. revert A. vm_compute. intro A. now apply A.
Qed.

(** C62: in the printed line of a record or error with a name of at most 17 characters every value is in its own columns. *)
Theorem C62_columns_partial : forall (G : geodesic) (depth : nat) (field : pstr) (b : bool) (s : st),
  sane G -> zlen field < 10 ^ 6 -> parse_field15 G depth field = Ok b s ->
  (forall r, In r (e_recs (s_ers s)) -> zlen (r_name r) <= 17 -> record_line r (r_break r) (to_string false r)) /\
  (forall e, In e (e_errs (s_ers s)) -> zlen (r_name e) <= 17 -> record_line e (r_err e) (to_string true e)).
Proof. exact record_columns. Qed.
Print Assumptions C62_columns_partial.
(** Only names of elements that were not recognised can be longer. *)
Theorem C62_long_names : forall (G : geodesic) (depth : nat) (field : pstr) (b : bool) (s : st),
  parse_field15 G depth field = Ok b s -> forall r, In r (e_recs (s_ers s) ++ e_errs (s_ers s)) ->
  r_base r <> F15_UNKNOWN -> r_base r <> F15_TOO_LONG -> zlen (r_name r) <= 17.
Proof. exact known_short. Qed.
Print Assumptions C62_long_names.
(** C62 is false in general, even for an accepted field: the element after "C/" may be any word. *)
Theorem C62_columns_refuted : forall G, exists s r,
  parse_field15 G 100 ($"N0450F350 DCT ABC DCT C/ABCDEFGHIJKLMNOPQRSTUV/N0450F350F370") = Ok true s /\ In r (e_recs (s_ers s)) /\
  ~ record_line r (r_break r) (to_string false r).
Proof. exact long_witness. Qed.
Print Assumptions C62_columns_refuted.

Example C62_example : exists s, parse_field15 steady 100 ($"N0450F350 4830N00515W/M082F370 DCT 50N010E VFR some text") = Ok true s /\
  map (fun r => to_string false r) (firstn 2 (e_recs (s_ers s))) =
    [$"ADEP                  0     0    9   14 N0450   231  F350 10668   0.00       0.00   IFR    0           0.0   0.00    0.00 " ++ repeat 32%N 91;
     $"4830N00515W          10    21    9   17  M082   242  F370 11278 -90.0020003931.00   IFR    0           0.0  48.50   -5.25 " ++ repeat 32%N 91].
Proof. eexists. split; [vm_compute; reflexivity|]. vm_compute. reflexivity. Qed.

(** C63: the report has the number of records, one line for each record in order, the number of errors and one line for each error in order. *)
Theorem C63_report : forall (G : geodesic) (depth : nat) (field : pstr) (b : bool) (s : st),
  sane G -> zlen field < 10 ^ 6 -> parse_field15 G depth field = Ok b s ->
  printed_report (s_ers s) (lines (print_ers (s_ers s))).
Proof. exact report_lines. Qed.
Print Assumptions C63_report.
(** The list of tokens is printed in the same way; names of at most 9 characters are in their column. *)
Theorem C63_tokens_partial : forall (field : pstr) (k : Z), zlen field < 10 ^ 5 ->
  printed_tokens (field_tokens field) (lines (print_tokens (mkTokens (field_tokens field) k))).
Proof. exact token_report. Qed.
Print Assumptions C63_tokens_partial.
(** The column of the names is too narrow, even for the field of main.py. *)
Definition main_field : pstr := $"N0450M0825 00N000E B9 00N001E VFR IFR 00N001W/N0350F100 01N001W 01S001W 02S001W180060".
Theorem C63_tokens_refuted : exists t, In t (field_tokens main_field) /\
  ~ token_printed t (token_line t).
Proof. exact token_witness. Qed.
Print Assumptions C63_tokens_refuted.

Example C63_example : exists s, parse_field15 steady 100 ($"N0450F350 ?? ABC") = Ok false s /\
  List.length (lines (print_ers (s_ers s))) = 11%nat /\ nth 0 (lines (print_ers (s_ers s))) [] = $"Total Number of Extracted Route Records: 3" /\
  nth 7 (lines (print_ers (s_ers s))) [] = $"Total Number of Errors: 1" /\ nth 6 (lines (print_ers (s_ers s))) [] = [].
Proof. eexists. split; [vm_compute; reflexivity|]. vm_compute. repeat split. Qed.
