(** * PropsSize: how many records and errors a field can have. *)
From Coq Require Import ZArith NArith List Bool String.
From Verif Require Import PyBase PyFloat Enums ErrorTable Tokenizer Ers Utils Parser SpecNum SpecParser SpecGrammar SizeFacts.
From Verif Require Import PropsParser PropsGrammar PropsAccept.
Import List ListNotations.
Local Open Scope list_scope.
Local Open Scope nat_scope.

(** C65. A field of n tokens has at most n + 1 records with ADEP and ADES, one more if it begins with a VFR speed, ... *)
Theorem C65_records : forall (G : geodesic) (depth : nat) (field : pstr) (b : bool) (s : st),
  field_tokens field <> [] -> parse_field15 G depth field = Ok b s ->
  List.length (e_recs (s_ers s)) <=
    n_tokens field + match field_tokens field with t :: _ => if base_eqb (t_base t) F15_SPEED_VFR then 2 else 1 | [] => 0 end.
Proof. exact few_records. Qed.
Print Assumptions C65_records.

(** ... and at most 3 n - 2 errors; a single token may have two. *)
Theorem C65_errors : forall (G : geodesic) (depth : nat) (field : pstr) (b : bool) (s : st),
  field_tokens field <> [] -> parse_field15 G depth field = Ok b s ->
  List.length (e_errs (s_ers s)) + 2 <= 3 * n_tokens field \/ n_tokens field = 1 /\ List.length (e_errs (s_ers s)) = 2.
Proof. exact few_errors. Qed.
Print Assumptions C65_errors.

(** Both numbers are attained for every n. *)
Theorem C65_attained : forall (n : nat), exists field : pstr, n_tokens field = S n /\
  forall (G : geodesic) (depth : nat), 3 * S n <= depth + 1 -> exists s, parse_field15 G depth field = Ok false s /\
    List.length (e_errs (s_ers s)) + 2 = 3 * S n /\ List.length (e_recs (s_ers s)) = S n + 1.
Proof. exact bounds_attained. Qed.
Print Assumptions C65_attained.

Example C65_example : let field := $"X 91N181E361001 91N181E361001" in
  field_tokens field <> [] /\ n_tokens field = 3 /\
  match parse_field15 flat 20 field with
  | Ok b s => b = false /\ List.length (e_recs (s_ers s)) = 4 /\ List.length (e_errs (s_ers s)) = 7
  | Exn _ _ => False
  end.
Proof. vm_compute. repeat split. discriminate. Qed.
(** The other cases. *)
Example C65_example_vfr : n_tokens ($"N0450VFR") = 1 /\ match parse_field15 flat 20 ($"N0450VFR") with Ok b s => b = true /\ List.length (e_recs (s_ers s)) = 3 | Exn _ _ => False end.
Proof. vm_compute. repeat split. Qed.
Example C65_example_one : n_tokens ($"N0450F999") = 1 /\ match parse_field15 flat 20 ($"N0450F999") with Ok b s => b = false /\ List.length (e_errs (s_ers s)) = 2 | Exn _ _ => False end.
Proof. vm_compute. repeat split. Qed.
