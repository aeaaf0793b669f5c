(** * PropsLibrary: what depends on the geodesic library (C85). *)
From Coq Require Import ZArith NArith List Bool String.
From Coq Require Import Floats.SpecFloat.
From Verif Require Import PyBase PyFloat Enums Tokenizer Ers Utils Parser SpecParser SpecLibrary Library PropsParser PropsLegs PropsComplete.
Import List ListNotations.
Local Open Scope list_scope.
Local Open Scope nat_scope.

(** C85. With two libraries, and two recursion limits, the same field gives the same return value, errors and derived flight
    rules, and the same records up to bearings, distances and the coordinates of points given by bearing and distance.  Records without coordinates
    are the same altogether. *)
Theorem C85_library : forall (G H : geodesic) (d d' : nat) (field : pstr) (b b' : bool) (s z : st),
  parse_field15 G d field = Ok b s -> parse_field15 H d' field = Ok b' z ->
  b = b' /\ e_errs (s_ers s) = e_errs (s_ers z) /\ e_rules (s_ers s) = e_rules (s_ers z) /\
  Forall2 same_but_geodesy (e_recs (s_ers s)) (e_recs (s_ers z)) /\ Forall2 untouched (e_recs (s_ers s)) (e_recs (s_ers z)).
Proof. exact library. Qed.
Print Assumptions C85_library.

(** Whether parsing raises does not depend on it either. *)
Theorem C85_library_raises : forall (G H : geodesic) (d : nat) (field : pstr), 3 * n_tokens field <= d + 1 ->
  match parse_field15 G d field, parse_field15 H d field with Ok _ _, Ok _ _ => True | Exn x _, Exn y _ => x = y | _, _ => False end.
Proof. exact library_raises. Qed.
Print Assumptions C85_library_raises.

(** The field of C67, with errors, legs and points at bearing and distance: the coordinates of the latter differ. *)
Definition other_library : geodesic := mkGeo (fun a b c d => (fsub a c, fsub b d)) (fun a b c d => (fadd c a, fadd d b)).
Example C85_example : 3 * n_tokens wide <= 100 + 1 /\
  match parse_field15 second 100 wide, parse_field15 other_library 90 wide with
  | Ok b s, Ok b' z => b = false /\ b' = false /\ map r_lat (e_recs (s_ers s)) <> map r_lat (e_recs (s_ers z)) /\
      map r_dist (e_recs (s_ers s)) <> map r_dist (e_recs (s_ers z)) /\ map r_name (e_recs (s_ers s)) = map r_name (e_recs (s_ers z))
  | _, _ => False
  end.
Proof. split; [apply Nat.leb_le; vm_compute; reflexivity|]. vm_compute. repeat split; discriminate. Qed.
