(** * SpecDescriptions: what a printed row of the configuration looks like (C69). *)
From Coq Require Import ZArith NArith List Bool String.
From Verif Require Import PyBase PyFloat Enums Xml SpecXml.
Import List ListNotations.
Local Open Scope list_scope.
Local Open Scope nat_scope.

(** A cell of [w] characters that has the text at its right end and blanks before it. *)
Definition right_aligned (w : nat) (cell text : pstr) : Prop := exists k, cell = repeat 32%N k ++ text /\ length cell = w.
(** The line of a row: pattern, base type with its number, sub type with its number. *)
Definition described (v : py_version) (row : string * base_type * sub_type) (line : pstr) : Prop :=
  let '(p, b, s) := row in exists c1 c2 c3 c4 c5,
    line = c1 ++ $" " ++ c2 ++ c3 ++ $" " ++ c4 ++ c5 /\ ~ In 10%N line /\
    right_aligned 40 c1 (of_str p) /\ right_aligned 40 c2 (base_text v b) /\ right_aligned 4 c3 (str_of_Z (base_code b)) /\
    right_aligned 40 c4 (sub_text v s) /\ right_aligned 4 c5 (str_of_Z (sub_code s)).

(** Rows of the one base type whose qualified name has 41 characters. *)
Definition long_base (row : string * base_type * sub_type) : bool := match snd (fst row) with F15_SPEED_ALTITUDE_ALTITUDE => true | _ => false end.
