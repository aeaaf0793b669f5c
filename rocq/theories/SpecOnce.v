(** * SpecOnce: the errors that one element can have.

    Nothing here refers to the parser.  The numbers are those of the error table. *)
From Coq Require Import ZArith NArith List Bool.
From Verif Require Import PyBase Enums Tokenizer SpecParser SpecGrammar SpecDiagnosis SpecReader.
Import List ListNotations.
Local Open Scope list_scope.
Local Open Scope Z_scope.

(** The numbers in the reports about the element at the place of [t], in order. *)
Definition about (t : token) (e : list (token * Z)) : list Z := map snd (filter (fun q => t_start (fst q) =? t_start t) e).

(** The element cannot be where it is; it cannot be the end of the field. *)
Definition places : list Z := [1; 3; 4; 5; 6; 7; 8; 9; 10; 11; 12; 13; 14; 15; 16; 19; 21; 23; 24; 26; 29; 30; 31; 32; 36; 38; 39; 47; 48; 50; 53; 54; 55].
Definition ends : list Z := [20; 25; 35; 37; 52].
(** It is what follows a STAR, or an end of a section that is none. *)
Definition before : list (list Z) := [[]; [34]; [22]].

Inductive once (t : token) : list Z -> Prop :=
| once_none a : In a before -> once t a
| once_place a m : In a before -> In m places -> once t (a ++ [m])
| once_angles a : In a before -> once t (a ++ angle_faults t)
| once_levels a : In a before -> once t (a ++ level_faults t)
| once_end a m : In a before -> In m ends -> once t (a ++ [m])
| once_climb m : In m [27; 28] -> once t (angle_faults t ++ [m])
| once_route : once t (48 :: angle_faults t)
| once_alone : once t (level_faults t ++ [49]).
