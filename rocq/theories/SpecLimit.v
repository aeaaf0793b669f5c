(** * SpecLimit: what is left behind when the recursion limit is reached. *)
From Coq Require Import ZArith NArith List Bool String.
From Verif Require Import PyBase PyFloat Enums Tokenizer Ers.
Import List ListNotations.
Local Open Scope list_scope.

Definition starts {A} (l l' : list A) : Prop := exists m, l' = l ++ m.
Definition place (r : rrec) : pstr * Z * Z := (r_name r, r_start r, r_end r).
(** [x] has the first errors of [x'], and records with the names and places of its first records. *)
Definition left_over (x x' : ers) : Prop := starts (e_errs x) (e_errs x') /\ starts (map place (e_recs x)) (map place (e_recs x')).
