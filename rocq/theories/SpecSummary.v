(** * SpecSummary: the words of the one-line text of a record.  Nothing here refers to the parser. *)
From Coq Require Import ZArith NArith List Bool.
From Verif Require Import PyBase.
Import List ListNotations.
Local Open Scope list_scope.

(** The words of a text: the maximal parts of it without blanks. *)
Definition is_blank (c : N) : bool := N.eqb c 32.
Definition starts_blank (s : pstr) : bool := match s with d :: _ => is_blank d | [] => false end.
Fixpoint words_of (s : pstr) : list pstr :=
  match s with
  | [] => []
  | c :: r =>
      if is_blank c then words_of r
      else match words_of r with
           | w :: ws => if starts_blank r then [c] :: w :: ws else (c :: w) :: ws
           | [] => [[c]]
           end
  end.
