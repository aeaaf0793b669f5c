(** * SpecViable: what the first error says about other fields that begin alike. *)
From Coq Require Import ZArith NArith List Bool String.
From Verif Require Import PyBase Enums Tokenizer SpecTokenizer SpecParser.
Import List ListNotations.
Local Open Scope list_scope.
Local Open Scope Z_scope.

(** The texts of the elements of a field. *)
Definition element_texts (field : pstr) : list pstr := texts f15_whitespace field.
(** Messages about something missing at the end of the field. *)
Definition end_message (m : Z) : bool := existsb (Z.eqb m) [20; 27; 28; 35; 37; 49; 52].
(** Messages about a latitude, longitude or bearing. *)
Definition angle_message (m : Z) : bool := existsb (Z.eqb m) [42; 43; 44; 45; 46].
(** Message [m] for the element after [prev] does not depend on what follows that element.
    Message 22 is about the elements after the reported point, and the coordinates of a point after IFR
    are not looked at when a speed/VFR follows. *)
Definition settled (prev : option token) (m : Z) : bool :=
  negb (end_message m) && negb (m =? 22) &&
  negb (angle_message m && match prev with Some q => sub_eqb (t_sub q) F15_SB_IFR | None => false end).
(** The last element of a list. *)
Definition last_of {A} (l : list A) : option A := hd_error (rev l).
