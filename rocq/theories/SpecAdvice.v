(** * SpecAdvice: what the messages about the first error ask for. *)
From Coq Require Import ZArith NArith List Bool String.
From Verif Require Import PyBase Enums Tokenizer Parser SpecTokenizer SpecNum SpecParser SpecGrammar SpecDiagnosis SpecViable.
Import List ListNotations.
Local Open Scope list_scope.
Local Open Scope Z_scope.

(** An element with a given text. *)
Definition element (w : pstr) : token := mkToken w 0 0 (fst (classify w)) (snd (classify w)).
Definition of_type (b : base_type) (w : pstr) : Prop := t_base (element w) = b.
(** A point given by its name. *)
Definition named (w : pstr) : Prop := of_type F15_POINT w /\ computed_point (t_sub (element w)) = false.
(** The values of the element are right: coordinates, flight levels, cruise climb. *)
Definition sound (t : token) : Prop := angle_fault t = None /\ unconvertible t = false /\ level_fault t = false.
Definition a_speed (w : pstr) : Prop := of_type F15_SPEED_ALTITUDE w /\ sound (element w).
Definition a_climb (w : pstr) : Prop := (of_type F15_SPEED_ALTITUDE_ALTITUDE w \/ of_type F15_SPEED_ALTITUDE_PLUS w) /\ sound (element w).
(** What may stand after any point; after the first speed/level; after a stay. *)
Definition after_point (b : base_type) : bool :=
  match b with F15_SLASH | F15_BREAK_START | F15_DCT | F15_STAY | F15_C | F15_POINT | F15_SID_STAR | F15_STAR | F15_TRUNCATE => true | _ => false end.
Definition after_first (b : base_type) : bool :=
  match b with F15_DCT | F15_POINT | F15_SID | F15_SID_STAR | F15_STAR | F15_TRUNCATE => true | _ => false end.
Definition after_stay (b : base_type) : bool :=
  match b with F15_BREAK_START | F15_DCT | F15_C | F15_POINT | F15_ROUTE | F15_SID_STAR | F15_STAR | F15_TRUNCATE => true | _ => false end.

(** Message [m] for the element [t], which has number [i] from 0 and follows [before], is about something
    missing before [t]: the elements [ws].  ErrorMessageDefinitions.py:4-61. *)
Inductive advises (i : nat) (before : option token) (t : token) : Z -> list pstr -> Prop :=
| Add_speed m w : m = 1 -> a_speed w -> after_first (t_base t) = true -> advises i before t m [w]
| Add_point m w : In m [12; 14; 15; 24; 53; 54] -> named w -> advises i before t m [w]
| Add_sid m w : m = 24 -> of_type F15_SID w -> advises i before t m [w]
| Add_end m w : m = 21 -> named w -> t_base t = F15_ROUTE \/ after_point (t_base t) = true -> advises i before t m [w]
| Add_slash m : m = 5 -> advises i before t m [$"/"]
| Add_slash_time m : m = 36 -> t_base t = F15_STAY_TIME -> advises i before t m [$"/"]
| Add_slash_climb m : m = 26 -> t_base t = F15_SPEED_ALTITUDE_ALTITUDE \/ t_base t = F15_SPEED_ALTITUDE_PLUS -> advises i before t m [$"/"]
| Add_time m w : m = 38 -> of_type F15_STAY_TIME w -> after_stay (t_base t) = true -> advises i before t m [w]
| Add_change m w : m = 50 -> a_speed w -> after_point (t_base t) = true -> advises i before t m [w]
| Add_climb_levels m w : m = 29 -> a_climb w -> after_point (t_base t) = true -> advises i before t m [w]
| Add_climb m w : m = 9 -> i <> 1%nat -> named w -> advises i before t m [$"C"; $"/"; w; $"/"]
| Add_stay m w : m = 10 -> i <> 1%nat -> (forall q, before = Some q -> t_base q <> F15_ROUTE) -> of_type F15_STAY w -> advises i before t m [w; $"/"].

(** Message [m] about the end of the field asks for the elements [ws]. *)
Inductive supplies : Z -> list pstr -> Prop :=
| End_route m w : m = 49 -> named w -> supplies m [w]
| End_change m w : m = 20 -> (a_speed w \/ of_type F15_SPEED_VFR w) -> supplies m [w]
| End_climb m p w : m = 52 -> named p -> a_climb w -> supplies m [p; $"/"; w]
| End_climb_levels m w : m = 27 -> a_climb w -> supplies m [$"/"; w]
| End_levels m w : m = 28 -> a_climb w -> supplies m [w]
| End_stay m w : m = 35 -> of_type F15_STAY_TIME w -> supplies m [$"/"; w]
| End_time m w : m = 37 -> of_type F15_STAY_TIME w -> supplies m [w].
