(** * PropsSound: C32, the values of the speed of sound and of stored Mach numbers. *)
From Coq Require Import ZArith NArith List Bool String.
From Coq Require Import Floats.SpecFloat.
From Verif Require Import PyBase PyFloat Enums Tokenizer Ers Utils Parser SpecNum SpecSound ParserPrims NumFacts SoundFacts.
Import List ListNotations.
Local Open Scope list_scope.
Local Open Scope Z_scope.

(** C32: the square of the computed speed of sound is 331.15^2 * T / 273.15 to 47 bits. *)
Theorem C32_sound_value : forall a : Z, 0 <= a ->
  exists f, speed_of_sound_at_altitude a = inr f /\ squares_to 47 f (sound2_num a) sound2_den.
Proof. exact sound_value. Qed.
Print Assumptions C32_sound_value.

(** The stored speed of Mach ddd/100 at an altitude above 0 is the nearest integer to ddd/100 times the speed of
    sound there (up to a relative error of 2^-36 of the square). *)
Theorem C32_mach_value : forall (s : st) (i : nat) (ds : pstr) (r : rrec),
  last_is r s -> last_elem s = Ok (Some i) s -> 0 < num_z (r_alt_si r) -> all_digits ds -> zlen ds = 3 ->
  exists s' r' z, assign_speed i (77%N :: ds) s = Ok tt s' /\ last_is r' s' /\ r_speed r' = 77%N :: ds /\ r_speed_si r' = PyInt z /\
    nearest_root 36 z (decimal ds * decimal ds * sound2_num (num_z (r_alt_si r))) (100 * 100 * sound2_den).
Proof. exact mach_value. Qed.
Print Assumptions C32_mach_value.

(** At altitude 0 it is the nearest integer to ddd/100 times 343 m/s, ties upwards. *)
Theorem C32_mach_sea_level : forall (s : st) (i : nat) (ds : pstr) (r : rrec),
  last_is r s -> last_elem s = Ok (Some i) s -> num_z (r_alt_si r) = 0 -> all_digits ds -> zlen ds = 3 ->
  exists s' r' z, assign_speed i (77%N :: ds) s = Ok tt s' /\ last_is r' s' /\ r_speed r' = 77%N :: ds /\ r_speed_si r' = PyInt z /\
    rounds_to (343 * decimal ds) 100 z.
Proof. exact mach_sea. Qed.
Print Assumptions C32_mach_sea_level.

(** Mach 0.84 at 10668 m: 249 m/s; 248 and 250 are not nearest. *)
Example C32_value_example : nearest_root 36 249 (84 * 84 * sound2_num 10668) (100 * 100 * sound2_den) /\
  ~ nearest_root 36 248 (84 * 84 * sound2_num 10668) (100 * 100 * sound2_den) /\
  ~ nearest_root 36 250 (84 * 84 * sound2_num 10668) (100 * 100 * sound2_den).
Proof. exact value_example. Qed.
