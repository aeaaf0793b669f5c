(** * SpecSound: the speed of sound in exact arithmetic. *)
From Coq Require Import ZArith.
From Coq Require Import Floats.SpecFloat.
From Verif Require Import PyBase SpecNum.
Open Scope Z_scope.

(** The square of the speed of sound in m/s at [h] metres is 331.15^2 * T / 273.15 with the temperature
    T = 15 + 273.15 - 0.00645 * h kelvin, constant above 11000 m: the fraction [sound2_num h / sound2_den]. *)
Definition sound2_num (h : Z) : Z := 33115 * 33115 * (28815000 - 645 * Z.min h 11000).
Definition sound2_den : Z := 100 * 100 * 27315000.

(** The square of the double [f] is num/den up to a relative error of 2^-k. *)
Definition squares_to (k : Z) (f : spec_float) (num den : Z) : Prop :=
  finite_nonneg f /\ Z.abs (den * (scaled f * scaled f) - num * 2 ^ 6000) * 2 ^ k <= num * 2 ^ 6000.

(** The integer [z] is a nearest one to the square root of num/den, up to a relative error of 2^-k of num/den:
    (z - 1/2)^2 <= num/den <= (z + 1/2)^2. *)
Definition nearest_root (k z num den : Z) : Prop :=
  0 <= z /\
  Z.max 0 (2 * z - 1) * Z.max 0 (2 * z - 1) * den * 2 ^ k <= 4 * num * (2 ^ k + 1) /\
  4 * num * 2 ^ k <= (2 * z + 1) * (2 * z + 1) * den * (2 ^ k + 1).
