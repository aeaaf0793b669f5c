(** * SpecNum: exact-arithmetic specification of the conversions. *)
From Coq Require Import ZArith NArith List Bool.
From Coq Require Import Floats.SpecFloat.
From Verif Require Import PyBase.
Import ListNotations.
Open Scope Z_scope.

(** [z] is the integer nearest to num/den, ties upwards: num/den - 1/2 < z <= num/den + 1/2. *)
Definition rounds_to (num den z : Z) : Prop := 2 * num - den < 2 * den * z <= 2 * num + den.
Definition nearest (num den : Z) : Z := (2 * num + den) / (2 * den).

(** Levels: hundreds of feet (F, A; 0.3048 m each foot) or tens of metres (S, M). *)
Definition is_feet (c : N) : bool := N.eqb c 70 || N.eqb c 65.
Definition is_metric (c : N) : bool := N.eqb c 83 || N.eqb c 77.
Definition level_metres (c : N) (v : Z) : Z :=
  if is_feet c then nearest (v * 100 * 3048) 10000 else if is_metric c then v * 10 else v.
(** Speeds: knots (N; 0.514444 m/s) or km/h (K; 0.2777778 m/s). *)
Definition speed_ms (c : N) (v : Z) : Z :=
  if N.eqb c 75 then nearest (v * 2777778) 10000000
  else if N.eqb c 78 then nearest (v * 514444) 1000000 else v.

(** Digit strings. *)
Definition all_digits (s : pstr) : Prop := forall c, In c s -> (48 <= c <= 57)%N.
Definition decimal (s : pstr) : Z := fold_left (fun a c => 10 * a + (Z.of_N c - 48)) s 0.

(** 2^3000 times the exact value of a non-negative float (an integer for every binary64). *)
Definition scaled (f : spec_float) : Z :=
  match f with S754_finite false m e => Zpos m * 2 ^ (e + 3000) | _ => 0 end.
(** A number, not negative, with the precision and the exponent of a binary64. *)
Definition finite_nonneg (f : spec_float) : Prop :=
  match f with S754_zero _ => True | S754_finite false m e => -1074 <= e /\ Zpos m < 2 ^ 53 | _ => False end.

(** [x] is a non-negative double within 2^-k of num/den; with value n. *)
Definition within (k : Z) (x : spec_float) (num den : Z) : Prop :=
  finite_nonneg x /\ Z.abs (den * scaled x - num * 2 ^ 3000) * 2 ^ k <= den * 2 ^ 3000.
Definition exactly (x : spec_float) (n : Z) : Prop := finite_nonneg x /\ scaled x = n * 2 ^ 3000.
(** The double for [neg] (south, west) or not. *)
Definition signed (neg : bool) (x : spec_float) : spec_float := if neg then SFopp x else x.
