(** * SpecText: how numbers are written in the XML output. *)
From Coq Require Import ZArith NArith List Bool String.
From Coq Require Import Floats.SpecFloat.
From Verif Require Import PyBase PyFloat Enums Ers Xml SpecNum.
Import List ListNotations.
Local Open Scope list_scope.
Local Open Scope Z_scope.

(** The decimal numeral of [n >= 0]: digits without superfluous zeros. *)
Definition numeral (n : Z) (s : pstr) : Prop :=
  all_digits s /\ s <> [] /\ decimal s = n /\ (hd_error s = Some 48%N -> s = [48%N]).
(** The text of an integer. *)
Definition integer_text (z : Z) (s : pstr) : Prop :=
  if z <? 0 then exists t, s = 45%N :: t /\ numeral (- z) t else numeral z s.
(** The integer [c] is the one nearest to num/den, the even one of two. *)
Definition rounds_even (num den c : Z) : Prop :=
  2 * Z.abs (num - c * den) <= den /\ (2 * Z.abs (num - c * den) = den -> Z.even c = true).
(** The text with two decimals of num/den, with sign [neg]. *)
Definition two_decimals (neg : bool) (num den : Z) (s : pstr) : Prop :=
  exists w f whole frac, s = (if neg then [45%N] else []) ++ whole ++ 46%N :: frac /\
    numeral w whole /\ all_digits frac /\ zlen frac = 2 /\ decimal frac = f /\ rounds_even (100 * num) den (100 * w + f).
(** The text of a double. *)
Definition float_written (f : spec_float) (s : pstr) : Prop :=
  match f with
  | S754_zero neg => two_decimals neg 0 1 s
  | S754_finite neg m e => two_decimals neg (Zpos m * 2 ^ Z.max e 0) (2 ^ Z.max (- e) 0) s
  | S754_infinity neg => s = (if neg then [45%N] else []) ++ $"inf"
  | S754_nan => s = $"nan"
  end.
(** The text of an integer with two zeros as decimals. *)
Definition si_written (x : pynum) (s : pstr) : Prop := exists t, s = t ++ $".00" /\ integer_text (num_z x) t.
(** The value of the attribute [name] of record [r]. *)
Definition att_written (v : py_version) (r : rrec) (name s : pstr) : Prop :=
  (name = $"start_index" -> integer_text (r_start r) s) /\ (name = $"end_index" -> integer_text (r_end r) s) /\
  (name = $"base_type" -> v = Py311 -> integer_text (base_code (r_base r)) s) /\
  (name = $"sub_type" -> v = Py311 -> integer_text (sub_code (r_sub r)) s) /\
  (name = $"speed" -> s = r_speed r) /\ (name = $"speed_si" -> si_written (r_speed_si r) s) /\
  (name = $"altitude" -> s = r_alt r) /\ (name = $"altitude_si" -> si_written (r_alt_si r) s) /\
  (name = $"bearing" -> float_written (r_brg r) s) /\ (name = $"distance" -> float_written (r_dist r) s) /\
  (name = $"flight_rules" -> s = r_rules r) /\ (name = $"stay_time" -> integer_text (r_stay r) s) /\
  (name = $"altitude_cruise_to" -> s = r_cto r) /\ (name = $"altitude_cruise_to_si" -> si_written (r_cto_si r) s) /\
  (name = $"latitude" -> float_written (r_lat r) s) /\ (name = $"longitude" -> float_written (r_lon r) s).
