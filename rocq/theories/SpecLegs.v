(** * SpecLegs: what coordinates, bearing and distance of a record mean. *)
From Coq Require Import ZArith NArith List Bool String.
From Coq Require Import Floats.SpecFloat.
From Verif Require Import PyBase PyFloat Enums Ers Utils SpecNum.
Import List ListNotations.
Local Open Scope list_scope.
Local Open Scope Z_scope.

(** 0.0 *)
Definition zero_f : f64 := S754_zero false.

(** [s] is a latitude and longitude, in degrees or in degrees and minutes, followed by [rest],
    and [la], [lo] are its values: whole degrees exactly, minutes to 2^-43 degrees. *)
Definition lat_long (s rest : pstr) (la lo : f64) : Prop :=
  (exists d h g e x y, s = d ++ [h] ++ g ++ [e] ++ rest /\ all_digits (d ++ g) /\ zlen d = 2 /\ zlen g = 3 /\
     In h [78; 83]%N /\ In e [69; 87]%N /\
     la = signed (N.eqb h 83) x /\ exactly x (decimal d) /\ lo = signed (N.eqb e 87) y /\ exactly y (decimal g)) \/
  (exists d m h g n e x y, s = d ++ m ++ [h] ++ g ++ n ++ [e] ++ rest /\ all_digits (d ++ m ++ g ++ n) /\
     zlen d = 2 /\ zlen m = 2 /\ zlen g = 3 /\ zlen n = 2 /\ In h [78; 83]%N /\ In e [69; 87]%N /\
     la = signed (N.eqb h 83) x /\ within 43 x (60 * decimal d + decimal m) 60 /\
     lo = signed (N.eqb e 87) y /\ within 43 y (60 * decimal g + decimal n) 60).

(** [la], [lo] are the coordinates [s] stands for: a latitude and longitude, or the
    point at a bearing of three digits and a distance of three digits in nautical miles from one. *)
Definition coords_of (G : geodesic) (s : pstr) (la lo : f64) : Prop :=
  lat_long s [] la lo \/
  exists b d la0 lo0 brg dist, lat_long s (b ++ d) la0 lo0 /\ all_digits (b ++ d) /\ zlen b = 3 /\ zlen d = 3 /\
    exactly brg (decimal b) /\ exactly dist (1852 * decimal d) /\ (la, lo) = geo_direct G la0 lo0 brg dist.

(** A record without coordinates. *)
Definition no_coords (r : rrec) : Prop := r_llv r = false /\ r_lat r = zero_f /\ r_lon r = zero_f.

(** Bearing and distance of [a] are those of the geodesic to [b]; they are zero. *)
Definition joined (G : geodesic) (a b : rrec) : Prop := (r_brg a, r_dist a) = geo_inverse G (r_lat a) (r_lon a) (r_lat b) (r_lon b).
Definition no_leg (a : rrec) : Prop := r_brg a = zero_f /\ r_dist a = zero_f.
