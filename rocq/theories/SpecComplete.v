(** * SpecComplete: every attribute of every record, from what the reading machine of SpecReader says.

    The record an item stands for has the speed and the level in SI units, and the coordinates its text stands
    for; the bearing and the distance come from the records after it.  The numbers are doubles. *)
From Coq Require Import ZArith NArith List Bool String.
From Coq Require Import Floats.SpecFloat.
From Verif Require Import PyBase PyFloat Enums ErrorTable Tokenizer Ers Utils SpecNum SpecParser SpecGrammar SpecReader.
Import List ListNotations.
Local Open Scope list_scope.
Local Open Scope Z_scope.

(** ** Level and speed *)
Definition level_of (s : pstr) : Z := match s with c :: ds => level_metres c (decimal ds) | [] => 0 end.
(** A Mach number in hundredths, at a level in metres; the double is that of Utils.py, rounded half up. *)
Definition mach_of (m level : Z) : Z :=
  match mach_to_ms_speed m level with
  | inr f => match f_trunc (fadd f (flit 1 2)) with inr v => v | inl _ => 0 end
  | inl _ => 0
  end.
Definition speed_of (s : pstr) (level : Z) : Z :=
  match s with c :: ds => if N.eqb c 77 then mach_of (decimal ds) level else speed_ms c (decimal ds) | [] => 0 end.
(** Without a speed and a level the values are 0.0. *)
Definition value_or_zero (s : pstr) (v : Z) : pynum := match s with [] => PyZeroFloat | _ => PyInt v end.

(** ** Coordinates *)
Definition whole (s : pstr) : f64 := f_of_Z (decimal s).
Definition and_minutes (d m : pstr) : f64 := fadd (whole d) (fdiv (whole m) (f_of_Z 60)).
Definition times_minus_one (b : bool) (x : f64) : f64 := if b then fmul x (f_of_Z (-1)) else x.
Definition letter_at (s : pstr) (i : nat) (c : N) : bool := match nth_error s i with Some x => N.eqb x c | None => false end.
(** ddNdddE and ddmmNdddmmE. *)
Definition in_degrees (s : pstr) : f64 * f64 :=
  (times_minus_one (letter_at s 2 83) (whole (sub_str s 0 2)), times_minus_one (letter_at s 6 87) (whole (sub_str s 3 3))).
Definition in_minutes (s : pstr) : f64 * f64 :=
  (times_minus_one (letter_at s 4 83) (and_minutes (sub_str s 0 2) (sub_str s 2 2)),
   times_minus_one (letter_at s 10 87) (and_minutes (sub_str s 5 3) (sub_str s 8 2))).
(** The point at bearing and distance, the six digits from [i] on. *)
Definition at_bearing (G : geodesic) (s : pstr) (i : nat) (p : f64 * f64) : f64 * f64 :=
  geo_direct G (fst p) (snd p) (whole (sub_str s i 3)) (fmul (whole (sub_str s (i + 3) 3)) (f_of_Z 1852)).
(** The four forms have different lengths. *)
Definition coordinates (G : geodesic) (s : pstr) : f64 * f64 :=
  match List.length s with
  | 7%nat => in_degrees s
  | 11%nat => in_minutes s
  | 13%nat => at_bearing G s 7 (in_degrees s)
  | 17%nat => at_bearing G s 11 (in_minutes s)
  | _ => (f_of_Z 0, f_of_Z 0)
  end.

(** ** Records *)
(** The record without bearing and distance. *)
Definition record_of (G : geodesic) (i : item) : rrec :=
  let c := if i_located i then coordinates G (i_name i) else (f_of_Z 0, f_of_Z 0) in
  mkR (i_name i) (i_start i) (i_end i) (i_base i) (i_sub i)
      (i_level i) (value_or_zero (i_level i) (level_of (i_level i)))
      (i_speed i) (value_or_zero (i_speed i) (speed_of (i_speed i) (level_of (i_level i))))
      (i_text i) (i_rules i) [] (i_stay i) (i_target i) (i_target_si i)
      (fst c) (snd c) (f_of_Z 0) (f_of_Z 0) (i_located i).
(** The next record with coordinates, if it is one of the two records after this one. *)
Definition next_located (rest : list rrec) : option rrec :=
  match rest with
  | p :: m => if r_llv p then Some p else match m with q :: _ => if r_llv q then Some q else None | [] => None end
  | [] => None
  end.
Definition with_leg (G : geodesic) (r : rrec) (rest : list rrec) : rrec :=
  match (if r_llv r then next_located rest else None) with
  | Some p => let x := geo_inverse G (r_lat r) (r_lon r) (r_lat p) (r_lon p) in set_r_dist (snd x) (set_r_brg (fst x) r)
  | None => r
  end.
Fixpoint with_legs (G : geodesic) (l : list rrec) : list rrec :=
  match l with [] => [] | r :: rest => with_leg G r rest :: with_legs G rest end.
Definition route_of (G : geodesic) (l : list item) : list rrec := with_legs G (map (record_of G) l).
(** ** Errors *)
Definition error_of (q : token * Z) : rrec :=
  let t := fst q in
  mkR (t_text t) (t_start t) (t_end t) (t_base t) (t_sub t) [] PyZeroFloat [] PyZeroFloat [] []
      (match error_message (snd q) with Some m => fill (t_text t) m | None => [] end)
      0 [] PyZeroFloat (f_of_Z 0) (f_of_Z 0) (f_of_Z 0) (f_of_Z 0) false.
Definition ers_of (G : geodesic) (l : list item) (e : list (token * Z)) : ers := mkErs (route_of G l) (map error_of e) (letter l).
