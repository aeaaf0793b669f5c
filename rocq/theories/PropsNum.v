(** * PropsNum: C30, C32, C36, C37. *)
From Coq Require Import ZArith NArith List Bool String.
From Coq Require Import Floats.SpecFloat.
From Verif Require Import PyBase PyFloat Enums Tokenizer Ers Utils Parser SpecNum ParserPrims NumFacts.
Import List ListNotations.
Local Open Scope list_scope.
Local Open Scope Z_scope.

(** C30: a level [c ds] is stored with the nearest metre (feet levels) or exactly (metric levels). *)
Theorem C30_level_conversion : forall (t : token) (s : st) (i : nat) (c : N) (ds : pstr) (cruise : bool) (r : rrec),
  last_is r s -> last_elem s = Ok (Some i) s ->
  In c [70; 65; 83; 77]%N -> all_digits ds -> zlen ds = (if is_feet c then 3 else 4) ->
  exists s' r' z, assign_altitude t i (c :: ds) cruise s = Ok tt s' /\ last_is r' s' /\
    (if cruise then r_cto r' = c :: ds /\ r_cto_si r' = PyInt z else r_alt r' = c :: ds /\ r_alt_si r' = PyInt z) /\
    (if is_feet c then rounds_to (decimal ds * 100 * 3048) 10000 z else z = decimal ds * 10).
Proof. exact level_stored. Qed.
Print Assumptions C30_level_conversion.

Theorem C30_speed_conversion : forall (s : st) (i : nat) (c : N) (ds : pstr) (r : rrec),
  last_is r s -> last_elem s = Ok (Some i) s -> 0 <= num_z (r_alt_si r) ->
  In c [75; 78]%N -> all_digits ds -> zlen ds = 4 ->
  exists s' r' z, assign_speed i (c :: ds) s = Ok tt s' /\ last_is r' s' /\
    r_speed r' = c :: ds /\ r_speed_si r' = PyInt z /\
    (if N.eqb c 75 then rounds_to (decimal ds * 2777778) 10000000 z else rounds_to (decimal ds * 514444) 1000000 z).
Proof. exact speed_stored. Qed.
Print Assumptions C30_speed_conversion.

(** The stored value is determined by the exact one, and conversion is monotone. *)
Theorem C30_conversion_monotone : forall f den v v' z z' : Z, 0 <= f -> 0 < den -> v <= v' ->
  rounds_to (v * f) den z -> rounds_to (v' * f) den z' -> z <= z'.
Proof. exact rounds_mono. Qed.
Print Assumptions C30_conversion_monotone.

(** Non-vacuity: F350 is 10668 m, N0450 is 231 m/s on the first record of a fresh sequence. *)
Definition fresh_state : st := mkSt (mkTokens [] 0) new_ers 0.
Example C30_example : last_is (dummy ($"ADEP")) fresh_state /\ last_elem fresh_state = Ok (Some 0%nat) fresh_state /\
  rounds_to (decimal ($"350") * 100 * 3048) 10000 10668 /\ rounds_to (decimal ($"0450") * 514444) 1000000 231.
Proof.
  split; [exists []; reflexivity|]. split; [vm_compute; reflexivity|].
  split; (split; [reflexivity|vm_compute; discriminate]).
Qed.

(** C32: speed of sound. *)
Theorem C32_speed_of_sound : forall a : Z, 0 <= a ->
  (exists f, speed_of_sound_at_altitude a = inr f /\ finite_nonneg f) /\
  (forall b f g, a <= b -> speed_of_sound_at_altitude a = inr f -> speed_of_sound_at_altitude b = inr g -> scaled g <= scaled f) /\
  (11000 < a -> speed_of_sound_at_altitude a = speed_of_sound_at_altitude 11000).
Proof. exact sos_props. Qed.
Print Assumptions C32_speed_of_sound.

(** The stored speed of a Mach number: defined, monotone in the Mach number, antitone in the altitude. *)
Theorem C32_mach_stored : forall (s : st) (i : nat) (ds : pstr) (r : rrec),
  last_is r s -> last_elem s = Ok (Some i) s -> 0 <= num_z (r_alt_si r) -> all_digits ds -> zlen ds = 3 ->
  exists s' r' f z, assign_speed i (77%N :: ds) s = Ok tt s' /\ last_is r' s' /\
    r_speed r' = 77%N :: ds /\ r_speed_si r' = PyInt z /\
    mach_to_ms_speed (decimal ds) (num_z (r_alt_si r)) = inr f /\ finite_nonneg f /\ f_trunc (fadd f (flit 1 2)) = inr z.
Proof. exact mach_stored. Qed.
Print Assumptions C32_mach_stored.

Theorem C32_mach_monotone : forall (m m' alt alt' : Z) (f f' : f64) (z z' : Z),
  0 <= m <= m' -> m' < 1000 -> 0 <= alt' <= alt ->
  mach_to_ms_speed m alt = inr f -> mach_to_ms_speed m' alt' = inr f' ->
  f_trunc (fadd f (flit 1 2)) = inr z -> f_trunc (fadd f' (flit 1 2)) = inr z' -> z <= z'.
Proof. exact mach_mono. Qed.
Print Assumptions C32_mach_monotone.

Example C32_example : exists f, mach_to_ms_speed 84 10668 = inr f /\ f_trunc (fadd f (flit 1 2)) = inr 249.
Proof. eexists. split; vm_compute; reflexivity. Qed.

(** C36: degree and minute checks on digit strings. *)
Theorem C36_degree_checks : forall (ds ms : pstr) (mx : Z), all_digits ds -> all_digits ms -> ds <> [] ->
  is_degree_semantics ds mx = inr (if decimal ds <=? mx then true else false) /\
  (zlen ms = 2 -> exists b, is_degree_minute_semantics (ds ++ ms) mx (zlen ds) = inr b /\
     (b = true <-> decimal ms < 60 /\ decimal ds * 60 + decimal ms <= mx * 60)).
Proof. exact degree_checks. Qed.
Print Assumptions C36_degree_checks.

Example C36_example : is_degree_minute_semantics ($"9001") 90 2 = inr false /\ is_degree_minute_semantics ($"9000") 90 2 = inr true
  /\ all_digits ($"90") /\ all_digits ($"01").
Proof.
  split; [vm_compute; reflexivity|]. split; [vm_compute; reflexivity|].
  split; intros c [<-|[<-|[]]]; vm_compute; split; discriminate.
Qed.

(** C37: whole degrees are stored exactly, degrees and minutes to 2^-43 degrees; S and W flip the sign. *)
Theorem C37_degrees : forall (G : geodesic) (t : token) (s : st) (r : rrec),
  last_is r s -> classify (t_text t) = (t_base t, t_sub t) -> t_sub t = F15_SB_LL_DEG ->
  exists la h lo e s' r' x y,
    t_text t = la ++ [h] ++ lo ++ [e] /\ all_digits la /\ all_digits lo /\ zlen la = 2 /\ zlen lo = 3 /\
    In h [78; 83]%N /\ In e [69; 87]%N /\
    assign_lat_long_bearing_distance G t s = Ok tt s' /\ last_is r' s' /\
    r_lat r' = signed (N.eqb h 83) x /\ exactly x (decimal la) /\
    r_lon r' = signed (N.eqb e 87) y /\ exactly y (decimal lo) /\ r_llv r' = true.
Proof. exact coords_deg_stored. Qed.
Print Assumptions C37_degrees.

Theorem C37_degrees_minutes : forall (G : geodesic) (t : token) (s : st) (r : rrec),
  last_is r s -> classify (t_text t) = (t_base t, t_sub t) -> t_sub t = F15_SB_LL_MIN ->
  exists la lm h lo lom e s' r' x y,
    t_text t = la ++ lm ++ [h] ++ lo ++ lom ++ [e] /\ all_digits (la ++ lm) /\ all_digits (lo ++ lom) /\
    zlen la = 2 /\ zlen lm = 2 /\ zlen lo = 3 /\ zlen lom = 2 /\ In h [78; 83]%N /\ In e [69; 87]%N /\
    assign_lat_long_bearing_distance G t s = Ok tt s' /\ last_is r' s' /\
    r_lat r' = signed (N.eqb h 83) x /\ within 43 x (60 * decimal la + decimal lm) 60 /\
    r_lon r' = signed (N.eqb e 87) y /\ within 43 y (60 * decimal lo + decimal lom) 60 /\ r_llv r' = true.
Proof. exact coords_min_stored. Qed.
Print Assumptions C37_degrees_minutes.

Example C37_example : classify ($"5130S00015W") = (F15_POINT, F15_SB_LL_MIN) /\ last_is (dummy ($"ADEP")) fresh_state /\
  within 43 (fadd (f_of_Z 51) (fdiv (f_of_Z 30) (flit 60 1))) (60 * 51 + 30) 60.
Proof. split; [vm_compute; reflexivity|]. split; [exists []; reflexivity|split; [vm_compute; split; [discriminate|reflexivity]|apply Z.leb_le; vm_compute; reflexivity]]. Qed.
