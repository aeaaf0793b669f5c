(** * NumFacts: statements about stored numbers, proved from the tables and equations. *)
From Coq Require Import ZArith NArith List Bool String Lia.
From Coq Require Import Floats.SpecFloat.
From Coq Require Import ZifyBool ZifyNat ZifyN.
From Verif Require Import PyBase PyFloat Enums ErrorTable SyntaxTable Syntax Tokenizer Ers Utils Parser.
From Verif Require Import TokenizerProofs SpecNum FloatProofs NumTables NumProofs GeoTables ParserPrims PerfEq PointEq.
Import List ListNotations.
Local Open Scope list_scope.
Local Open Scope Z_scope.

(** A state holding [r] as its last record. *)
Definition last_is (r : rrec) (s : st) : Prop := exists l, e_recs (s_ers s) = l ++ [r].
Lemma last_is_stt r s : last_is r s -> exists l, s = stt (tk_list (s_toks s)) (tk_cur (s_toks s)) l r (e_errs (s_ers s)) (e_rules (s_ers s)) (s_calls s).
Proof. intros [l E]. exists l. destruct s as [[L c] [re er ru] k]. cbn in *. now subst. Qed.
Lemma last_is_stt' L c l r e ru k : last_is r (stt L c l r e ru k).
Proof. now exists l. Qed.
Lemma last_elem_idx r s i : last_is r s -> last_elem s = Ok (Some i) s -> exists l, s = stt (tk_list (s_toks s)) (tk_cur (s_toks s)) l r (e_errs (s_ers s)) (e_rules (s_ers s)) (s_calls s) /\ i = length l.
Proof.
  intros H E. destruct (last_is_stt r s H) as [l Es]. exists l. split; [exact Es|]. rewrite Es in E. rewrite last_elem_eq in E. congruence.
Qed.

Lemma level_stored : forall t s i c ds (cruise : bool) r,
  last_is r s -> last_elem s = Ok (Some i) s ->
  In c [70; 65; 83; 77]%N -> all_digits ds -> zlen ds = (if is_feet c then 3 else 4) ->
  exists s' r' z, assign_altitude t i (c :: ds) cruise s = Ok tt s' /\ last_is r' s' /\
    (if cruise then r_cto r' = c :: ds /\ r_cto_si r' = PyInt z else r_alt r' = c :: ds /\ r_alt_si r' = PyInt z) /\
    (if is_feet c then rounds_to (decimal ds * 100 * 3048) 10000 z else z = decimal ds * 10).
Proof.
  intros t s i c ds cr r Hr Hi Hc Hd Hl. destruct (last_elem_idx _ _ _ Hr Hi) as (l & Es & ->).
  apply all_digits_forallb in Hd.
  assert (LS : lvl_str (c :: ds)).
  { exists c, ds. split; [reflexivity|]. split; [intros ->; cbn in Hl; destruct (is_feet c); discriminate|]. split; [exact Hd|]. unfold zlen in *; lia. }
  rewrite Es. do 2 eexists. exists (lvl_si (c :: ds)). split; [apply assign_altitude_eq, LS|]. split; [apply last_is_stt'|].
  split; [destruct cr; split; reflexivity|]. cbn [lvl_si]. unfold level_metres, is_metric.
  destruct (is_feet c) eqn:Ef; [apply nearest_spec; lia|].
  destruct Hc as [<-|[<-|[<-|[<-|[]]]]]; try discriminate; reflexivity.
Qed.
Lemma speed_stored : forall s i c ds r,
  last_is r s -> last_elem s = Ok (Some i) s -> 0 <= num_z (r_alt_si r) ->
  In c [75; 78]%N -> all_digits ds -> zlen ds = 4 ->
  exists s' r' z, assign_speed i (c :: ds) s = Ok tt s' /\ last_is r' s' /\
    r_speed r' = c :: ds /\ r_speed_si r' = PyInt z /\
    (if N.eqb c 75 then rounds_to (decimal ds * 2777778) 10000000 z else rounds_to (decimal ds * 514444) 1000000 z).
Proof.
  intros s i c ds r Hr Hi Ha Hc Hd Hl. destruct (last_elem_idx _ _ _ Hr Hi) as (l & Es & ->).
  apply all_digits_forallb in Hd.
  assert (LS : spd_str (c :: ds)).
  { exists c, ds. split; [reflexivity|]. split; [intros ->; discriminate|]. split; [exact Hd|].
    destruct Hc as [<-|[<-|[]]]; cbn [N.eqb Pos.eqb]; unfold zlen in *; lia. }
  rewrite Es. do 2 eexists. exists (spd_si (c :: ds) (num_z (r_alt_si r))). split; [apply assign_speed_eq; [exact LS|exact Ha]|].
  split; [apply last_is_stt'|]. split; [reflexivity|]. split; [reflexivity|]. cbn [spd_si]. unfold speed_ms.
  destruct Hc as [<-|[<-|[]]]; cbn [N.eqb Pos.eqb]; apply nearest_spec; lia.
Qed.
Lemma rounds_mono : forall f den v v' z z', 0 <= f -> 0 < den -> v <= v' -> rounds_to (v * f) den z -> rounds_to (v' * f) den z' -> z <= z'.
Proof. unfold rounds_to. intros. nia. Qed.
Lemma mach_stored : forall s i ds r,
  last_is r s -> last_elem s = Ok (Some i) s -> 0 <= num_z (r_alt_si r) -> all_digits ds -> zlen ds = 3 ->
  exists s' r' f z, assign_speed i (77%N :: ds) s = Ok tt s' /\ last_is r' s' /\
    r_speed r' = 77%N :: ds /\ r_speed_si r' = PyInt z /\
    mach_to_ms_speed (decimal ds) (num_z (r_alt_si r)) = inr f /\ finite_nonneg f /\ f_trunc (fadd f (flit 1 2)) = inr z.
Proof.
  intros s i ds r Hr Hi Ha Hd Hl. destruct (last_elem_idx _ _ _ Hr Hi) as (l & Es & ->).
  apply all_digits_forallb in Hd.
  assert (LS : spd_str (77%N :: ds)).
  { exists 77%N, ds. split; [reflexivity|]. split; [intros ->; discriminate|]. split; [exact Hd|]. cbn [N.eqb Pos.eqb]. unfold zlen in *; lia. }
  assert (B : 0 <= decimal ds < 1000) by (apply (pow10_le ds 3); [unfold zlen in *; lia|exact Hd]).
  destruct (mach_conv (decimal ds) (num_z (r_alt_si r)) B Ha) as (f & E1 & E2).
  rewrite Es. do 2 eexists. exists f, (mach_ms (decimal ds) (num_z (r_alt_si r))). split; [apply assign_speed_eq; [exact LS|exact Ha]|].
  split; [apply last_is_stt'|]. split; [reflexivity|]. split; [reflexivity|]. split; [exact E1|]. split; [|exact E2].
  pose proof (mach_prod (decimal ds) (num_z (r_alt_si r)) B Ha) as P. rewrite mach_eq in E1 by exact Ha. injection E1 as <-.
  exact (proj1 (nonneg_finite _ _ P)).
Qed.

Lemma fv_scaled f : fv f = scaled f.
Proof. reflexivity. Qed.
Lemma sos_props : forall a, 0 <= a ->
  (exists f, speed_of_sound_at_altitude a = inr f /\ finite_nonneg f) /\
  (forall b f g, a <= b -> speed_of_sound_at_altitude a = inr f -> speed_of_sound_at_altitude b = inr g -> scaled g <= scaled f) /\
  (11000 < a -> speed_of_sound_at_altitude a = speed_of_sound_at_altitude 11000).
Proof.
  intros a Ha. destruct (sos_eq a Ha) as [E N]. split; [|split].
  - exists (sos a). split; [exact E|]. exact (proj1 (nonneg_finite _ _ N)).
  - intros b f g Hab Hf Hg. assert (Hb : 0 <= b) by lia. destruct (sos_eq b Hb) as [E' _].
    assert (f = sos a) as -> by congruence. assert (g = sos b) as -> by congruence.
    rewrite <- !fv_scaled. apply sos_antitone. lia.
  - apply sos_above.
Qed.
Lemma mach_mono : forall m m' alt alt' f f' z z', 0 <= m <= m' -> m' < 1000 -> 0 <= alt' <= alt ->
  mach_to_ms_speed m alt = inr f -> mach_to_ms_speed m' alt' = inr f' ->
  f_trunc (fadd f (flit 1 2)) = inr z -> f_trunc (fadd f' (flit 1 2)) = inr z' -> z <= z'.
Proof.
  intros m m' alt alt' f f' z z' H1 H2 H3 F F' Z Z'.
  destruct (mach_conv m alt) as (g & G1 & G2); [lia|lia|]. destruct (mach_conv m' alt') as (g' & G1' & G2'); [lia|lia|].
  change (flit 1 2) with half in *.
  assert (f = g) as -> by congruence. assert (f' = g') as -> by congruence.
  assert (z = mach_ms m alt) as -> by congruence. assert (z' = mach_ms m' alt') as -> by congruence. apply mach_ms_mono; lia.
Qed.

(** ** Degrees *)
Lemma degree_checks : forall ds ms mx, all_digits ds -> all_digits ms -> ds <> [] ->
  is_degree_semantics ds mx = inr (if decimal ds <=? mx then true else false) /\
  (zlen ms = 2 -> exists b, is_degree_minute_semantics (ds ++ ms) mx (zlen ds) = inr b /\
     (b = true <-> decimal ms < 60 /\ decimal ds * 60 + decimal ms <= mx * 60)).
Proof.
  intros ds ms mx Hd Hm Hn. apply all_digits_forallb in Hd, Hm. split.
  - rewrite degree_eq by assumption. now destruct (_ <=? _).
  - intro H2. eexists. split.
    + apply degree_min_eq; [exact Hn|intros ->; discriminate|rewrite forallb_app; now rewrite Hd, Hm|exact H2].
    + unfold dm_ok. pose proof (decimal_bound ms Hm) as B. rewrite H2 in B. change (10 ^ 2) with 100 in B. lia.
Qed.

(** ** Coordinates *)
Lemma dnum_bound ds n : zlen ds <= n -> forallb is_digit ds = true -> 0 <= decimal ds < 10 ^ n.
Proof. intros. now apply pow10_le. Qed.
Lemma hemi_signed B neg x : nonneg B x -> 0 <= B <= 800 -> exists y, hemi neg x = signed neg y /\ finite_nonneg y /\ scaled y = fv x.
Proof.
  intros N HB. destruct neg; cbn [hemi signed].
  - destruct (times_minus_one B x N HB) as (y & E & M & V). exists y. destruct (nonneg_finite _ _ M) as [F S]. repeat split; [exact E|exact F|congruence].
  - exists x. destruct (nonneg_finite _ _ N) as [F S]. repeat split; assumption.
Qed.
Lemma hemi_deg neg ds : zlen ds <= 3 -> forallb is_digit ds = true ->
  exists x, hemi neg (dnum ds) = signed neg x /\ exactly x (decimal ds).
Proof.
  intros Hl Hd. destruct (f_of_Z_10 (decimal ds) (pow10_le ds 3 Hl Hd)) as [N E].
  destruct (hemi_signed 17 neg (dnum ds) N ltac:(lia)) as (y & E1 & F & S). exists y. split; [exact E1|]. split; [exact F|].
  rewrite S. exact E.
Qed.
Lemma hemi_min neg ds ms : zlen ds <= 3 -> zlen ms <= 2 -> forallb is_digit ds = true -> forallb is_digit ms = true ->
  exists x, hemi neg (deg_min ds ms) = signed neg x /\ within 43 x (60 * decimal ds + decimal ms) 60.
Proof.
  intros Hl Hl' Hd Hm. destruct (dm_spec (decimal ds) (decimal ms) (pow10_le ds 3 Hl Hd) (pow10_le ms 2 Hl' Hm)) as [N W].
  destruct (hemi_signed 19 neg (deg_min ds ms) N ltac:(lia)) as (y & E1 & F & S). exists y. split; [exact E1|]. split; [exact F|].
  rewrite S. exact W.
Qed.

Section G.
Variable G : geodesic.
(** Text of a latitude/longitude in degrees; in degrees and minutes. *)
Definition ll_deg_chars (la : pstr) (h : N) (lo : pstr) (e : N) : pstr := la ++ [h] ++ lo ++ [e].

Lemma coords_deg_stored : forall t s r, last_is r s -> wt t -> t_sub t = F15_SB_LL_DEG ->
  exists la h lo e s' r' x y,
    t_text t = la ++ [h] ++ lo ++ [e] /\ all_digits la /\ all_digits lo /\ zlen la = 2 /\ zlen lo = 3 /\
    In h [78; 83]%N /\ In e [69; 87]%N /\
    assign_lat_long_bearing_distance G t s = Ok tt s' /\ last_is r' s' /\
    r_lat r' = signed (N.eqb h 83) x /\ exactly x (decimal la) /\
    r_lon r' = signed (N.eqb e 87) y /\ exactly y (decimal lo) /\ r_llv r' = true.
Proof.
  intros t s r Hr Hw Hs. destruct (last_is_stt r s Hr) as [l Es]. rewrite Es. clear Es Hr.
  generalize (tk_list (s_toks s)) (tk_cur (s_toks s)) (e_errs (s_ers s)) (e_rules (s_ers s)) (s_calls s). clear s. intros L cu es ru k.
  destruct (ll_deg_text t Hw Hs) as (d1 & d2 & h & g1 & g2 & g3 & e & E & D & Hh & He).
  cbn [forallb] in D. repeat (apply andb_true_iff in D; let X := fresh "X" in destruct D as [X D]).
  destruct (hemi_deg (N.eqb h 83) [d1; d2]) as (x & Ex & Wx); [unfold zlen; cbn; lia|cbn [forallb]; now rewrite X, X0|].
  destruct (hemi_deg (N.eqb e 87) [g1; g2; g3]) as (y & Ey & Wy); [unfold zlen; cbn; lia|cbn [forallb]; now rewrite X1, X2, X3|].
  exists [d1; d2], h, [g1; g2; g3], e. do 2 eexists. exists x, y.
  assert (P : pt_rec G t r = set_coords (hemi (N.eqb h 83) (dnum [d1; d2]), hemi (N.eqb e 87) (dnum [g1; g2; g3])) r).
  { unfold pt_rec. rewrite Hs, E. reflexivity. }
  split; [exact E|]. split; [apply all_digits_forallb; cbn [forallb]; now rewrite X, X0|].
  split; [apply all_digits_forallb; cbn [forallb]; now rewrite X1, X2, X3|].
  split; [reflexivity|]. split; [reflexivity|]. split; [destruct Hh as [-> | ->]; cbn; tauto|]. split; [destruct He as [-> | ->]; cbn; tauto|].
  split; [now apply assign_ll_eq|]. split; [apply last_is_stt'|]. rewrite P. unfold set_coords. cbn [fst snd r_lat r_lon r_llv set_r_lat set_r_lon set_r_llv].
  repeat (split; [assumption|]); reflexivity.
Qed.
Lemma coords_min_stored : forall t s r, last_is r s -> wt t -> t_sub t = F15_SB_LL_MIN ->
  exists la lm h lo lom e s' r' x y,
    t_text t = la ++ lm ++ [h] ++ lo ++ lom ++ [e] /\ all_digits (la ++ lm) /\ all_digits (lo ++ lom) /\
    zlen la = 2 /\ zlen lm = 2 /\ zlen lo = 3 /\ zlen lom = 2 /\ In h [78; 83]%N /\ In e [69; 87]%N /\
    assign_lat_long_bearing_distance G t s = Ok tt s' /\ last_is r' s' /\
    r_lat r' = signed (N.eqb h 83) x /\ within 43 x (60 * decimal la + decimal lm) 60 /\
    r_lon r' = signed (N.eqb e 87) y /\ within 43 y (60 * decimal lo + decimal lom) 60 /\ r_llv r' = true.
Proof.
  intros t s r Hr Hw Hs. destruct (last_is_stt r s Hr) as [l Es]. rewrite Es. clear Es Hr.
  generalize (tk_list (s_toks s)) (tk_cur (s_toks s)) (e_errs (s_ers s)) (e_rules (s_ers s)) (s_calls s). clear s. intros L cu es ru k.
  destruct (ll_min_text t Hw Hs) as (d1 & d2 & m1 & m2 & h & g1 & g2 & g3 & n1 & n2 & e & E & D & Hh & He).
  cbn [forallb] in D. repeat (apply andb_true_iff in D; let X := fresh "X" in destruct D as [X D]).
  destruct (hemi_min (N.eqb h 83) [d1; d2] [m1; m2]) as (x & Ex & Wx); [unfold zlen; cbn; lia|unfold zlen; cbn; lia|cbn [forallb]; now rewrite X, X0|cbn [forallb]; now rewrite X1, X2|].
  destruct (hemi_min (N.eqb e 87) [g1; g2; g3] [n1; n2]) as (y & Ey & Wy); [unfold zlen; cbn; lia|unfold zlen; cbn; lia|cbn [forallb]; now rewrite X3, X4, X5|cbn [forallb]; now rewrite X6, X7|].
  exists [d1; d2], [m1; m2], h, [g1; g2; g3], [n1; n2], e. do 2 eexists. exists x, y.
  assert (P : pt_rec G t r = set_coords (hemi (N.eqb h 83) (deg_min [d1; d2] [m1; m2]), hemi (N.eqb e 87) (deg_min [g1; g2; g3] [n1; n2])) r).
  { unfold pt_rec. rewrite Hs, E. reflexivity. }
  split; [exact E|]. split; [apply all_digits_forallb; cbn [app forallb]; now rewrite X, X0, X1, X2|].
  split; [apply all_digits_forallb; cbn [app forallb]; now rewrite X3, X4, X5, X6, X7|].
  split; [reflexivity|]. split; [reflexivity|]. split; [reflexivity|]. split; [reflexivity|].
  split; [destruct Hh as [-> | ->]; cbn; tauto|]. split; [destruct He as [-> | ->]; cbn; tauto|].
  split; [now apply assign_ll_eq|]. split; [apply last_is_stt'|]. rewrite P. unfold set_coords. cbn [fst snd r_lat r_lon r_llv set_r_lat set_r_lon set_r_llv].
  repeat (split; [assumption|]); reflexivity.
Qed.
End G.
