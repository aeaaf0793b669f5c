(** * SoundFacts: what is stored for a Mach number. *)
From Coq Require Import ZArith NArith List Bool String Lia.
From Coq Require Import Floats.SpecFloat.
From Coq Require Import ZifyBool ZifyNat ZifyN.
From Verif Require Import PyBase PyFloat Enums Tokenizer Ers Utils Parser SpecNum SpecSound ParserPrims FloatProofs FloatRN NumTables NumProofs GeoTables NumFacts SoundProofs.
Import List ListNotations.
Local Open Scope list_scope.
Local Open Scope Z_scope.

Lemma sound_value : forall a, 0 <= a -> exists f, speed_of_sound_at_altitude a = inr f /\ squares_to 47 f (sound2_num a) sound2_den.
Proof.
  intros a H. exists (sos a). destruct (sos_eq a H) as [E N]. split; [exact E|]. split.
  - exact (proj1 (nonneg_finite _ _ N)).
  - rewrite <- fv_scaled. pose proof (sos_rel a H) as R. unfold TT in R. replace (2 ^ 6000) with (2 ^ KS * 2 ^ KS) by (rewrite <- Z.pow_add_r by (unfold KS; lia); reflexivity).
    exact R.
Qed.
Lemma stored_is : forall s i ds r,
  last_is r s -> last_elem s = Ok (Some i) s -> 0 <= num_z (r_alt_si r) -> all_digits ds -> zlen ds = 3 ->
  exists s' r' z, assign_speed i (77%N :: ds) s = Ok tt s' /\ last_is r' s' /\ r_speed r' = 77%N :: ds /\ r_speed_si r' = PyInt z /\
    0 <= decimal ds < 1000 /\ z = mach_ms (decimal ds) (num_z (r_alt_si r)).
Proof.
  intros s i ds r H1 H2 H3 H4 H5. destruct (mach_stored s i ds r H1 H2 H3 H4 H5) as (s' & r' & f & z & A1 & A2 & A3 & A4 & A5 & A6 & A7).
  exists s', r', z. repeat (split; [assumption|]).
  assert (B : 0 <= decimal ds < 1000) by (apply (pow10_le ds 3); [unfold zlen in *; lia|now apply all_digits_forallb]).
  split; [exact B|]. destruct (mach_conv (decimal ds) (num_z (r_alt_si r)) B H3) as (g & G1 & G2).
  assert (f = g) as -> by congruence. change (flit 1 2) with half in A7. congruence.
Qed.
Lemma mach_value : forall s i ds r,
  last_is r s -> last_elem s = Ok (Some i) s -> 0 < num_z (r_alt_si r) -> all_digits ds -> zlen ds = 3 ->
  exists s' r' z, assign_speed i (77%N :: ds) s = Ok tt s' /\ last_is r' s' /\ r_speed r' = 77%N :: ds /\ r_speed_si r' = PyInt z /\
    nearest_root 36 z (decimal ds * decimal ds * sound2_num (num_z (r_alt_si r))) (100 * 100 * sound2_den).
Proof.
  intros s i ds r H1 H2 H3 H4 H5. destruct (stored_is s i ds r H1 H2 ltac:(lia) H4 H5) as (s' & r' & z & A1 & A2 & A3 & A4 & A5 & ->).
  exists s', r'. eexists. repeat (split; [eassumption|]). now apply mach_nearest.
Qed.
Lemma mach_sea : forall s i ds r,
  last_is r s -> last_elem s = Ok (Some i) s -> num_z (r_alt_si r) = 0 -> all_digits ds -> zlen ds = 3 ->
  exists s' r' z, assign_speed i (77%N :: ds) s = Ok tt s' /\ last_is r' s' /\ r_speed r' = 77%N :: ds /\ r_speed_si r' = PyInt z /\
    rounds_to (343 * decimal ds) 100 z.
Proof.
  intros s i ds r H1 H2 H3 H4 H5. destruct (stored_is s i ds r H1 H2 ltac:(lia) H4 H5) as (s' & r' & z & A1 & A2 & A3 & A4 & A5 & ->).
  exists s', r'. eexists. repeat (split; [eassumption|]). rewrite H3. now apply mach_sea_level.
Qed.
Lemma value_example : nearest_root 36 249 (84 * 84 * sound2_num 10668) (100 * 100 * sound2_den) /\
  ~ nearest_root 36 248 (84 * 84 * sound2_num 10668) (100 * 100 * sound2_den) /\
  ~ nearest_root 36 250 (84 * 84 * sound2_num 10668) (100 * 100 * sound2_den).
Proof.
  repeat split; try (apply Z.leb_le; vm_compute; reflexivity).
  - intros (_ & _ & H). apply Z.leb_le in H. vm_compute in H. discriminate.
  - intros (_ & H & _). apply Z.leb_le in H. vm_compute in H. discriminate.
Qed.
