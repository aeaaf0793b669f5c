(** * NumTables: digit strings, unit conversions, speed of sound. *)
From Coq Require Import ZArith NArith List Bool String Lia.
From Coq Require Import Floats.SpecFloat.
From Coq Require Import ZifyBool ZifyNat ZifyN.
From Verif Require Import PyBase PyFloat Utils SpecNum FloatProofs FloatRN.
Import List ListNotations.
Local Open Scope list_scope.
Local Open Scope Z_scope.
Ltac Zify.zify_post_hook ::= Z.div_mod_to_equations.

Lemma nearest_spec num den : 0 < den -> rounds_to num den (nearest num den).
Proof.
  intro H. unfold rounds_to, nearest. pose proof (Z.div_mod (2 * num + den) (2 * den) ltac:(lia)) as D.
  pose proof (Z.mod_pos_bound (2 * num + den) (2 * den) ltac:(lia)) as B. set (q := _ / _) in *. set (r := _ mod _) in *. nia.
Qed.
Lemma rounds_to_unique num den z z' : 0 < den -> rounds_to num den z -> rounds_to num den z' -> z = z'.
Proof. unfold rounds_to. intros. nia. Qed.
Lemma nearest_mono a b den : 0 < den -> a <= b -> nearest a den <= nearest b den.
Proof. intros. unfold nearest. apply Z.div_le_mono; lia. Qed.

(** ** Digit strings *)
Lemma all_digits_forallb s : all_digits s <-> forallb is_digit s = true.
Proof.
  unfold all_digits. rewrite forallb_forall. unfold is_digit. split; intros H c Hc; specialize (H c Hc); lia.
Qed.
Lemma decimal_digits_val s : digits_val s = decimal s.
Proof. reflexivity. Qed.

Lemma strip_l_digit c s : is_digit c = true -> strip_l (c :: s) = c :: s.
Proof. intro H. cbn [strip_l]. replace (is_py_space c) with false; [reflexivity|]. unfold is_digit, is_py_space in *. lia. Qed.
Lemma py_strip_digits s : forallb is_digit s = true -> py_strip s = s.
Proof.
  intro H. unfold py_strip. destruct s as [|c s]; [reflexivity|]. rewrite strip_l_digit by (simpl in H; apply andb_true_iff in H; tauto).
  assert (R : forallb is_digit (rev (c :: s)) = true).
  { rewrite forallb_forall in *. intros x Hx. apply H. now apply in_rev. }
  destruct (rev (c :: s)) as [|d r] eqn:E.
  - apply (f_equal (@rev N)) in E. rewrite rev_involutive in E. discriminate.
  - rewrite strip_l_digit by (simpl in R; apply andb_true_iff in R; tauto). rewrite <- E. apply rev_involutive.
Qed.
Lemma int_tail_digits s : forall acc, forallb is_digit s = true ->
  int_tail acc s = Some (fold_left (fun a c => 10 * a + digit_val c) s acc).
Proof.
  induction s as [|c s IH]; intros acc H; [reflexivity|]. simpl in H. apply andb_true_iff in H as [H1 H2].
  cbn [int_tail fold_left]. rewrite H1. now apply IH.
Qed.
Lemma py_int_digits s : s <> [] -> forallb is_digit s = true -> py_int s = Some (decimal s).
Proof.
  intros Hne H. unfold py_int. rewrite py_strip_digits by assumption. destruct s as [|c s]; [congruence|].
  assert (Hc : is_digit c = true) by (simpl in H; apply andb_true_iff in H; tauto).
  assert (Hs : forallb is_digit s = true) by (simpl in H; apply andb_true_iff in H; tauto).
  assert (E : int_unsigned (c :: s) = Some (decimal (c :: s))).
  { cbn [int_unsigned]. rewrite Hc, int_tail_digits by assumption. unfold decimal. cbn [fold_left]. reflexivity. }
  destruct c as [|pc]; [exact E|]. unfold is_digit in Hc.
  do 6 (destruct pc as [pc|pc|]; try exact E; try (cbn in Hc; discriminate)).
Qed.
Lemma py_float_digits s : s <> [] -> forallb is_digit s = true -> py_float s = Some (f_of_Z (decimal s)).
Proof. intros Hne H. unfold py_float. destruct s; [congruence|]. now rewrite H. Qed.
Lemma fold_digits_bound s : forall a, 0 <= a -> forallb is_digit s = true ->
  0 <= fold_left (fun a c => 10 * a + digit_val c) s a < (a + 1) * 10 ^ zlen s.
Proof.
  induction s as [|c s IH]; intros a Ha H; cbn [fold_left].
  - unfold zlen. cbn [List.length Z.of_nat]. change (10 ^ 0) with 1. lia.
  - simpl in H. apply andb_true_iff in H as [H1 H2]. unfold is_digit, digit_val in *.
    specialize (IH (10 * a + (Z.of_N c - 48)) ltac:(lia) H2).
    replace (zlen (c :: s)) with (Z.succ (zlen s)) by (unfold zlen; cbn [List.length]; lia).
    rewrite Z.pow_succ_r by (unfold zlen; lia). pose proof (Z.pow_pos_nonneg 10 (zlen s) ltac:(lia) ltac:(unfold zlen; lia)). nia.
Qed.
Lemma decimal_bound s : forallb is_digit s = true -> 0 <= decimal s < 10 ^ zlen s.
Proof. intro H. pose proof (fold_digits_bound s 0 ltac:(lia) H). unfold decimal. fold digit_val. unfold digit_val in *. lia. Qed.

(** ** Finite ranges *)
Definition zrange (n : Z) : list Z := map Z.of_nat (seq 0 (Z.to_nat n)).
Lemma zrange_in n z : 0 <= z < n -> In z (zrange n).
Proof. intro H. apply in_map_iff. exists (Z.to_nat z). split; [lia|]. apply in_seq. lia. Qed.
Lemma zrange_forall (f : Z -> bool) n z : forallb f (zrange n) = true -> 0 <= z < n -> f z = true.
Proof. intros H Hz. rewrite forallb_forall in H. apply H. now apply zrange_in. Qed.

Definition half : f64 := flit 1 2.
Definition inr_is (r : exn + Z) (z : Z) : bool := match r with inr y => y =? z | inl _ => false end.
Lemma inr_is_spec r z : inr_is r z = true -> r = inr z.
Proof. destruct r; simpl; [discriminate|]. intro H. f_equal. lia. Qed.


(** ** Conversions: the rounding errors are far smaller than the distance to a tie *)
Lemma fv_half : fv half = 2 ^ 2999.
Proof. vm_compute. reflexivity. Qed.
Lemma half_nonneg : nonneg 20 half.
Proof. apply nonnegb_spec. vm_compute. reflexivity. Qed.
Definition UU : Z := 2 ^ (-33 + KS).
Lemma UU_pos : 0 < UU.
Proof. unfold UU. apply pow_pos2. unfold KS. lia. Qed.
Lemma KS_UU : 2 ^ KS = 2 ^ 33 * UU.
Proof. unfold UU. rewrite <- Z.pow_add_r by (unfold KS; lia). f_equal; lia. Qed.
Lemma half_UU : 2 ^ 2999 = 2 ^ 32 * UU.
Proof. unfold UU. rewrite <- Z.pow_add_r by (unfold KS; lia). reflexivity. Qed.
Lemma nonneg_lt B f : nonneg B f -> 0 <= B + KS -> 0 <= fv f < 2 ^ (B + KS).
Proof.
  intros H HB. pose proof (bnd_sv B f (nonneg_bnd B f H) HB) as X. rewrite (nonneg_sv _ _ H) in X. pose proof (fv_nonneg f). lia.
Qed.
Lemma trunc_half x : nonneg 20 x ->
  exists r, f_trunc (fadd x half) = inr (r / 2 ^ KS) /\ Z.abs (r - (fv x + 2 ^ 2999)) <= UU.
Proof.
  intro H. pose proof half_nonneg as Hh. destruct (fadd_sv 20 x half (nonneg_bnd _ _ H) (nonneg_bnd _ _ Hh) ltac:(lia)) as [A1 A2].
  rewrite (nonneg_sv _ _ H), (nonneg_sv _ _ Hh), fv_half in A2. exists (sv (fadd x half)).
  pose proof (nonneg_lt 20 x H ltac:(unfold KS; lia)) as X. pose proof UU_pos as U0. pose proof half_UU as HU.
  assert (E20 : 2 ^ (20 + KS) = 2 ^ 53 * UU) by (unfold UU; rewrite <- Z.pow_add_r by (unfold KS; lia); f_equal; lia).
  assert (E21 : 2 ^ (21 + KS) = 2 ^ 54 * UU) by (unfold UU; rewrite <- Z.pow_add_r by (unfold KS; lia); f_equal; lia).
  assert (E : 2 * Z.abs (RN (fv x + 2 ^ 2999) - (fv x + 2 ^ 2999)) <= 2 ^ (21 - 53 + KS)).
  { apply RN_err; [|lia]. rewrite E21, HU. change (2 ^ 53) with 9007199254740992 in *. change (2 ^ 54) with 18014398509481984. change (2 ^ 32) with 4294967296. lia. }
  assert (E3 : 2 ^ (21 - 53 + KS) = 2 * UU) by (unfold UU; replace (21 - 53 + KS) with (Z.succ (-33 + KS)) by lia; apply Z.pow_succ_r; unfold KS; lia).
  rewrite E3 in E. split; [|rewrite A2; lia].
  assert (Pos : 0 < sv (fadd x half)).
  { rewrite A2. rewrite HU in *. change (2 ^ 32) with 4294967296 in *. lia. }
  pose proof (bnd_nonneg _ _ A1 Pos) as N. rewrite (nonneg_sv _ _ N). now apply (trunc_spec 22).
Qed.
Lemma div_in r z T : 0 < T -> z * T <= r < (z + 1) * T -> r / T = z.
Proof. intros HT H. symmetry. apply Z.div_unique with (r - z * T); lia. Qed.
Lemma f_of_Z_20 v : 0 <= v < 2 ^ 17 -> nonneg 17 (f_of_Z v) /\ fv (f_of_Z v) = v * 2 ^ KS.
Proof.
  intro H. destruct (f_of_Z_sv v) as [N E]; [change (2 ^ 53) with 9007199254740992; change (2 ^ 17) with 131072 in H; lia|].
  split; [|exact E]. destruct (f_of_Z v) as [| | |[] m e]; try contradiction; [exact I|]. cbn [nonneg fv] in *.
  destruct N as (N1 & N2 & N3). repeat split; try lia. apply log2_lt; [lia|unfold KS, emin64 in *; lia|unfold KS; lia|]. rewrite E.
  rewrite Z.pow_add_r by (unfold KS; lia). apply Z.mul_lt_mono_pos_r; [apply pow_pos2; unfold KS; lia|lia].
Qed.
Lemma int_conv v : 0 <= v < 2 ^ 17 -> f_trunc (fadd (f_of_Z v) half) = inr v.
Proof.
  intro H. destruct (f_of_Z_20 v H) as [N E]. destruct (trunc_half (f_of_Z v)) as (r & -> & R); [eapply nonneg_le; [exact N|lia]|].
  f_equal. rewrite E, KS_UU, half_UU in *. pose proof UU_pos. change (2 ^ 33) with 8589934592 in *. change (2 ^ 32) with 4294967296 in *.
  apply div_in; lia.
Qed.
Lemma conv_arith den w p rp r T U : 0 < den <= 10000000 -> 0 < U -> T = 8589934592 * U ->
  Z.abs (den * p - w * T) <= den * U -> 2 * Z.abs (rp - p) <= U -> Z.abs (r - (rp + 4294967296 * U)) <= U ->
  (2 * w + den) mod (2 * den) <> 0 -> r / T = (2 * w + den) / (2 * den).
Proof.
  intros Hd HU TU DP RE R Htie. pose proof (Z.div_mod (2 * w + den) (2 * den) ltac:(lia)) as D.
  pose proof (Z.mod_pos_bound (2 * w + den) (2 * den) ltac:(lia)) as DB.
  set (z := (2 * w + den) / (2 * den)) in *. set (rem := (2 * w + den) mod (2 * den)) in *. clearbody z rem.
  assert (Rm : 1 <= rem <= 2 * den - 1) by lia. clear DB Htie.
  assert (DU0 : 0 < den * U) by (apply Z.mul_pos_pos; lia).
  assert (DT : den * T = 8589934592 * (den * U)) by (rewrite TU; ring).
  assert (Q : Z.abs (2 * den * r - (2 * w + den) * T) <= 5 * (den * U)).
  { replace (2 * den * r - (2 * w + den) * T) with (den * (2 * (r - (p + 4294967296 * U))) + 2 * (den * p - w * T)) by (rewrite TU; ring).
    assert (Z.abs (2 * (r - (p + 4294967296 * U))) <= 3 * U) by lia.
    assert (Z.abs (den * (2 * (r - (p + 4294967296 * U)))) <= den * (3 * U)).
    { rewrite Z.abs_mul, (Z.abs_eq den) by lia. apply Z.mul_le_mono_nonneg_l; lia. }
    lia. }
  apply div_in; [lia|].
  assert (S1 : 5 * (den * U) < T) by (assert (den * U <= 10000000 * U) by (apply Z.mul_le_mono_nonneg_r; lia); lia).
  assert (ET : (2 * w + den) * T = 2 * (den * (z * T)) + rem * T) by (rewrite D; ring).
  assert (R1 : 1 * T <= rem * T) by (apply Z.mul_le_mono_nonneg_r; lia).
  assert (R2 : rem * T <= (2 * den - 1) * T) by (apply Z.mul_le_mono_nonneg_r; lia).
  split.
  - apply (Z.mul_le_mono_pos_l _ _ den); [lia|]. lia.
  - apply (Z.mul_lt_mono_pos_l den); [lia|]. replace (den * ((z + 1) * T)) with (den * (z * T) + den * T) by ring. lia.
Qed.
Lemma mul_conv c num den v : nonneg 1 c -> 0 <= v < 2 ^ 17 -> 0 < den <= 10000000 -> 0 <= num ->
  Z.abs (den * fv c - num * 2 ^ KS) * 2 ^ 53 <= den * 2 ^ KS -> (2 * (v * num) + den) mod (2 * den) <> 0 ->
  f_trunc (fadd (fmul (f_of_Z v) c) half) = inr (nearest (v * num) den).
Proof.
  intros Hc Hv Hd Hn Hcc Htie. destruct (f_of_Z_20 v Hv) as [N E].
  destruct (fmul_sv 17 1 _ c N Hc ltac:(lia)) as (M & p & P1 & P2).
  destruct (trunc_half _ M) as (r & -> & R). f_equal. pose proof UU_pos as U0. pose proof KS_UU as TU.
  assert (T0 : 0 < 2 ^ KS) by (apply pow_pos2; unfold KS; lia).
  assert (Ep : p = v * fv c).
  { rewrite E in P1. apply (Z.mul_cancel_r _ _ (2 ^ KS)); [lia|]. rewrite P1. generalize (2 ^ KS). intro. ring. }
  pose proof (nonneg_lt 1 c Hc ltac:(unfold KS; lia)) as Cb.
  assert (E1 : 2 ^ (1 + KS) = 2 * 2 ^ KS) by (rewrite Z.pow_add_r by (unfold KS; lia); reflexivity).
  assert (E20 : 2 ^ (20 + KS) = 2 ^ 20 * 2 ^ KS) by (apply Z.pow_add_r; unfold KS; lia).
  pose proof (RN_err p 20) as RE. change (20 - 53 + KS) with (-33 + KS) in RE. fold UU in RE. rewrite E20 in RE.
  rewrite half_UU, P2 in R. rewrite E1 in Cb.
  change (2 ^ 32) with 4294967296 in R. change (2 ^ 33) with 8589934592 in TU. change (2 ^ 17) with 131072 in Hv. change (2 ^ 20) with 1048576 in RE.
  change (2 ^ 53) with (1048576 * 8589934592) in Hcc.
  generalize dependent (2 ^ KS). generalize dependent UU. generalize dependent (fv c). generalize dependent (RN p).
  intros rp P2 C Ep U R U0 T. intros. unfold nearest. clear N M P1 E E1 E20 P2 Hc. subst p.
  assert (A0 : 0 <= Z.abs (den * C - num * T)) by apply Z.abs_nonneg.
  apply (conv_arith den (v * num) (v * C) rp r T U Hd U0 TU); [|apply RE; [|lia]|exact R|exact Htie].
  - replace (den * (v * C) - v * num * T) with (v * (den * C - num * T)) by ring.
    rewrite Z.abs_mul, (Z.abs_eq v) by lia. set (A := Z.abs (den * C - num * T)) in *. clearbody A.
    replace (den * T) with (8589934592 * (den * U)) in Hcc by (rewrite TU; ring).
    assert (v * A <= 131072 * A) by (apply Z.mul_le_mono_nonneg_r; lia). lia.
  - split; [apply Z.mul_nonneg_nonneg; lia|]. apply Z.le_lt_trans with (131072 * C); [apply Z.mul_le_mono_nonneg_r; lia|lia].
Qed.

Lemma feet_conv v : 0 <= v < 1000 ->
  f_trunc (fadd (fmul (f_of_Z (v * 100)) FEET_TO_METERS) half) = inr (nearest (v * 100 * 3048) 10000).
Proof.
  intro H. apply mul_conv; [apply nonnegb_spec; vm_compute; reflexivity|change (2 ^ 17) with 131072; lia|lia|lia|apply Z.leb_le; vm_compute; reflexivity|].
  intro C. apply Z.mod_divide in C; [|lia]. destruct C as [k C]. lia.
Qed.
Lemma metric_conv v : 0 <= v < 10000 -> f_trunc (fadd (f_of_Z (v * 10)) half) = inr (v * 10).
Proof. intro H. apply int_conv. change (2 ^ 17) with 131072. lia. Qed.
Lemma plain_conv v : 0 <= v < 10000 -> f_trunc (fadd (f_of_Z v) half) = inr v.
Proof. intro H. apply int_conv. change (2 ^ 17) with 131072. lia. Qed.
Lemma knots_conv v : 0 <= v < 10000 ->
  f_trunc (fadd (fmul (f_of_Z v) KNOTS_TO_METERS_SECOND) half) = inr (nearest (v * 514444) 1000000).
Proof.
  intro H. apply mul_conv; [apply nonnegb_spec; vm_compute; reflexivity|change (2 ^ 17) with 131072; lia|lia|lia|apply Z.leb_le; vm_compute; reflexivity|].
  intro C. apply Z.mod_divide in C; [|lia]. destruct C as [k C].
  assert (D : (125000 | 128611 * v)) by (exists (2 * k - 1); lia).
  apply Z.gauss in D; [|reflexivity]. destruct D as [j D]. lia.
Qed.
Lemma kmh_conv v : 0 <= v < 10000 ->
  f_trunc (fadd (fmul (f_of_Z v) KMH_TO_METERS_SECOND) half) = inr (nearest (v * 2777778) 10000000).
Proof.
  intro H. apply mul_conv; [apply nonnegb_spec; vm_compute; reflexivity|change (2 ^ 17) with 131072; lia|lia|lia|apply Z.leb_le; vm_compute; reflexivity|].
  intro C. apply Z.mod_divide in C; [|lia]. destruct C as [k C].
  assert (D : (2500000 | 1388889 * v)) by (exists (2 * k - 1); lia).
  apply Z.gauss in D; [|reflexivity]. destruct D as [j D]. lia.
Qed.

(** ** Speed of sound *)
Definition sos (a : Z) : f64 := match speed_of_sound_at_altitude a with inr f => f | inl _ => S754_nan end.
Lemma sos_above a : 11000 < a -> speed_of_sound_at_altitude a = speed_of_sound_at_altitude 11000.
Proof.
  intro H. unfold speed_of_sound_at_altitude, CONSTANT_TEMP_ALTITUDE. 
  replace (11000 <? a) with true by lia. reflexivity.
Qed.
(** The steps of the formula below the tropopause. *)
Definition lapse : f64 := flit 645 100000.
Definition drop (a : Z) : f64 := fmul (f_of_Z a) lapse.
Definition kelvin (a : Z) : f64 := fadd (fadd ISA_TEMP (SFopp (drop a))) (flit 27315 100).
Definition ratio (a : Z) : f64 := fdiv (kelvin a) (flit 27315 100).
Lemma sos_unfold a : a <= 11000 ->
  speed_of_sound_at_altitude a = match py_sqrt (ratio a) with inl e => inl e | inr r => inr (fmul (flit 33115 100) r) end.
Proof.
  intro H. unfold speed_of_sound_at_altitude, CONSTANT_TEMP_ALTITUDE. replace (11000 <? a) with false by lia.
  cbv zeta. unfold TEMP_LAPSE_RATE_METER. rewrite fmul_opp, fsub_fadd. unfold KELVIN_ZERO.
  assert (E1 : SFopp (SFopp (flit 27315 100)) = flit 27315 100) by (vm_compute; reflexivity).
  assert (E2 : fabs (SFopp (flit 27315 100)) = flit 27315 100) by (vm_compute; reflexivity).
  rewrite E1, E2. reflexivity.
Qed.
Lemma lapse_ok : nonneg 1 lapse. Proof. apply nonnegb_spec. vm_compute. reflexivity. Qed.
Lemma drop_ok a : 0 <= a <= 11000 -> nonneg 20 (drop a).
Proof.
  intro H. destruct (f_of_Z_20 a) as [N _]; [change (2 ^ 17) with 131072; lia|].
  exact (proj1 (fmul_sv 17 1 _ _ N lapse_ok ltac:(lia))).
Qed.
Lemma drop_mono a b : 0 <= a <= b -> b <= 11000 -> fv (drop a) <= fv (drop b).
Proof.
  intros H Hb. destruct (f_of_Z_20 a) as [N E]; [change (2 ^ 17) with 131072; lia|].
  destruct (f_of_Z_20 b) as [N' E']; [change (2 ^ 17) with 131072; lia|].
  apply (fmul_mono 17 1 _ _ _ N N' lapse_ok); [lia|]. rewrite E, E'. apply Z.mul_le_mono_nonneg_r; [apply Z.pow_nonneg; lia|lia].
Qed.
Lemma isa_ok : bnd 20 ISA_TEMP. Proof. apply nonneg_bnd, nonnegb_spec. vm_compute. reflexivity. Qed.
Lemma k0_ok : nonneg 22 (flit 27315 100). Proof. apply nonnegb_spec. vm_compute. reflexivity. Qed.
Lemma kelvin_sv a : 0 <= a <= 11000 -> bnd 24 (kelvin a) /\ sv (kelvin a) = RN (RN (sv ISA_TEMP - fv (drop a)) + fv (flit 27315 100)).
Proof.
  intro H. pose proof (drop_ok a H) as D.
  destruct (fadd_sv 20 ISA_TEMP (SFopp (drop a)) isa_ok (bnd_opp _ _ (nonneg_bnd _ _ D)) ltac:(lia)) as [A1 A2].
  destruct (fadd_sv 22 _ (flit 27315 100) A1 (nonneg_bnd _ _ k0_ok) ltac:(lia)) as [A3 A4].
  split; [exact A3|]. unfold kelvin. rewrite A4, A2, sv_opp, (nonneg_sv _ _ D), (nonneg_sv _ _ k0_ok). do 3 f_equal.
Qed.
Lemma kelvin_anti a b : 0 <= a <= b -> b <= 11000 -> sv (kelvin b) <= sv (kelvin a).
Proof.
  intros H Hb. destruct (kelvin_sv a ltac:(lia)) as [_ ->]. destruct (kelvin_sv b ltac:(lia)) as [_ ->].
  pose proof (drop_mono a b H Hb). apply RN_mono. apply Z.add_le_mono_r. apply RN_mono. lia.
Qed.
Lemma kelvin_low : 2 ^ (0 + KS) <= sv (kelvin 11000).
Proof. apply Z.leb_le. vm_compute. reflexivity. Qed.
Lemma kelvin_ok a : 0 <= a <= 11000 -> nonneg 24 (kelvin a) /\ 2 ^ (0 + KS) <= fv (kelvin a).
Proof.
  intro H. pose proof (kelvin_anti a 11000 ltac:(lia) ltac:(lia)) as K. pose proof kelvin_low as L. destruct (kelvin_sv a H) as [B _].
  assert (0 < 2 ^ (0 + KS)) by (apply pow_pos2; unfold KS; lia).
  assert (N : nonneg 24 (kelvin a)) by (apply bnd_nonneg; [exact B|lia]). split; [exact N|]. rewrite <- (nonneg_sv _ _ N). lia.
Qed.
Lemma k0_low : 2 ^ (0 + KS) <= fv (flit 27315 100). Proof. apply Z.leb_le. vm_compute. reflexivity. Qed.
Lemma low_500 v : 2 ^ (0 + KS) <= v -> v = 0 \/ 2 ^ (-500 + KS) <= v.
Proof. intro H. right. eapply Z.le_trans; [|exact H]. apply Z.pow_le_mono_r; lia. Qed.
Lemma ratio_anti a b : 0 <= a <= b -> b <= 11000 -> fv (ratio b) <= fv (ratio a).
Proof.
  intros H Hb. destruct (kelvin_ok a ltac:(lia)) as [N1 L1]. destruct (kelvin_ok b ltac:(lia)) as [N2 L2].
  apply (fdiv_mono 24 22 0 _ _ _ N2 N1 k0_ok k0_low (low_500 _ L2) (low_500 _ L1)); try lia.
  rewrite <- (nonneg_sv _ _ N1), <- (nonneg_sv _ _ N2). exact (kelvin_anti a b H Hb).
Qed.
Lemma ratio_low : 2 ^ (-1 + KS) <= fv (ratio 11000). Proof. apply Z.leb_le. vm_compute. reflexivity. Qed.
Lemma ratio_ok a : 0 <= a <= 11000 -> nonneg 26 (ratio a) /\ 2 ^ (-500 + KS) <= fv (ratio a).
Proof.
  intro H. destruct (kelvin_ok a H) as [N1 L1].
  split; [exact (proj1 (fdiv_sv 24 22 0 _ _ N1 k0_ok k0_low (low_500 _ L1) ltac:(lia) ltac:(lia) ltac:(lia)))|].
  pose proof (ratio_anti a 11000 ltac:(lia) ltac:(lia)). pose proof ratio_low.
  apply Z.le_trans with (2 ^ (-1 + KS)); [apply Z.pow_le_mono_r; lia|lia].
Qed.
Lemma sos_low_eq a : 0 <= a <= 11000 -> speed_of_sound_at_altitude a = inr (fmul (flit 33115 100) (fsqrt (ratio a))).
Proof.
  intro H. rewrite sos_unfold by lia. destruct (ratio_ok a H) as [N L].
  assert (0 < 2 ^ (-500 + KS)) by (apply pow_pos2; unfold KS; lia).
  destruct (ratio a) as [s| | |[] m e]; try contradiction; reflexivity.
Qed.
Lemma k331_ok : nonneg 9 (flit 33115 100). Proof. apply nonnegb_spec. vm_compute. reflexivity. Qed.
Lemma sos_low_ok a : 0 <= a <= 11000 -> nonneg 38 (sos a).
Proof.
  intro H. unfold sos. rewrite sos_low_eq by exact H. destruct (ratio_ok a H) as [N L].
  destruct (fsqrt_sv 26 _ N L ltac:(lia)) as [M _].
  exact (proj1 (fmul_sv 9 27 _ _ k331_ok M ltac:(lia))).
Qed.
Lemma sos_low_anti a b : 0 <= a <= b -> b <= 11000 -> fv (sos b) <= fv (sos a).
Proof.
  intros H Hb. unfold sos. rewrite !sos_low_eq by lia. destruct (ratio_ok a ltac:(lia)) as [N L]. destruct (ratio_ok b ltac:(lia)) as [N' L'].
  destruct (fsqrt_sv 26 _ N L ltac:(lia)) as [M _]. destruct (fsqrt_sv 26 _ N' L' ltac:(lia)) as [M' _].
  apply (fmul_mono_r 9 27 _ _ _ k331_ok M' M); [lia|]. apply (fsqrt_mono 26 _ _ N' N L'); [lia|]. exact (ratio_anti a b H Hb).
Qed.
