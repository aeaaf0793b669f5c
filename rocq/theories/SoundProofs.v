(** * SoundProofs: the speed of sound as computed against exact arithmetic. *)
From Coq Require Import ZArith NArith List Bool Lia.
From Coq Require Import Floats.SpecFloat.
From Coq Require Import ZifyBool ZifyNat ZifyN.
From Verif Require Import PyBase PyFloat Utils SpecNum SpecSound FloatProofs FloatRN NumTables NumProofs.
Import List ListNotations.
Local Open Scope list_scope.
Local Open Scope Z_scope.

(** One, and the unit in which errors are counted. *)
Definition TT : Z := 2 ^ KS.
Definition U1 : Z := 2 ^ (KS - 60).
Lemma TT_U1 : TT = 2 ^ 60 * U1.
Proof. unfold TT, U1. rewrite <- Z.pow_add_r by (unfold KS; lia). f_equal. Qed.
Lemma U1_pos : 0 < U1. Proof. apply pow_pos2. unfold KS. lia. Qed.
Lemma RN_U B v : 0 <= B -> 0 <= v < 2 ^ B * TT -> 2 * Z.abs (RN v - v) <= 2 ^ (B + 7) * U1.
Proof.
  intros HB H. unfold TT, U1 in *. rewrite <- Z.pow_add_r in * by (unfold KS; lia).
  replace (B + 7 + (KS - 60)) with (B - 53 + KS) by lia. apply RN_err; [exact H|lia].
Qed.
Lemma RN_U' B v : 0 <= B -> Z.abs v < 2 ^ B * TT -> 2 * Z.abs (RN v - v) <= 2 ^ (B + 7) * U1.
Proof.
  intros HB H. destruct (Z.le_gt_cases 0 v) as [C|C]; [apply RN_U; lia|].
  pose proof (RN_U B (- v) HB ltac:(lia)) as X. rewrite RN_opp in X. lia.
Qed.

(** Products of approximations. *)
Lemma abs_mul_l c x e : 0 <= c -> Z.abs x <= e -> Z.abs (c * x) <= c * e.
Proof. intros Hc H. rewrite Z.abs_mul, (Z.abs_eq c) by lia. apply Z.mul_le_mono_nonneg_l; lia. Qed.
Lemma abs_tri x y e f : Z.abs x <= e -> Z.abs y <= f -> Z.abs (x + y) <= e + f.
Proof. lia. Qed.
Lemma cancel_T T x e : 0 < T -> Z.abs (x * T) <= e * T -> Z.abs x <= e.
Proof. intros HT H. rewrite Z.abs_mul, (Z.abs_eq T) in H by lia. apply (Z.mul_le_mono_pos_r _ _ T); lia. Qed.
Lemma qstick_err n d : 0 < d -> Z.abs (qstick n d * d - 2 * n) <= d.
Proof.
  intro Hd. unfold qstick. pose proof (Z.div_mod n d ltac:(lia)) as D. pose proof (Z.mod_pos_bound n d Hd) as M.
  set (q := n / d) in *. set (r := n mod d) in *. clearbody q r. rewrite D. destruct (r =? 0) eqn:E.
  - replace r with 0 by lia. replace ((2 * q + 0) * d - 2 * (d * q + 0)) with 0 by ring. lia.
  - replace ((2 * q + 1) * d - 2 * (d * q + r)) with (d - 2 * r) by ring. lia.
Qed.
Lemma sstick_err n : 0 <= n -> Z.abs (sstick n * sstick n - 4 * n) <= 2 * sstick n + 1.
Proof.
  intro H. unfold sstick. pose proof (Z.sqrt_spec n H) as S0. pose proof (Z.sqrt_nonneg n) as S1. cbv zeta in S0.
  set (r := Z.sqrt n) in *. clearbody r. destruct (r * r =? n) eqn:E; nia.
Qed.

(** ** The constants *)
Lemma lapse_val : Z.abs (100000 * fv lapse - 645 * TT) <= 100000 * U1.
Proof. apply Z.leb_le. vm_compute. reflexivity. Qed.
Lemma k0_val : Z.abs (100 * fv (flit 27315 100) - 27315 * TT) <= 3276800 * U1.
Proof. apply Z.leb_le. vm_compute. reflexivity. Qed.
Lemma k331_val : Z.abs (100 * fv (flit 33115 100) - 33115 * TT) <= 3276800 * U1.
Proof. apply Z.leb_le. vm_compute. reflexivity. Qed.
Lemma isa_val : sv ISA_TEMP = 15 * TT.
Proof. vm_compute. reflexivity. Qed.

(** ** Arithmetic, with [T] and [U] abstract *)
Section Arith.
Variables T U : Z.
Hypothesis U0 : 1000000 <= U.
Hypothesis TU : T = 1152921504606846976 * U.
Lemma T_pos : 0 < T. Proof. lia. Qed.
Lemma small_UT c : 0 <= c <= 1000000 -> c * T <= U * T.
Proof. intro H. apply Z.mul_le_mono_nonneg_r; lia. Qed.
Lemma drop_arith a L p D : 0 <= a <= 11000 -> Z.abs (100000 * L - 645 * T) <= 100000 * U -> p = a * L -> 2 * Z.abs (D - p) <= 16384 * U ->
  Z.abs (100000 * D - 645 * a * T) <= 2000000000 * U.
Proof.
  intros Ha HL -> HD. pose proof (abs_mul_l a _ _ (proj1 Ha) HL) as H.
  assert (a * (100000 * U) <= 11000 * (100000 * U)) by (apply Z.mul_le_mono_nonneg_r; lia).
  replace (100000 * D - 645 * a * T) with (100000 * (D - a * L) + a * (100000 * L - 645 * T)) by ring. lia.
Qed.
Lemma kelvin_arith a D K0 W K : 0 <= a <= 11000 -> Z.abs (100000 * D - 645 * a * T) <= 2000000000 * U -> 
  Z.abs (100 * K0 - 27315 * T) <= 3276800 * U -> 2 * Z.abs (W - (15 * T - D)) <= 16384 * U -> 2 * Z.abs (K - (W + K0)) <= 65536 * U ->
  Z.abs (100000 * K - (28815000 - 645 * a) * T) <= 10000000000 * U.
Proof.
  intros Ha HD HK0 HW HK.
  replace (100000 * K - (28815000 - 645 * a) * T) with
    (100000 * (K - (W + K0)) + 100000 * (W - (15 * T - D)) - (100000 * D - 645 * a * T) + 1000 * (100 * K0 - 27315 * T)) by ring.
  generalize dependent (100000 * D - 645 * a * T). intros x HD. lia.
Qed.
Lemma ratio_arith K K0 Q R n0 : 0 <= Q < 2 * T -> Z.abs (100 * K0 - 27315 * T) <= 3276800 * U -> 0 < K0 ->
  Z.abs (100000 * K - n0 * T) <= 10000000000 * U ->
  Z.abs (Q * K0 - K * T) <= K0 -> 2 * Z.abs (R - Q) <= 256 * U -> Z.abs (27315000 * R - n0 * T) <= 21000000000 * U.
Proof.
  intros HQ HK0 K0p HK HD HR.
  assert (A : Z.abs ((27315 * R - 100 * K) * T) <= 11000000 * U * T).
  { replace ((27315 * R - 100 * K) * T) with (100 * (Q * K0 - K * T) + 27315 * T * (R - Q) + (- Q) * (100 * K0 - 27315 * T)) by ring.
    assert (A1 : Z.abs (100 * (Q * K0 - K * T)) <= 100 * K0) by lia.
    assert (A2 : Z.abs (27315 * T * (R - Q)) <= 27315 * T * (128 * U)) by (apply abs_mul_l; lia).
    assert (A3 : Z.abs (- Q * (100 * K0 - 27315 * T)) <= 2 * T * (3276800 * U)).
    { rewrite Z.mul_opp_l, Z.abs_opp. eapply Z.le_trans; [apply abs_mul_l; [lia|exact HK0]|]. apply Z.mul_le_mono_nonneg_r; lia. }
    pose proof (small_UT 27316 ltac:(lia)) as A4. clear HD.
    replace (27315 * T * (128 * U)) with (3496320 * (U * T)) in A2 by ring. replace (2 * T * (3276800 * U)) with (6553600 * (U * T)) in A3 by ring.
    replace (11000000 * U * T) with (11000000 * (U * T)) by ring. assert (100 * K0 <= 27316 * T) by lia.
    set (x := 100 * (Q * K0 - K * T)) in *. set (y := 27315 * T * (R - Q)) in *. set (z := - Q * (100 * K0 - 27315 * T)) in *.
    set (w := U * T) in *. clearbody x y z w. lia. }
  apply cancel_T in A; [|exact T_pos].
  replace (27315000 * R - n0 * T) with (1000 * (27315 * R - 100 * K) + (100000 * K - n0 * T)) by ring.
  set (x := 27315 * R - 100 * K) in *. set (y := 100000 * K - n0 * T) in *. clearbody x y. lia.
Qed.
Lemma root_arith R S' S : 0 <= S' < 2 * T -> Z.abs (S' * S' - R * T) <= 2 * S' + 1 -> 2 * Z.abs (S - S') <= 256 * U ->
  Z.abs (S * S - R * T) <= 700 * (U * T).
Proof.
  intros HS HR HD.
  replace (S * S - R * T) with ((S' * S' - R * T) + (S - S') * (S + S')) by ring.
  assert (A : Z.abs ((S - S') * (S + S')) <= 128 * U * (5 * T)).
  { rewrite Z.abs_mul. apply Z.mul_le_mono_nonneg; lia. }
  replace (128 * U * (5 * T)) with (640 * (U * T)) in A by ring. pose proof (small_UT 5 ltac:(lia)) as A4.
  set (w := U * T) in *. set (x := S' * S' - R * T) in *. set (y := (S - S') * (S + S')) in *. clearbody w x y. lia.
Qed.
Lemma sound_arith n0 R S p k C : 0 <= S <= 2 * T -> Z.abs (100 * k - 33115 * T) <= 3276800 * U -> p * T = k * S ->
  2 * Z.abs (C - p) <= 65536 * U -> Z.abs (27315000 * R - n0 * T) <= 21000000000 * U -> Z.abs (S * S - R * T) <= 700 * (U * T) ->
  Z.abs (10000 * 27315000 * (C * C) - 33115 * 33115 * n0 * (T * T)) <= 100000000000000000000 * (U * T).
Proof.
  intros HS Hk Hp HC HR HSR. pose proof T_pos as T0.
  assert (A : Z.abs (100 * p - 33115 * S) <= 6553600 * U).
  { apply (cancel_T T); [exact T0|]. replace ((100 * p - 33115 * S) * T) with (S * (100 * k - 33115 * T)).
    2:{ replace ((100 * p - 33115 * S) * T) with (100 * (p * T) - 33115 * S * T) by ring. rewrite Hp. ring. }
    eapply Z.le_trans; [apply abs_mul_l; [lia|exact Hk]|].
    apply Z.le_trans with (2 * T * (3276800 * U)); [apply Z.mul_le_mono_nonneg_r; lia|]. apply Z.eq_le_incl. ring. }
  assert (B : Z.abs (100 * C - 33115 * S) <= 10000000 * U) by lia.
  assert (D : Z.abs (10000 * (C * C) - 33115 * 33115 * (S * S)) <= 1400000000000 * (U * T)).
  { replace (10000 * (C * C) - 33115 * 33115 * (S * S)) with ((100 * C - 33115 * S) * (100 * C + 33115 * S)) by ring.
    rewrite Z.abs_mul. apply Z.le_trans with (10000000 * U * (140000 * T)); [apply Z.mul_le_mono_nonneg; lia|]. apply Z.eq_le_incl. ring. }
  assert (E : Z.abs ((27315000 * R - n0 * T) * T) <= 21000000000 * U * T).
  { rewrite Z.abs_mul, (Z.abs_eq T) by lia. apply Z.mul_le_mono_nonneg_r; lia. }
  replace (21000000000 * U * T) with (21000000000 * (U * T)) in E by ring.
  replace (10000 * 27315000 * (C * C) - 33115 * 33115 * n0 * (T * T)) with
    (27315000 * (10000 * (C * C) - 33115 * 33115 * (S * S)) + 33115 * 33115 * 27315000 * (S * S - R * T) + 33115 * 33115 * ((27315000 * R - n0 * T) * T)) by ring.
  set (x := 10000 * (C * C) - 33115 * 33115 * (S * S)) in *. set (y := S * S - R * T) in *. set (z := (27315000 * R - n0 * T) * T) in *.
  set (w := U * T) in *. clearbody x y z w. clear - D E HSR. lia.
Qed.
End Arith.

(** ** The speed of sound *)
Lemma U1_big : 1000000 <= U1. Proof. apply Z.leb_le. vm_compute. reflexivity. Qed.
Lemma TT_eq : TT = 1152921504606846976 * U1. Proof. exact TT_U1. Qed.
Lemma drop_val a : 0 <= a <= 11000 -> Z.abs (100000 * fv (drop a) - 645 * a * TT) <= 2000000000 * U1.
Proof.
  intro H. destruct (f_of_Z_20 a) as [N E]; [change (2 ^ 17) with 131072; lia|].
  destruct (fmul_sv 17 1 _ lapse N lapse_ok ltac:(lia)) as (_ & p & P1 & P2).
  assert (Ep : p = a * fv lapse).
  { rewrite E in P1. apply (Z.mul_cancel_r _ _ (2 ^ KS)); [apply Z.pow_nonzero; unfold KS; lia|]. rewrite P1. generalize (2 ^ KS). intro. ring. }
  unfold drop. rewrite P2. pose proof lapse_val as LV. pose proof TT_eq as TU. pose proof U1_big as UB.
  apply (drop_arith TT U1 UB TU a (fv lapse) p); [exact H|exact LV|exact Ep|].
  change 16384 with (2 ^ (7 + 7)). apply RN_U; [lia|]. rewrite Ep. change (2 ^ 7) with 128.
  pose proof (fv_nonneg lapse) as HL0. clear E Ep P1 P2. set (L := fv lapse) in *. clearbody L.
  assert (645 * TT - 100000 * U1 <= 100000 * L <= 645 * TT + 100000 * U1) by lia.
  assert (0 <= a * L) by (apply Z.mul_nonneg_nonneg; lia). assert (a * L <= 11000 * L) by (apply Z.mul_le_mono_nonneg_r; lia). lia.
Qed.
Lemma kelvin_val a : 0 <= a <= 11000 -> Z.abs (100000 * sv (kelvin a) - (28815000 - 645 * a) * TT) <= 10000000000 * U1.
Proof.
  intro H. destruct (kelvin_sv a H) as [_ E]. pose proof (drop_val a H) as D. pose proof k0_val as K. pose proof TT_eq as TU. pose proof U1_big as UB.
  rewrite E, isa_val. set (d := fv (drop a)) in *. set (k := fv (flit 27315 100)) in *. clearbody d k. clear E.
  assert (B : 0 <= 645 * a * TT <= 7095000 * TT).
  { split; [apply Z.mul_nonneg_nonneg; lia|apply Z.mul_le_mono_nonneg_r; lia]. }
  assert (X : Z.abs (100000 * d) <= 7095001 * TT) by lia.
  assert (W : 2 * Z.abs (RN (15 * TT - d) - (15 * TT - d)) <= 16384 * U1).
  { change 16384 with (2 ^ (7 + 7)). apply RN_U'; [lia|]. change (2 ^ 7) with 128. lia. }
  set (w := RN (15 * TT - d)) in *. clearbody w.
  apply (kelvin_arith TT U1 UB TU a d k w); [exact H|exact D|exact K|exact W|].
  change 65536 with (2 ^ (9 + 7)). apply RN_U'; [lia|]. change (2 ^ 9) with 512. lia.
Qed.
Lemma rv_RN0 q : 0 < q -> rv KS q (-3000) = RN q.
Proof. intro H. rewrite rv_RN by (unfold KS; lia). change (2 ^ (-3000 + KS)) with 1. now rewrite Z.mul_1_r. Qed.
Definition HH : Z := 2 ^ 2999.
Definition QQ : Z := 2 ^ 2998.
Lemma TT_half : 2 * HH = TT.
Proof. unfold HH, TT, KS. rewrite <- Z.pow_succ_r by lia. reflexivity. Qed.
Lemma TT_quarter : 4 * QQ = TT.
Proof. unfold QQ, TT, KS. change 4 with (2 ^ 2). rewrite <- Z.pow_add_r by lia. reflexivity. Qed.
Lemma QQ_pos : 0 < QQ. Proof. apply pow_pos2. lia. Qed.
Lemma HH_eq : 2 ^ 2999 = HH. Proof. reflexivity. Qed.
Lemma QQ_eq : 2 ^ 2998 = QQ. Proof. reflexivity. Qed.
Lemma TT_def : 2 ^ KS = TT. Proof. reflexivity. Qed.
Lemma RN_3HH : RN (3 * HH) = 3 * HH. Proof. vm_compute. reflexivity. Qed.
Opaque HH QQ TT U1.
Lemma ratio_val a : 0 <= a <= 11000 ->
  Z.abs (27315000 * fv (ratio a) - (28815000 - 645 * a) * TT) <= 21000000000 * U1.
Proof.
  intro H. destruct (kelvin_ok a H) as [N1 L1]. pose proof (kelvin_val a H) as KV. rewrite (nonneg_sv _ _ N1) in KV.
  pose proof k0_val as K. pose proof k0_low as K0L. pose proof TT_eq as TU. pose proof U1_big as UB.
  destruct (fdiv_sv 24 22 0 _ _ N1 k0_ok k0_low (low_500 _ L1) ltac:(lia) ltac:(lia) ltac:(lia)) as [_ E].
  unfold ratio. rewrite E. rewrite HH_eq. clear E N1. change (0 + KS) with KS in *. rewrite TT_def in *.
  set (k := fv (kelvin a)) in *. set (k0 := fv (flit 27315 100)) in *. clearbody k k0.
  replace (k =? 0) with false by lia.
  pose proof (qstick_err (k * HH) k0 ltac:(lia)) as Q.
  replace (2 * (k * HH)) with (k * TT) in Q by (rewrite <- TT_half; ring).
  set (q := qstick (k * HH) k0) in *. clearbody q.
  assert (B : 0 <= (28815000 - 645 * a) * TT <= 28815000 * TT).
  { split; [apply Z.mul_nonneg_nonneg; lia|apply Z.mul_le_mono_nonneg_r; lia]. }
  assert (QB : 0 < q < 2 * TT).
  { assert (K1 : k0 <= 274 * TT) by lia. assert (K2 : 273 * TT <= k0) by lia. assert (K3 : 100000 * k <= 28815001 * TT) by lia.
    assert (K4 : 100000 * (k * TT) <= 28815001 * TT * TT) by (rewrite Z.mul_assoc; apply Z.mul_le_mono_nonneg_r; lia).
    assert (K5 : TT * TT <= k * TT) by (apply Z.mul_le_mono_nonneg_r; lia).
    assert (K6 : 273 * TT * TT <= k0 * TT) by (apply Z.mul_le_mono_nonneg_r; lia).
    assert (K7 : 1000 * TT <= TT * TT) by (apply Z.mul_le_mono_nonneg_r; lia).
    split.
    - apply (Z.mul_pos_cancel_r q k0); lia.
    - apply (Z.mul_lt_mono_pos_r k0); lia. }
  rewrite rv_RN0 by lia.
  apply (ratio_arith TT U1 UB TU k k0 q); [lia|exact K|lia|exact KV|exact Q|].
  change 256 with (2 ^ (1 + 7)). apply RN_U; [lia|]. change (2 ^ 1) with 2. lia.
Qed.
Lemma root_val a : 0 <= a <= 11000 ->
  0 <= 2 * fv (fsqrt (ratio a)) <= 3 * TT /\ Z.abs (fv (fsqrt (ratio a)) * fv (fsqrt (ratio a)) - fv (ratio a) * TT) <= 700 * (U1 * TT).
Proof.
  intro H. destruct (ratio_ok a H) as [N L]. pose proof (ratio_val a H) as RV. pose proof TT_eq as TU. pose proof U1_big as UB.
  destruct (fsqrt_sv 26 _ N L ltac:(lia)) as [_ E]. rewrite E. rewrite QQ_eq. clear E N L. pose proof (fv_nonneg (ratio a)) as R0. pose proof TT_quarter as TQ. pose proof TT_half as TH. pose proof QQ_pos as P.
  set (r := fv (ratio a)) in *. clearbody r.
  assert (B : 0 <= (28815000 - 645 * a) * TT <= 28815000 * TT).
  { split; [apply Z.mul_nonneg_nonneg; lia|apply Z.mul_le_mono_nonneg_r; lia]. }
  assert (B2 : 1000000 * TT <= (28815000 - 645 * a) * TT) by (apply Z.mul_le_mono_nonneg_r; lia).
  pose proof (sstick_err (r * QQ)) as Q. replace (4 * (r * QQ)) with (r * TT) in Q by (rewrite <- TT_quarter; ring).
  assert (P1 : 0 <= r * QQ) by (apply Z.mul_nonneg_nonneg; lia).
  specialize (Q P1).
  assert (SB : 0 < sstick (r * QQ) < 3 * HH).
  { split.
    - unfold sstick. assert (1 <= Z.sqrt (r * QQ)); [|destruct (_ =? _); lia]. apply Z.sqrt_le_square; [lia|lia|].
      assert (1 * QQ <= r * QQ) by (apply Z.mul_le_mono_nonneg_r; lia). lia.
    - replace (3 * HH) with (2 * (3 * QQ)) by lia.
      apply sstick_lt; [exact P1|lia|]. apply (Z.mul_lt_mono_pos_l 16); [lia|].
      replace (16 * (3 * QQ * (3 * QQ))) with (9 * TT * TT) by (rewrite <- TT_quarter; ring).
      replace (16 * (r * QQ)) with (4 * r * TT) by (rewrite <- TT_quarter; ring). 
      apply Z.mul_lt_mono_pos_r; lia. }
  set (q := sstick (r * QQ)) in *. clearbody q.
  rewrite rv_RN0 by lia. 
  assert (RE : 2 * Z.abs (RN q - q) <= 256 * U1).
  { change 256 with (2 ^ (1 + 7)). apply RN_U; [lia|]. change (2 ^ 1) with 2. lia. }
  split; [|apply (root_arith TT U1 UB TU r q); [lia|exact Q|exact RE]].
  split; [pose proof (RN_pos q); lia|]. assert (RN q <= RN (3 * HH)) by (apply RN_mono; lia).
  rewrite RN_3HH in *. lia.
Qed.
Lemma sos_val a : 0 <= a <= 11000 ->
  Z.abs (10000 * 27315000 * (fv (sos a) * fv (sos a)) - 33115 * 33115 * (28815000 - 645 * a) * (TT * TT)) <= 100000000000000000000 * (U1 * TT).
Proof.
  intro H. unfold sos. rewrite sos_low_eq by exact H. destruct (ratio_ok a H) as [N L].
  destruct (fsqrt_sv 26 _ N L ltac:(lia)) as [M _]. destruct (root_val a H) as [SB SV]. pose proof (ratio_val a H) as RV.
  destruct (fmul_sv 9 27 _ _ k331_ok M ltac:(lia)) as (_ & p & P1 & P2). rewrite P2. rewrite TT_def in P1.
  pose proof TT_eq as TU. pose proof U1_big as UB. pose proof k331_val as K. pose proof (fv_nonneg (flit 33115 100)) as K0.
  set (S := fv (fsqrt (ratio a))) in *. set (k := fv (flit 33115 100)) in *. set (r := fv (ratio a)) in *. clearbody S k r. clear P2 N L M.
  apply (sound_arith TT U1 UB TU _ r S p k); [lia|exact K|exact P1| |exact RV|exact SV].
  change 65536 with (2 ^ (9 + 7)). apply RN_U; [lia|]. change (2 ^ 9) with 512. 
  assert (0 <= k * S) by (apply Z.mul_nonneg_nonneg; lia).
  assert (KB : 0 <= k <= 332 * TT) by lia.
  assert (2 * (k * S) <= 332 * TT * (3 * TT)).
  { replace (2 * (k * S)) with (k * (2 * S)) by ring. apply Z.mul_le_mono_nonneg; lia. }
  split.
  - apply (Z.mul_le_mono_pos_r 0 p TT); lia.
  - apply (Z.mul_lt_mono_pos_r TT); [lia|]. rewrite P1.
    assert (0 < TT * TT) by (apply Z.mul_pos_pos; lia). lia.
Qed.
Lemma sos_val_any a : 0 <= a ->
  Z.abs (sound2_den * (fv (sos a) * fv (sos a)) - sound2_num a * (TT * TT)) <= 100000000000000000000 * (U1 * TT).
Proof.
  intro H. unfold sound2_den, sound2_num. destruct (Z.le_gt_cases a 11000) as [C|C].
  - rewrite Z.min_l by lia. apply sos_val. lia.
  - rewrite Z.min_r, sos_11000 by lia. apply sos_val. lia.
Qed.
Lemma sound2_range a : 0 <= a -> 23000000000000000 <= sound2_num a <= 32000000000000000.
Proof. unfold sound2_num. lia. Qed.
Lemma rel_arith T U D N c2 : 1000000 <= U -> T = 1152921504606846976 * U -> 23000000000000000 <= N ->
  Z.abs (D * c2 - N * (T * T)) <= 100000000000000000000 * (U * T) -> Z.abs (D * c2 - N * (T * T)) * 140737488355328 <= N * (T * T).
Proof.
  intros UB TU HN H. assert (W : T * T = 1152921504606846976 * (U * T)) by (rewrite TU at 1; ring).
  assert (0 <= U * T) by (apply Z.mul_nonneg_nonneg; lia).
  assert (23000000000000000 * (T * T) <= N * (T * T)) by (apply Z.mul_le_mono_nonneg_r; [rewrite W|]; lia).
  set (x := Z.abs (D * c2 - N * (T * T))) in *. set (y := N * (T * T)) in *. set (w := U * T) in *. clearbody x y w. lia.
Qed.
Lemma sos_rel a : 0 <= a ->
  Z.abs (sound2_den * (fv (sos a) * fv (sos a)) - sound2_num a * (TT * TT)) * 140737488355328 <= sound2_num a * (TT * TT).
Proof. intro H. apply (rel_arith TT U1 _ _ _ U1_big TT_eq); [apply sound2_range; exact H|now apply sos_val_any]. Qed.

Lemma square_le x y : 0 <= x -> x * x <= y * y -> 0 <= y -> x <= y.
Proof. intros. apply Z.square_le_simpl_nonneg; [lia|]. assumption. Qed.
Lemma range_arith T D N c : 0 < T -> D = 273150000000 -> 23000000000000000 <= N <= 32000000000000000 -> 0 <= c ->
  Z.abs (D * (c * c) - N * (T * T)) * 140737488355328 <= N * (T * T) -> 280 * T <= c <= 345 * T.
Proof.
  intros HT -> HN Hc H.
  assert (P : 0 < T * T) by (apply Z.mul_pos_pos; lia).
  assert (A : 23000000000000000 * (T * T) <= N * (T * T)) by (apply Z.mul_le_mono_nonneg_r; lia).
  assert (B : N * (T * T) <= 32000000000000000 * (T * T)) by (apply Z.mul_le_mono_nonneg_r; lia).
  set (n := N * (T * T)) in *. clearbody n. split; (apply square_le; [lia| |lia]).
  - replace (280 * T * (280 * T)) with (78400 * (T * T)) by ring. set (c2 := c * c) in *. set (t := T * T) in *. clearbody c2 t. lia.
  - replace (345 * T * (345 * T)) with (119025 * (T * T)) by ring. set (c2 := c * c) in *. set (t := T * T) in *. clearbody c2 t. lia.
Qed.
Lemma sos_range a : 0 <= a -> 280 * TT <= fv (sos a) <= 345 * TT.
Proof.
  intro H. pose proof TT_eq. pose proof U1_big. 
  apply (range_arith TT sound2_den (sound2_num a)); [lia|reflexivity|now apply sound2_range|apply fv_nonneg|now apply sos_rel].
Qed.

(** ** Mach numbers *)
Lemma machf_val m : 0 <= m < 1000 -> Z.abs (100 * fv (machf m) - m * TT) <= 200000 * U1.
Proof.
  intro H. destruct (f_of_Z_20 m) as [N E]; [change (2 ^ 17) with 131072; lia|]. destruct c100_ok as [C1 C2].
  pose proof TT_eq as TU. pose proof U1_big as UB.
  assert (X : fv (f_of_Z m) = 0 \/ 2 ^ (-500 + KS) <= fv (f_of_Z m)) by (rewrite E; apply fv_low; lia).
  destruct (fdiv_sv 17 7 0 _ _ N C1 C2 X ltac:(lia) ltac:(lia) ltac:(lia)) as [_ V].
  unfold machf. rewrite V, E. rewrite TT_def, HH_eq. clear V X N C1 C2 E.
  assert (E1 : fv (f_of_Z 100) = 100 * TT) by (vm_compute; reflexivity). rewrite E1. clear E1.
  destruct (m * TT =? 0) eqn:Em.
  - assert (m * TT = 0) by lia. rewrite H0. change (Z.abs (100 * 0 - 0)) with 0. lia.
  - pose proof (qstick_err (m * TT * HH) (100 * TT) ltac:(lia)) as Q.
    replace (2 * (m * TT * HH)) with (m * TT * TT) in Q by (rewrite <- TT_half; ring).
    assert (B : 1 * TT <= m * TT) by (apply Z.mul_le_mono_nonneg_r; [lia|]; destruct (Z.eq_dec m 0) as [->|]; lia).
    assert (B2 : m * TT <= 999 * TT) by (apply Z.mul_le_mono_nonneg_r; lia).
    set (q := qstick _ _) in *. clearbody q.
    assert (QV : Z.abs (100 * q - m * TT) <= 100).
    { apply (cancel_T TT); [lia|]. replace ((100 * q - m * TT) * TT) with (q * (100 * TT) - m * TT * TT) by ring. exact Q. }
    rewrite rv_RN0 by lia.
    assert (RE : 2 * Z.abs (RN q - q) <= 2048 * U1).
    { change 2048 with (2 ^ (4 + 7)). apply RN_U; [lia|]. change (2 ^ 4) with 16. lia. }
    set (rq := RN q) in *. clearbody rq. lia.
Qed.
Lemma prod_arith T U m M c p F r H : 1000000 <= U -> T = 1152921504606846976 * U -> 2 * H = T -> 0 <= c <= 345 * T -> Z.abs (100 * M - m * T) <= 200000 * U ->
  p * T = M * c -> 2 * Z.abs (F - p) <= 524288 * U -> 2 * Z.abs (r - (F + H)) <= 524288 * U -> Z.abs (100 * r - (m * c + 50 * T)) <= 130000000 * U.
Proof.
  intros UB TU HT Hc HM Hp HF Hr.
  assert (A : Z.abs (100 * p - m * c) <= 69000000 * U).
  { apply (cancel_T T); [lia|]. replace ((100 * p - m * c) * T) with (c * (100 * M - m * T)).
    2:{ replace ((100 * p - m * c) * T) with (100 * (p * T) - m * c * T) by ring. rewrite Hp. ring. }
    eapply Z.le_trans; [apply abs_mul_l; [lia|exact HM]|].
    apply Z.le_trans with (345 * T * (200000 * U)); [apply Z.mul_le_mono_nonneg_r; lia|]. apply Z.eq_le_incl. ring. }
  set (x := m * c) in *. clearbody x. lia.
Qed.
Lemma sea_level : fv MACH_TO_METERS_SECOND = 343 * TT.
Proof. vm_compute. reflexivity. Qed.
Lemma sound_range alt : 0 <= alt -> 280 * TT <= fv (sound alt) <= 345 * TT.
Proof.
  intro H. unfold sound. destruct (alt =? 0); [|now apply sos_range]. rewrite sea_level. pose proof TT_eq. pose proof U1_big. lia.
Qed.
Lemma mach_val m alt : 0 <= m < 1000 -> 0 <= alt -> exists r, mach_ms m alt = r / TT /\ 0 <= r /\ Z.abs (100 * r - (m * fv (sound alt) + 50 * TT)) <= 130000000 * U1.
Proof.
  intros Hm Ha. pose proof TT_eq as TU. pose proof U1_big as UB. pose proof (machf_val m Hm) as MV. pose proof (sound_range alt ltac:(lia)) as C.
  exists (fv (fadd (fmul (machf m) (sound alt)) half)). split; [reflexivity|]. split; [apply fv_nonneg|].
  pose proof (mach_prod m alt Hm ltac:(lia)) as P. pose proof (mach_sum m alt Hm ltac:(lia)) as S. 
  pose proof (nonneg_le 59 60 _ P ltac:(lia)) as P'. destruct half_ok as [H1 _].
  destruct (fadd_sv 60 _ _ (nonneg_bnd _ _ P') (nonneg_bnd _ _ H1) ltac:(lia)) as [_ A].
  rewrite (nonneg_sv _ _ S), (nonneg_sv _ _ P), (nonneg_sv _ _ H1), fv_half, HH_eq in A.
  clear S P P'.
  destruct (fmul_sv 19 38 _ _ (machf_ok m Hm) (sound_ok alt Ha) ltac:(lia)) as (_ & p & P1 & P2). rewrite TT_def in P1.
  rewrite A, P2. clear A P2 H1. pose proof (fv_nonneg (machf m)) as M0. pose proof TT_half as TH.
  set (M := fv (machf m)) in *. set (c := fv (sound alt)) in *. clearbody M c.
  assert (B2 : 0 <= m * TT <= 999 * TT) by (split; [apply Z.mul_nonneg_nonneg; lia|apply Z.mul_le_mono_nonneg_r; lia]).
  assert (M1 : M <= 10 * TT) by lia.
  assert (PB : 0 <= p <= 3450 * TT).
  { assert (0 <= M * c) by (apply Z.mul_nonneg_nonneg; lia). assert (M * c <= 10 * TT * (345 * TT)) by (apply Z.mul_le_mono_nonneg; lia).
    split; apply (Z.mul_le_mono_pos_r _ _ TT); lia. }
  assert (FE : 2 * Z.abs (RN p - p) <= 524288 * U1).
  { change 524288 with (2 ^ (12 + 7)). apply RN_U; [lia|]. change (2 ^ 12) with 4096. lia. }
  apply (prod_arith TT U1 m M c p (RN p) _ HH UB TU TH); [lia|exact MV|exact P1|exact FE|].
  pose proof (RN_pos p ltac:(lia)) as F0. set (F := RN p) in *. clearbody F.
  change 524288 with (2 ^ (12 + 7)). apply RN_U; [lia|]. change (2 ^ 12) with 4096. lia.
Qed.

(** From the value to the nearest integer. *)
Lemma upper_arith T U D N m c z r : 1000000 <= U -> T = 1152921504606846976 * U -> 0 < D -> 0 <= N -> 0 <= m -> 280 * T <= c ->
  Z.abs (D * (c * c) - N * (T * T)) * 140737488355328 <= N * (T * T) -> z * T <= r -> Z.abs (100 * r - (m * c + 50 * T)) <= 130000000 * U ->
  Z.max 0 (2 * z - 1) * Z.max 0 (2 * z - 1) * (10000 * D) * 68719476736 <= 4 * (m * m * N) * (68719476736 + 1).
Proof.
  intros UB TU HD HN Hm Hc HS Hz Hr.
  destruct (Z.le_gt_cases z 0) as [C|C].
  { rewrite Z.max_l by lia. assert (0 <= m * m * N) by (apply Z.mul_nonneg_nonneg; [apply Z.mul_nonneg_nonneg; lia|lia]). lia. }
  rewrite Z.max_r by lia. set (y := 2 * z - 1). 
  assert (X : y * 50 * T <= m * c + 130000000 * U) by (unfold y; lia).
  assert (Y1 : 1 * T <= y * T) by (apply Z.mul_le_mono_nonneg_r; unfold y; lia).
  assert (M1 : 1 <= m). { destruct (Z.eq_dec m 0) as [->|]; [exfalso|lia]. rewrite Z.mul_0_l in X. lia. }
  assert (MC : 280 * T <= m * c). { apply Z.le_trans with (1 * c); [lia|]. apply Z.mul_le_mono_nonneg_r; lia. }
  assert (X2 : y * 50 * T * 1099511627776 <= m * c * 1099511627777) by lia.
  assert (X3 : (y * 50 * T * 1099511627776) * (y * 50 * T * 1099511627776) <= (m * c * 1099511627777) * (m * c * 1099511627777)).
  { apply Z.mul_le_mono_nonneg; lia. }
  assert (S1 : D * (c * c) * 140737488355328 <= N * (T * T) * 140737488355329) by lia.
  assert (T0 : 0 < T * T) by (apply Z.mul_pos_pos; lia).
  assert (X4 : D * 140737488355328 * ((y * 50 * T * 1099511627776) * (y * 50 * T * 1099511627776)) <=
    m * m * (N * (T * T) * 140737488355329) * (1099511627777 * 1099511627777)).
  { apply Z.le_trans with (D * 140737488355328 * ((m * c * 1099511627777) * (m * c * 1099511627777))).
    - apply Z.mul_le_mono_nonneg_l; lia.
    - replace (D * 140737488355328 * (m * c * 1099511627777 * (m * c * 1099511627777))) with
        (m * m * (D * (c * c) * 140737488355328) * (1099511627777 * 1099511627777)) by ring.
      apply Z.mul_le_mono_nonneg_r; [lia|]. apply Z.mul_le_mono_nonneg_l; [apply Z.mul_nonneg_nonneg; lia|exact S1]. }
  set (A := y * y * (10000 * D)). set (B := 4 * (m * m * N)).
  assert (X5 : A * 140737488355328 * 1099511627776 * 1099511627776 * (T * T) <= B * 140737488355329 * 1099511627777 * 1099511627777 * (T * T)).
  { unfold A, B. replace (y * y * (10000 * D) * 140737488355328 * 1099511627776 * 1099511627776 * (T * T)) with
      (4 * (D * 140737488355328 * ((y * 50 * T * 1099511627776) * (y * 50 * T * 1099511627776)))) by ring.
    replace (4 * (m * m * N) * 140737488355329 * 1099511627777 * 1099511627777 * (T * T)) with
      (4 * (m * m * (N * (T * T) * 140737488355329) * (1099511627777 * 1099511627777))) by ring. lia. }
  apply Z.mul_le_mono_pos_r in X5; [|exact T0].
  assert (0 <= B) by (unfold B; assert (0 <= m * m * N) by (apply Z.mul_nonneg_nonneg; [apply Z.mul_nonneg_nonneg; lia|lia]); lia).
  clearbody A B. clear - X5 H. lia.
Qed.
Lemma lower_arith T U D N m c z r : 1000000 <= U -> T = 1152921504606846976 * U -> 0 < D -> 0 <= N -> 0 <= m -> 280 * T <= c -> 0 <= z ->
  Z.abs (D * (c * c) - N * (T * T)) * 140737488355328 <= N * (T * T) -> r < z * T + T -> Z.abs (100 * r - (m * c + 50 * T)) <= 130000000 * U ->
  4 * (m * m * N) * 68719476736 <= (2 * z + 1) * (2 * z + 1) * (10000 * D) * (68719476736 + 1).
Proof.
  intros UB TU HD HN Hm Hc Hz HS Hr1 Hr. set (y := 2 * z + 1).
  assert (X : m * c <= y * 50 * T + 130000000 * U) by (unfold y; lia).
  assert (T0 : 0 < T * T) by (apply Z.mul_pos_pos; lia).
  set (A := y * y * (10000 * D)). set (B := 4 * (m * m * N)).
  assert (A0 : 0 <= A) by (unfold A; apply Z.mul_nonneg_nonneg; [apply Z.mul_nonneg_nonneg; unfold y; lia|lia]).
  destruct (Z.eq_dec m 0) as [Em|M0]. { replace B with 0 by (unfold B; rewrite Em; ring). lia. }
  assert (MC : 280 * T <= m * c). { apply Z.le_trans with (1 * c); [lia|]. apply Z.mul_le_mono_nonneg_r; lia. }
  assert (X2 : m * c * 1099511627775 <= y * 50 * T * 1099511627776) by lia.
  assert (X3 : (m * c * 1099511627775) * (m * c * 1099511627775) <= (y * 50 * T * 1099511627776) * (y * 50 * T * 1099511627776)).
  { apply Z.mul_le_mono_nonneg; lia. }
  assert (S1 : N * (T * T) * 140737488355327 <= D * (c * c) * 140737488355328) by lia.
  assert (X4 : m * m * (N * (T * T) * 140737488355327) * (1099511627775 * 1099511627775) <=
     D * 140737488355328 * ((y * 50 * T * 1099511627776) * (y * 50 * T * 1099511627776))).
  { apply Z.le_trans with (D * 140737488355328 * ((m * c * 1099511627775) * (m * c * 1099511627775))).
    - replace (D * 140737488355328 * (m * c * 1099511627775 * (m * c * 1099511627775))) with
        (m * m * (D * (c * c) * 140737488355328) * (1099511627775 * 1099511627775)) by ring.
      apply Z.mul_le_mono_nonneg_r; [lia|]. apply Z.mul_le_mono_nonneg_l; [apply Z.mul_nonneg_nonneg; lia|exact S1].
    - apply Z.mul_le_mono_nonneg_l; lia. }
  assert (X5 : B * 140737488355327 * 1099511627775 * 1099511627775 * (T * T) <= A * 140737488355328 * 1099511627776 * 1099511627776 * (T * T)).
  { unfold A, B. replace (y * y * (10000 * D) * 140737488355328 * 1099511627776 * 1099511627776 * (T * T)) with
      (4 * (D * 140737488355328 * ((y * 50 * T * 1099511627776) * (y * 50 * T * 1099511627776)))) by ring.
    replace (4 * (m * m * N) * 140737488355327 * 1099511627775 * 1099511627775 * (T * T)) with
      (4 * (m * m * (N * (T * T) * 140737488355327) * (1099511627775 * 1099511627775))) by ring. lia. }
  apply Z.mul_le_mono_pos_r in X5; [|exact T0].
  clearbody A B. clear - X5 A0. lia.
Qed.
Lemma mach_nearest m alt : 0 <= m < 1000 -> 0 < alt ->
  nearest_root 36 (mach_ms m alt) (m * m * sound2_num alt) (10000 * sound2_den).
Proof.
  intros Hm Ha. destruct (mach_val m alt Hm ltac:(lia)) as (r & E & R0 & R).
  assert (Es : sound alt = sos alt) by (unfold sound; replace (alt =? 0) with false by lia; reflexivity). rewrite Es in R. clear Es. pose proof TT_eq as TU. pose proof U1_big as UB.
  pose proof (sos_range alt ltac:(lia)) as C. pose proof (sos_rel alt ltac:(lia)) as S. pose proof (sound2_range alt ltac:(lia)) as NR.
  assert (D0 : 0 < sound2_den) by reflexivity. assert (T0 : 0 < TT) by lia.
  pose proof (Z.mul_div_le r TT T0) as Z1. pose proof (Z.mul_succ_div_gt r TT T0) as Z2. pose proof (Z.div_pos r TT R0 T0) as Z0.
  unfold nearest_root. rewrite E. change (2 ^ 36) with 68719476736. split; [exact Z0|]. split.
  - apply (upper_arith TT U1 sound2_den (sound2_num alt) m (fv (sos alt)) _ r); try assumption; lia.
  - apply (lower_arith TT U1 sound2_den (sound2_num alt) m (fv (sos alt)) _ r); try assumption; lia.
Qed.
Lemma tie_arith m q : 0 <= m < 1000 -> 343 * m + 50 = 100 * q -> exists k, 0 <= k < 10 /\ m = 100 * k + 50.
Proof.
  intros Hm H. exists (m / 100). assert (D : (50 | m)) by (assert (D : (50 | 343 * m)) by (exists (2 * q - 1); lia); apply Z.gauss in D; [exact D|reflexivity]).
  destruct D as [j ->]. pose proof (Z.div_mod (j * 50) 100 ltac:(lia)). pose proof (Z.mod_pos_bound (j * 50) 100 ltac:(lia)).
  assert (0 <= j < 20) by lia. set (d := j * 50 / 100) in *. set (e := (j * 50) mod 100) in *. clearbody d e. lia.
Qed.
Lemma ties : forallb (fun k => mach_ms (100 * Z.of_nat k + 50) 0 =? 343 * Z.of_nat k + 172) (seq 0 10) = true.
Proof. vm_compute. reflexivity. Qed.
Lemma mach_sea_level m : 0 <= m < 1000 -> rounds_to (343 * m) 100 (mach_ms m 0).
Proof.
  intro Hm. destruct (Z.eq_dec ((343 * m + 50) mod 100) 0) as [E|E].
  - destruct (tie_arith m ((343 * m + 50) / 100) Hm) as (k & Hk & ->). { pose proof (Z.div_mod (343 * m + 50) 100 ltac:(lia)). lia. }
    assert (I : In (Z.to_nat k) (seq 0 10)) by (apply in_seq; lia).
    pose proof (proj1 (forallb_forall _ _) ties _ I) as X. cbv beta in X. apply Z.eqb_eq in X. rewrite Z2Nat.id in X by lia.
    rewrite X. unfold rounds_to. lia.
  - destruct (mach_val m 0 Hm ltac:(lia)) as (r & -> & R0 & R). change (sound 0) with MACH_TO_METERS_SECOND in R. rewrite sea_level in R.
    pose proof TT_eq as TU. pose proof U1_big as UB.
    pose proof (Z.div_mod (343 * m + 50) 100 ltac:(lia)) as D. pose proof (Z.mod_pos_bound (343 * m + 50) 100 ltac:(lia)) as DB.
    set (q := (343 * m + 50) / 100) in *. set (e := (343 * m + 50) mod 100) in *. clearbody q e.
    assert (E1 : m * (343 * TT) + 50 * TT = 100 * (q * TT) + e * TT) by (replace (m * (343 * TT) + 50 * TT) with ((343 * m + 50) * TT) by ring; rewrite D; ring).
    rewrite E1 in R. assert (E2 : 1 * TT <= e * TT) by (apply Z.mul_le_mono_nonneg_r; lia). assert (E3 : e * TT <= 99 * TT) by (apply Z.mul_le_mono_nonneg_r; lia).
    assert (Eq : r / TT = q); [|rewrite Eq; unfold rounds_to; lia]. apply div_in; lia.
Qed.
