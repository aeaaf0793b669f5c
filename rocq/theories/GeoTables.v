(** * GeoTables: degrees and minutes in double precision. *)
From Coq Require Import ZArith NArith List Bool String Lia.
From Coq Require Import Floats.SpecFloat.
From Coq Require Import ZifyBool ZifyNat ZifyN.
From Verif Require Import PyBase PyFloat Utils SpecNum FloatProofs FloatRN NumTables NumProofs.
Import List ListNotations.
Local Open Scope list_scope.
Local Open Scope Z_scope.

Lemma nonneg_finite B f : nonneg B f -> finite_nonneg f /\ scaled f = fv f.
Proof.
  destruct f as [| | |[] m e]; try contradiction; intro H; (split; [|reflexivity]); [exact I|]. destruct H as (H1 & _ & H2).
  split; [exact H1|]. apply Z.log2_lt_pow2; lia.
Qed.

(** x * (-1) is minus a number of the same value as x. *)
Definition one : f64 := flit 1 1.
Lemma one_ok : nonneg 1 one /\ fv one = 2 ^ KS.
Proof. split; [apply nonnegb_spec|]; vm_compute; reflexivity. Qed.
Lemma times_one B x : nonneg B x -> 0 <= B <= 800 -> nonneg (B + 3) (fmul x one) /\ fv (fmul x one) = fv x.
Proof.
  intros H HB. destruct one_ok as [N E]. destruct (fmul_sv B 1 x one H N ltac:(lia)) as (M & p & P1 & P2).
  split; [eapply nonneg_le; [exact M|lia]|]. rewrite P2. rewrite E in P1. apply Z.mul_cancel_r in P1; [|apply Z.pow_nonzero; unfold KS; lia].
  rewrite P1, <- (nonneg_sv B x H). apply (RN_canon B). now apply nonneg_bnd.
Qed.
Lemma times_minus_one B x : nonneg B x -> 0 <= B <= 800 ->
  exists y, fmul x (SFopp one) = SFopp y /\ nonneg (B + 3) y /\ fv y = fv x.
Proof. intros H HB. exists (fmul x one). split; [apply fmul_opp|]. now apply times_one. Qed.

(** Minutes: m/60. *)
Definition min_val (m : Z) : f64 := fdiv (f_of_Z m) (flit 60 1).
Definition min_ok (m : Z) : bool :=
  nonnegb 2 (min_val m) && (Z.abs (60 * fv (min_val m) - m * 2 ^ KS) * 2 ^ 50 <=? 60 * 2 ^ KS).
Lemma min_table : forallb min_ok (zrange 100) = true.
Proof. vm_compute. reflexivity. Qed.
Lemma min_spec m : 0 <= m < 100 -> nonneg 2 (min_val m) /\ Z.abs (60 * fv (min_val m) - m * 2 ^ KS) * 2 ^ 50 <= 60 * 2 ^ KS.
Proof.
  intro H. pose proof (zrange_forall min_ok 100 m min_table H) as K. unfold min_ok in K. apply andb_true_iff in K as [K1 K2].
  split; [now apply nonnegb_spec|]. apply Z.leb_le, K2.
Qed.
Lemma f_of_Z_10 d : 0 <= d < 1000 -> nonneg 17 (f_of_Z d) /\ fv (f_of_Z d) = d * 2 ^ KS.
Proof. intro H. apply f_of_Z_20. change (2 ^ 17) with 131072. lia. Qed.

Definition dm_val (d m : Z) : f64 := fadd (f_of_Z d) (fdiv (f_of_Z m) (flit 60 1)).
Lemma dm_spec d m : 0 <= d < 1000 -> 0 <= m < 100 ->
  nonneg 19 (dm_val d m) /\ Z.abs (60 * fv (dm_val d m) - (60 * d + m) * 2 ^ KS) * 2 ^ 43 <= 60 * 2 ^ KS.
Proof.
  assert (E43 : 2 ^ KS = 2 ^ 43 * 2 ^ (10 - 53 + KS)) by (rewrite <- Z.pow_add_r by (unfold KS; lia); f_equal; lia).
  intros Hd Hm. destruct (f_of_Z_10 d Hd) as [N1 E1]. destruct (min_spec m Hm) as [N2 E2].
  pose proof (nonneg_le 2 17 _ N2 ltac:(lia)) as N3.
  destruct (fadd_sv 17 _ _ (nonneg_bnd _ _ N1) (nonneg_bnd _ _ N3) ltac:(lia)) as [A1 A2].
  rewrite (nonneg_sv _ _ N1), (nonneg_sv _ _ N3), E1 in A2. change (fadd (f_of_Z d) (min_val m)) with (dm_val d m) in *.
  pose proof (nonneg_lt 2 _ N2 ltac:(unfold KS; lia)) as L2. pose proof (fv_nonneg (min_val m)) as F0.
  assert (T0 : 0 < 2 ^ KS) by (apply pow_pos2; unfold KS; lia).
  assert (E2' : 2 ^ (2 + KS) = 4 * 2 ^ KS) by (rewrite Z.pow_add_r by (unfold KS; lia); reflexivity).
  assert (E10 : 2 ^ (10 + KS) = 1024 * 2 ^ KS) by (rewrite Z.pow_add_r by (unfold KS; lia); reflexivity).
  pose proof (RN_err (d * 2 ^ KS + fv (min_val m)) 10) as RE. rewrite E10 in RE.
  rewrite E43 in *. clear E43.
  assert (U0 : 0 < 2 ^ (10 - 53 + KS)) by (apply pow_pos2; unfold KS; lia).
  assert (Nz : nonneg 19 (dm_val d m) /\ sv (dm_val d m) = fv (dm_val d m)).
  { destruct (dm_val d m) as [s| | |[] mm e] eqn:Ed; try contradiction; try (split; [exact A1|reflexivity]).
    exfalso. assert (0 <= sv (S754_finite true mm e)).
    { rewrite A2. apply RN_pos. assert (0 <= d * (2 ^ 43 * 2 ^ (10 - 53 + KS))) by (apply Z.mul_nonneg_nonneg; lia). lia. }
    cbn [sv cond_Zopp bnd] in *. unfold emin64 in *. assert (0 < 2 ^ (e + KS)) by (apply pow_pos2; unfold KS; lia).
    assert (0 < Zpos mm * 2 ^ (e + KS)) by (apply Z.mul_pos_pos; lia). lia. }
  destruct Nz as [Nz Sz]. split; [exact Nz|]. rewrite <- Sz, A2. clear - E2 RE L2 E2' F0 Hd Hm U0.
  rewrite E2' in L2. clear E2'. generalize dependent (2 ^ (10 - 53 + KS)). intros U E2 L2 RE U0.
  change (2 ^ 43) with 8796093022208 in *. change (2 ^ 50) with (8796093022208 * 128) in E2.
  set (f := fv (min_val m)) in *. clearbody f. set (v := d * (8796093022208 * U) + f) in *.
  replace ((60 * d + m) * (8796093022208 * U)) with (60 * (d * (8796093022208 * U)) + m * (8796093022208 * U)) by ring.
  assert (0 <= d * (8796093022208 * U) <= 999 * (8796093022208 * U)) by (split; [apply Z.mul_nonneg_nonneg; lia|apply Z.mul_le_mono_nonneg_r; lia]).
  specialize (RE ltac:(unfold v; lia) ltac:(lia)). unfold v in *. lia.
Qed.
