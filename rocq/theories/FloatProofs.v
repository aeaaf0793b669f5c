(** * FloatProofs: rounding of the binary64 operations, over the integers. *)
From Coq Require Import ZArith NArith List Bool Lia.
From Coq Require Import Floats.SpecFloat.
From Coq Require Import ZifyBool ZifyNat ZifyN.
From Verif Require Import PyBase PyFloat.
Import ListNotations.
Open Scope Z_scope.

(** ** Digits *)
Lemma digits2_log2 p : Zpos (digits2_pos p) = Z.log2 (Zpos p) + 1.
Proof.
  induction p as [p IH|p IH|]; cbn [digits2_pos]; [..|reflexivity]; rewrite Pos2Z.inj_succ, IH.
  - change (Zpos p~1) with (2 * Zpos p + 1). rewrite Z.log2_succ_double by lia. lia.
  - change (Zpos p~0) with (2 * Zpos p). rewrite Z.log2_double by lia. lia.
Qed.
Lemma Zdigits2_log2 m : 0 < m -> Zdigits2 m = Z.log2 m + 1.
Proof. destruct m; try lia. intros _. apply digits2_log2. Qed.

(** ** Round half to even of m / 2^n *)
Definition rne (m n : Z) : Z :=
  let q := m / 2 ^ n in let r := m mod 2 ^ n in
  if 2 * r <? 2 ^ n then q else if 2 ^ n <? 2 * r then q + 1 else if Z.even q then q else q + 1.

Lemma iter_pos_eq {A} (f : A -> A) p : forall x, iter_pos f p x = Pos.iter f x p.
Proof.
  induction p as [p IH|p IH|]; intro x; simpl; [..|reflexivity]; rewrite !IH; [|reflexivity].
  now rewrite !Pos.iter_swap.
Qed.

(** The shift record after [n >= 1] steps. *)
Definition shr_inv (m n : Z) (r : shr_record) : Prop :=
  0 <= shr_m r /\
  exists rest, m = shr_m r * 2 ^ n + Z.b2z (shr_r r) * 2 ^ (n - 1) + rest /\ 0 <= rest < 2 ^ (n - 1)
               /\ shr_s r = (0 <? rest).
Lemma shr_1_inv0 m : 0 <= m -> shr_inv m 1 (shr_1 (Build_shr_record m false false)).
Proof.
  intro H. destruct m as [|[p|p|]|]; try lia; simpl; (split; [simpl; lia|]); exists 0; cbn [shr_m shr_r shr_s Z.b2z orb];
    change (2 ^ 1) with 2; change (2 ^ (1 - 1)) with 1; lia.
Qed.
Lemma shr_1_inv m n r : 1 <= n -> shr_inv m n r -> shr_inv m (n + 1) (shr_1 r).
Proof.
  intros Hn [H0 [rest (H1 & H2 & H3)]]. destruct r as [q b s]. cbn [shr_m shr_r shr_s] in *.
  assert (E1 : 2 ^ (n + 1) = 2 * 2 ^ n) by (rewrite Z.add_1_r, Z.pow_succ_r by lia; reflexivity).
  assert (E2 : 2 ^ n = 2 * 2 ^ (n - 1)) by (replace n with (Z.succ (n - 1)) at 1 by lia; rewrite Z.pow_succ_r by lia; reflexivity).
  assert (HB : (b || s)%bool = (0 <? Z.b2z b * 2 ^ (n - 1) + rest)).
  { subst s. destruct b; cbn [Z.b2z orb]; [|f_equal; lia]. lia. }
  destruct q as [|[q|q|]|q]; try lia; unfold shr_1; (split; [cbn [shr_m]; lia|]);
    exists (Z.b2z b * 2 ^ (n - 1) + rest); cbn [shr_m shr_r shr_s]; rewrite HB;
    (split; [|split; [|reflexivity]]); replace (n + 1 - 1) with n by lia; cbn [Z.b2z] in *;
    first [ destruct b; cbn [Z.b2z] in *; lia | nia ].
Qed.
Lemma shr_iter_inv m p : 0 <= m -> shr_inv m (Zpos p) (iter_pos shr_1 p (Build_shr_record m false false)).
Proof.
  intro H. rewrite iter_pos_eq. induction p as [|p IH] using Pos.peano_ind.
  - now apply shr_1_inv0.
  - rewrite Pos.iter_succ, Pos2Z.inj_succ. apply shr_1_inv; [lia|assumption].
Qed.
Lemma shr_round m n : 0 <= m -> 0 <= n ->
  let r := fst (shr (Build_shr_record m false false) 0 n) in
  round_nearest_even (shr_m r) (loc_of_shr_record r) = rne m n.
Proof.
  intros H Hn. destruct n as [|p|p]; [| |lia].
  - cbn. unfold rne. change (2 ^ 0) with 1. rewrite Z.div_1_r, Z.mod_1_r. reflexivity.
  - cbn [shr fst]. destruct (shr_iter_inv m p H) as [H0 [rest (H1 & H2 & H3)]].
    set (r := iter_pos _ _ _) in *. destruct r as [q b s]. cbn [shr_m shr_r shr_s] in *.
    set (n := Zpos p) in *.
    assert (E2 : 2 ^ n = 2 * 2 ^ (n - 1)) by (replace n with (Z.succ (n - 1)) at 1 by lia; rewrite Z.pow_succ_r by lia; reflexivity).
    unfold rne.
    assert (Q : m / 2 ^ n = q /\ m mod 2 ^ n = Z.b2z b * 2 ^ (n - 1) + rest).
    { rewrite H1. assert (0 <= Z.b2z b * 2 ^ (n - 1) + rest < 2 ^ n) by (destruct b; cbn [Z.b2z]; lia).
      split; symmetry.
      - apply Z.div_unique with (Z.b2z b * 2 ^ (n - 1) + rest); lia.
      - apply Z.mod_unique with q; lia. }
    destruct Q as [-> ->]. subst s. unfold loc_of_shr_record. cbn [shr_m shr_r shr_s].
    destruct b; cbn [Z.b2z]; destruct (0 <? rest) eqn:R; cbn [round_nearest_even];
      destruct (2 * _ <? 2 ^ n) eqn:A; try lia; destruct (2 ^ n <? 2 * _) eqn:B; try lia; reflexivity.
Qed.

Lemma rne_bounds m n : 0 <= m -> 0 <= n -> m - 2 ^ n / 2 <= rne m n * 2 ^ n <= m + 2 ^ n / 2.
Proof.
  intros Hm Hn. unfold rne. pose proof (Z.pow_pos_nonneg 2 n ltac:(lia) Hn) as P.
  pose proof (Z.div_mod m (2 ^ n) ltac:(lia)) as D. pose proof (Z.mod_pos_bound m (2 ^ n) P) as B.
  set (q := m / 2 ^ n) in *. set (r := m mod 2 ^ n) in *.
  assert (H2 : 2 * (2 ^ n / 2) = 2 ^ n \/ 2 ^ n = 1).
  { destruct (Z.eq_dec n 0) as [->|]; [right; reflexivity|left]. replace n with (Z.succ (n - 1)) by lia.
    rewrite Z.pow_succ_r by lia. rewrite (Z.mul_comm 2 (2 ^ (n - 1))), Z.div_mul by lia. lia. }
  destruct (2 * r <? 2 ^ n) eqn:A; [|destruct (2 ^ n <? 2 * r) eqn:C; [|destruct (Z.even q)]]; 
    destruct H2 as [H2|H2]; try rewrite H2 in *; try change (1 / 2) with 0; nia.
Qed.
Lemma rne_mono m1 m2 n : 0 <= n -> 0 <= m1 <= m2 -> rne m1 n <= rne m2 n.
Proof.
  intros Hn Hm. unfold rne. pose proof (Z.pow_pos_nonneg 2 n ltac:(lia) Hn) as P.
  pose proof (Z.div_mod m1 (2 ^ n) ltac:(lia)) as D1. pose proof (Z.mod_pos_bound m1 (2 ^ n) P) as B1.
  pose proof (Z.div_mod m2 (2 ^ n) ltac:(lia)) as D2. pose proof (Z.mod_pos_bound m2 (2 ^ n) P) as B2.
  set (q1 := m1 / 2 ^ n) in *. set (r1 := m1 mod 2 ^ n) in *. set (q2 := m2 / 2 ^ n) in *. set (r2 := m2 mod 2 ^ n) in *.
  assert (q1 < q2 \/ q1 = q2 /\ r1 <= r2) as [Q|[Q R]] by nia.
  - destruct (2 * r1 <? 2 ^ n), (2 ^ n <? 2 * r1), (Z.even q1), (2 * r2 <? 2 ^ n), (2 ^ n <? 2 * r2), (Z.even q2); lia.
  - rewrite <- Q. destruct (2 * r1 <? 2 ^ n) eqn:X1, (2 ^ n <? 2 * r1) eqn:X2, (Z.even q1), (2 * r2 <? 2 ^ n) eqn:X3, (2 ^ n <? 2 * r2) eqn:X4; lia.
Qed.
Lemma rne_scale m n k : 0 <= n -> 0 <= k -> rne (m * 2 ^ k) (n + k) = rne m n.
Proof.
  intros Hn Hk. unfold rne. pose proof (Z.pow_pos_nonneg 2 n ltac:(lia) Hn) as P. pose proof (Z.pow_pos_nonneg 2 k ltac:(lia) Hk) as P2.
  rewrite Z.pow_add_r by lia. rewrite Z.div_mul_cancel_r, Z.mul_mod_distr_r by lia.
  replace (2 * (m mod 2 ^ n * 2 ^ k)) with ((2 * (m mod 2 ^ n)) * 2 ^ k) by ring.
  assert (E : forall a b, (a * 2 ^ k <? b * 2 ^ k) = (a <? b)) by (intros a b; destruct (a <? b) eqn:X; [apply Z.ltb_lt|apply Z.ltb_ge]; nia).
  now rewrite !E.
Qed.
Lemma rne_exact q n : 0 <= n -> rne (q * 2 ^ n) n = q.
Proof.
  intro Hn. unfold rne. pose proof (Z.pow_pos_nonneg 2 n ltac:(lia) Hn) as P.
  rewrite Z.div_mul, Z.mod_mul by lia. destruct (2 * 0 <? 2 ^ n) eqn:E; lia.
Qed.

(** ** Exponent after rounding *)
Definition emin64 : Z := -1074.
Definition nexp (m e : Z) : Z := Z.max e (Z.max (Z.log2 m + 1 + e - 53) emin64).

Lemma shr_fst mrs e n : fst (shr mrs e n) = fst (shr mrs 0 n).
Proof. destruct n; reflexivity. Qed.
Lemma shr_snd mrs e n : snd (shr mrs e n) = Z.max e (e + n).
Proof. destruct n; cbn; lia. Qed.
Lemma shr_shr mrs n : n <= 0 -> fst (shr mrs 0 n) = mrs.
Proof. destruct n; try lia; reflexivity. Qed.

(** Rounding a positive m * 2^e: same value as [rne m n * 2^e'] with e' = nexp m e, n = e' - e. *)
Lemma round_aux_spec s m e : 0 < m -> nexp m e + 1 <= 971 ->
  let e' := nexp m e in let q := rne m (e' - e) in
  0 <= q <= 2 ^ 53 /\
  match binary_round_aux f64_prec f64_emax s m e loc_Exact with
  | S754_zero s' => s' = s /\ q = 0
  | S754_finite s' m' e'' => s' = s /\ e' <= e'' <= e' + 1 /\ Zpos m' * 2 ^ (e'' - e') = q /\ Z.log2 (Zpos m') <= 52
  | _ => False
  end.
Proof.
  intros Hm He e' q. subst e' q. set (e' := nexp m e) in *. set (n := e' - e).
  assert (Hn : 0 <= n) by (unfold n, e', nexp; lia).
  pose proof (Z.log2_spec m Hm) as HL. set (lg := Z.log2 m) in *. pose proof (Z.log2_nonneg m) as HL0. fold lg in HL0.
  assert (HLn : lg + 1 - n <= 53) by (unfold n, e', nexp; fold lg; lia).
  assert (Hq : 0 <= rne m n <= 2 ^ 53).
  { pose proof (rne_mono 0 m n Hn ltac:(lia)) as X. replace (rne 0 n) with 0 in X
      by (symmetry; pose proof (rne_exact 0 n Hn) as Y; rewrite Z.mul_0_l in Y; exact Y).
    split; [exact X|]. destruct (Z.le_gt_cases (lg + 1) n).
    - pose proof (rne_mono m (1 * 2 ^ n) n Hn) as Y. rewrite rne_exact in Y by assumption.
      assert (2 ^ (Z.succ lg) <= 2 ^ n) by (apply Z.pow_le_mono_r; lia). specialize (Y ltac:(lia)). 
      assert (1 <= 2 ^ 53) by (vm_compute; congruence). lia.
    - pose proof (rne_mono m (2 ^ (lg + 1 - n) * 2 ^ n) n Hn) as Y. rewrite rne_exact in Y by assumption.
      rewrite <- Z.pow_add_r in Y by lia. replace (lg + 1 - n + n) with (Z.succ lg) in Y by lia. specialize (Y ltac:(lia)).
      assert (2 ^ (lg + 1 - n) <= 2 ^ 53) by (apply Z.pow_le_mono_r; lia). lia. }
  split; [exact Hq|].
  unfold binary_round_aux, shr_fexp. cbn [shr_record_of_loc]. rewrite (Zdigits2_log2 m Hm). fold lg.
  set (n0 := fexp f64_prec f64_emax (lg + 1 + e) - e).
  assert (Hn0 : n = Z.max 0 n0).
  { unfold n, e', nexp, n0, fexp, emin, emin64, f64_prec, f64_emax. fold lg. lia. }
  assert (F : fst (shr (Build_shr_record m false false) e n0) = fst (shr (Build_shr_record m false false) 0 n)).
  { rewrite shr_fst. destruct (Z.le_gt_cases n0 0); [rewrite !shr_shr by lia; reflexivity|]. replace n with n0 by lia. reflexivity. }
  assert (G : snd (shr (Build_shr_record m false false) e n0) = e').
  { rewrite shr_snd. unfold n in Hn0. lia. }
  destruct (shr (Build_shr_record m false false) e n0) as [r1 e1]. cbn [fst snd] in F, G. subst e1.
  assert (RR : round_nearest_even (shr_m r1) (loc_of_shr_record r1) = rne m n) by (rewrite F; apply shr_round; lia).
  rewrite RR. set (q := rne m n) in *.
  destruct (Z.eq_dec q 0) as [Q0|Q0].
  - rewrite Q0. cbn [Zdigits2].
    assert (N : fexp f64_prec f64_emax (0 + e') - e' <= 0) by (unfold fexp, emin, f64_prec, f64_emax; unfold e', nexp, emin64; lia).
    destruct (fexp f64_prec f64_emax (0 + e') - e'); try lia; cbn [shr shr_m]; auto.
  - assert (Qp : 0 < q) by lia. rewrite (Zdigits2_log2 q Qp).
    pose proof (Z.log2_spec q Qp) as QL. set (lq := Z.log2 q) in *.
    assert (LQ : 0 <= lq) by apply Z.log2_nonneg.
    set (n2 := fexp f64_prec f64_emax (lq + 1 + e') - e').
    assert (B53 : lq <= 53).
    { destruct (Z.le_gt_cases lq 53); [assumption|]. assert (2 ^ 54 <= 2 ^ lq) by (apply Z.pow_le_mono_r; lia).
      change (2 ^ 54) with (2 * 2 ^ 53) in *. lia. }
    assert (N2 : n2 <= 0 /\ lq <= 52 \/ n2 = 1 /\ lq = 53).
    { unfold n2, fexp, emin, f64_prec, f64_emax. assert (emin64 <= e') by (unfold e', nexp; lia). unfold emin64 in *. lia. }
    destruct N2 as [[N2 L52]|[N2 L53]].
    + assert (X : shr (shr_record_of_loc q loc_Exact) e' n2 = (Build_shr_record q false false, e')).
      { cbn [shr_record_of_loc]. destruct n2; try lia; reflexivity. }
      cbn [shr_record_of_loc] in X. rewrite X. cbn [shr_m]. destruct q as [|q'|q']; try lia.
      replace (e' <=? f64_emax - f64_prec) with true by (unfold f64_emax, f64_prec; lia).
      split; [reflexivity|]. split; [lia|]. rewrite Z.sub_diag. change (2 ^ 0) with 1. split; [lia|exact L52].
    + assert (q = 2 ^ 53) as Q53 by (rewrite L53 in QL; lia). rewrite N2, Q53.
      change (shr {| shr_m := 2 ^ 53; shr_r := false; shr_s := false |} e' 1)
        with (shr_1 {| shr_m := 2 ^ 53; shr_r := false; shr_s := false |}, e' + 1).
      change (shr_1 {| shr_m := 2 ^ 53; shr_r := false; shr_s := false |}) with {| shr_m := 4503599627370496; shr_r := false; shr_s := false |}.
      cbn [shr_m].
      replace (e' + 1 <=? f64_emax - f64_prec) with true by (unfold f64_emax, f64_prec; lia).
      split; [reflexivity|]. split; [lia|]. replace (e' + 1 - e') with 1 by lia. split; [reflexivity|]. vm_compute. congruence.
Qed.

(** ** Monotonicity of rounding; values are compared scaled by 2^K *)
Definition rv (K m e : Z) : Z := rne m (nexp m e - e) * 2 ^ (nexp m e + K).

Lemma rv_at K m e E : 0 <= e + K -> e <= E -> rne m (E - e) = rne (m * 2 ^ (e + K)) (E + K).
Proof. intros H1 H2. rewrite <- (rne_scale m (E - e) (e + K)) by lia. f_equal. lia. Qed.

Lemma rv_mono K m1 e1 m2 e2 : 0 < m1 -> 0 < m2 -> 0 <= e1 + K -> 0 <= e2 + K ->
  m1 * 2 ^ (e1 + K) <= m2 * 2 ^ (e2 + K) -> rv K m1 e1 <= rv K m2 e2.
Proof.
  intros P1 P2 K1 K2 H. unfold rv.
  set (E1 := nexp m1 e1). set (E2 := nexp m2 e2).
  assert (A1 : e1 <= E1 /\ emin64 <= E1) by (unfold E1, nexp; lia).
  assert (A2 : e2 <= E2 /\ emin64 <= E2) by (unfold E2, nexp; lia).
  rewrite (rv_at K m1 e1 E1), (rv_at K m2 e2 E2) by lia.
  set (x1 := m1 * 2 ^ (e1 + K)) in *. set (x2 := m2 * 2 ^ (e2 + K)) in *.
  pose proof (Z.pow_pos_nonneg 2 (e1 + K) ltac:(lia) K1) as W1. pose proof (Z.pow_pos_nonneg 2 (e2 + K) ltac:(lia) K2) as W2.
  assert (X1 : 0 < x1) by (unfold x1; nia). 
  pose proof (Z.log2_spec m1 P1) as L1. pose proof (Z.log2_spec m2 P2) as L2.
  pose proof (Z.log2_nonneg m1) as N1. pose proof (Z.log2_nonneg m2) as N2.
  assert (Low : forall m e, 0 < m -> 0 <= e + K -> 2 ^ (Z.log2 m + e + K) <= m * 2 ^ (e + K)).
  { intros m e Pm Ke. pose proof (Z.log2_spec m Pm). pose proof (Z.log2_nonneg m).
    replace (Z.log2 m + e + K) with (Z.log2 m + (e + K)) by lia. rewrite Z.pow_add_r by lia. 
    pose proof (Z.pow_pos_nonneg 2 (e + K) ltac:(lia) Ke). nia. }
  assert (High : forall m e, 0 < m -> 0 <= e + K -> m * 2 ^ (e + K) < 2 ^ (Z.log2 m + 1 + e + K)).
  { intros m e Pm Ke. pose proof (Z.log2_spec m Pm). pose proof (Z.log2_nonneg m).
    replace (Z.log2 m + 1 + e + K) with (Z.succ (Z.log2 m) + (e + K)) by lia. rewrite (Z.pow_add_r 2 (Z.succ (Z.log2 m))) by lia.
    pose proof (Z.pow_pos_nonneg 2 (e + K) ltac:(lia) Ke). nia. }
  destruct (Z.lt_trichotomy E1 E2) as [Lt|[Eq|Gt]].
  - (* E1 < E2 *)
    assert (C : E2 = e2 \/ E2 = Z.log2 m2 + 1 + e2 - 53) by (unfold E2, nexp in *; lia).
    destruct C as [C|C].
    + assert (Y : x2 = (m2 * 2 ^ (e2 - E1)) * 2 ^ (E1 + K)).
      { unfold x2. rewrite <- Z.mul_assoc, <- (Z.pow_add_r 2 (e2 - E1)) by lia. do 2 f_equal. lia. }
      transitivity (rne x2 (E1 + K) * 2 ^ (E1 + K)).
      * apply Z.mul_le_mono_nonneg_r; [apply Z.pow_nonneg; lia|]. apply rne_mono; lia.
      * rewrite Y at 1. rewrite rne_exact by lia. rewrite <- Y. rewrite C. unfold x2. rewrite rne_exact by lia. lia.
    + assert (Q1 : rne x1 (E1 + K) <= 2 ^ 53).
      { transitivity (rne (2 ^ 53 * 2 ^ (E1 + K)) (E1 + K)); [|rewrite rne_exact by lia; lia].
        apply rne_mono; [lia|]. split; [lia|]. rewrite <- Z.pow_add_r by lia.
        pose proof (High m1 e1 P1 K1) as Hh. fold x1 in Hh.
        assert (2 ^ (Z.log2 m1 + 1 + e1 + K) <= 2 ^ (53 + (E1 + K))) by (apply Z.pow_le_mono_r; unfold E1, nexp; lia). lia. }
      assert (Q2 : 2 ^ 52 <= rne x2 (E2 + K)).
      { transitivity (rne (2 ^ 52 * 2 ^ (E2 + K)) (E2 + K)); [rewrite rne_exact by lia; lia|].
        apply rne_mono; [lia|]. split; [apply Z.mul_nonneg_nonneg; apply Z.pow_nonneg; lia|]. rewrite <- Z.pow_add_r by lia.
        pose proof (Low m2 e2 P2 K2) as Hh. fold x2 in Hh. replace (52 + (E2 + K)) with (Z.log2 m2 + e2 + K) by lia. exact Hh. }
      assert (2 ^ 53 * 2 ^ (E1 + K) <= 2 ^ 52 * 2 ^ (E2 + K)).
      { rewrite <- !Z.pow_add_r by lia. apply Z.pow_le_mono_r; lia. }
      pose proof (Z.pow_pos_nonneg 2 (E1 + K) ltac:(lia) ltac:(lia)). pose proof (Z.pow_pos_nonneg 2 (E2 + K) ltac:(lia) ltac:(lia)). nia.
  - rewrite <- Eq. apply Z.mul_le_mono_nonneg_r; [apply Z.pow_nonneg; lia|]. apply rne_mono; lia.
  - assert (C : E1 = e1 \/ E1 = Z.log2 m1 + 1 + e1 - 53) by (unfold E1, nexp in *; lia).
    destruct C as [C|C].
    + assert (Y : x1 = (m1 * 2 ^ (e1 - E2)) * 2 ^ (E2 + K)).
      { unfold x1. rewrite <- Z.mul_assoc, <- (Z.pow_add_r 2 (e1 - E2)) by lia. do 2 f_equal. lia. }
      transitivity (rne x1 (E2 + K) * 2 ^ (E2 + K)).
      * rewrite Y at 2. rewrite rne_exact by lia. rewrite <- Y. rewrite C. unfold x1. rewrite rne_exact by lia. lia.
      * apply Z.mul_le_mono_nonneg_r; [apply Z.pow_nonneg; lia|]. apply rne_mono; lia.
    + exfalso. pose proof (Low m1 e1 P1 K1) as Hl. pose proof (High m2 e2 P2 K2) as Hh. fold x1 in Hl. fold x2 in Hh.
      assert (2 ^ (Z.log2 m2 + 1 + e2 + K) <= 2 ^ (Z.log2 m1 + e1 + K)); [|lia].
      apply Z.pow_le_mono_r; [lia|]. unfold E2, nexp in *. lia.
Qed.
Lemma rv_eq K m1 e1 m2 e2 : 0 < m1 -> 0 < m2 -> 0 <= e1 + K -> 0 <= e2 + K ->
  m1 * 2 ^ (e1 + K) = m2 * 2 ^ (e2 + K) -> rv K m1 e1 = rv K m2 e2.
Proof. intros. apply Z.le_antisymm; apply rv_mono; lia. Qed.

(** ** Non-negative floats and their scaled value *)
Definition KS : Z := 3000.
Definition fv (f : f64) : Z := match f with S754_finite false m e => Zpos m * 2 ^ (e + KS) | _ => 0 end.
(** zero, or positive below 2^B *)
Definition nonneg (B : Z) (f : f64) : Prop :=
  match f with
  | S754_zero _ => True
  | S754_finite false m e => emin64 <= e /\ Z.log2 (Zpos m) + e < B /\ Z.log2 (Zpos m) <= 52
  | _ => False
  end.
Definition nonnegb (B : Z) (f : f64) : bool :=
  match f with
  | S754_zero _ => true
  | S754_finite false m e => (emin64 <=? e) && (Z.log2 (Zpos m) + e <? B) && (Z.log2 (Zpos m) <=? 52)
  | _ => false
  end.
Lemma nonnegb_spec B f : nonnegb B f = true -> nonneg B f.
Proof. destruct f as [| | |[] m e]; simpl; try discriminate; auto. intro H. lia. Qed.
Lemma nonneg_le B B' f : nonneg B f -> B <= B' -> nonneg B' f.
Proof. destruct f as [| | |[] m e]; simpl; auto. lia. Qed.

Lemma round_pos m e B : 0 < m -> -2200 <= e -> Z.log2 m + e < B -> 0 <= B <= 900 ->
  let f := binary_round_aux f64_prec f64_emax false m e loc_Exact in
  nonneg (B + 1) f /\ fv f = rv KS m e.
Proof.
  intros Hm He HB HB9 f. assert (X : nexp m e + 1 <= 971) by (unfold nexp, emin64; pose proof (Z.log2_nonneg m); lia).
  destruct (round_aux_spec false m e Hm X) as [Q R]. fold f in R. unfold rv.
  assert (EM : emin64 <= nexp m e) by (unfold nexp; lia).
  destruct f as [s'| | |s' m' e''] eqn:F; try contradiction.
  - destruct R as [-> R]. cbn [nonneg fv]. split; [exact I|]. rewrite R. lia.
  - destruct R as (-> & E & V & L52). cbn [nonneg fv].
    split; [|rewrite <- V, <- Z.mul_assoc, <- Z.pow_add_r by (unfold KS, emin64 in *; lia); do 2 f_equal; lia].
    split; [lia|]. split; [|exact L52].
    pose proof (Z.log2_spec (Zpos m') ltac:(lia)) as LS. pose proof (Z.log2_nonneg (Zpos m')) as LN.
    destruct (Z.le_gt_cases (B + 1) (Z.log2 (Zpos m') + e'')) as [C|C]; [exfalso|lia].
    assert (V' : Zpos m' * 2 ^ (e'' + KS) = rv KS m e).
    { unfold rv. rewrite <- V, <- Z.mul_assoc, <- Z.pow_add_r by (unfold KS, emin64 in *; lia). do 2 f_equal. lia. }
    assert (M : rv KS m e <= rv KS 1 B).
    { apply rv_mono; try lia; try (unfold KS; lia). rewrite Z.mul_1_l. 
      pose proof (Z.log2_spec m Hm). pose proof (Z.log2_nonneg m).
      apply Z.lt_le_incl. apply Z.lt_le_trans with (2 ^ (Z.succ (Z.log2 m) + (e + KS))).
      - rewrite (Z.pow_add_r 2 (Z.succ (Z.log2 m))) by (unfold KS; lia). pose proof (Z.pow_pos_nonneg 2 (e + KS) ltac:(lia) ltac:(unfold KS; lia)). nia.
      - apply Z.pow_le_mono_r; lia. }
    assert (R1 : rv KS 1 B = 2 ^ (B + KS)).
    { unfold rv. replace (nexp 1 B) with B by (unfold nexp, emin64; change (Z.log2 1) with 0; lia). rewrite Z.sub_diag.
      change (rne 1 0) with 1. lia. }
    assert (2 ^ (B + 1 + KS) <= Zpos m' * 2 ^ (e'' + KS)).
    { apply Z.le_trans with (2 ^ (Z.log2 (Zpos m') + (e'' + KS))); [apply Z.pow_le_mono_r; lia|].
      rewrite (Z.pow_add_r 2 (Z.log2 (Zpos m'))) by (unfold KS, emin64 in *; lia). pose proof (Z.pow_pos_nonneg 2 (e'' + KS) ltac:(lia) ltac:(unfold KS, emin64 in *; lia)). nia. }
    assert (2 ^ (B + 1 + KS) = 2 * 2 ^ (B + KS)) by (replace (B + 1 + KS) with (Z.succ (B + KS)) by lia; rewrite Z.pow_succ_r by (unfold KS; lia); reflexivity).
    pose proof (Z.pow_pos_nonneg 2 (B + KS) ltac:(lia) ltac:(unfold KS; lia)). lia.
Qed.

Lemma fmul_spec B1 B2 x y : nonneg B1 x -> nonneg B2 y -> 0 <= B1 + B2 <= 890 ->
  nonneg (B1 + B2 + 2) (fmul x y) /\
  fv (fmul x y) = match x, y with S754_finite _ m1 e1, S754_finite _ m2 e2 => rv KS (Zpos m1 * Zpos m2) (e1 + e2) | _, _ => 0 end.
Proof.
  intros H1 H2 HB. unfold fmul. destruct x as [s1| | |[] m1 e1]; try contradiction; destruct y as [s2| | |[] m2 e2]; try contradiction; cbn [SFmul]; try (split; [exact I|reflexivity]).
  cbn [nonneg] in H1, H2. change (xorb false false) with false.
  assert (LL : Z.log2 (Zpos m1 * Zpos m2) <= Z.log2 (Zpos m1) + Z.log2 (Zpos m2) + 1) by (apply Z.log2_mul_above; lia).
  destruct (round_pos (Zpos m1 * Zpos m2) (e1 + e2) (B1 + B2) ltac:(lia)) as [R1 R2]; unfold emin64 in *; try lia.
  rewrite Pos2Z.inj_mul. split; [apply (nonneg_le (B1 + B2 + 1)); [exact R1|lia]|exact R2].
Qed.
Lemma fv_nonneg f : 0 <= fv f.
Proof. destruct f as [| | |[] m e]; cbn [fv]; try apply Z.le_refl. apply Z.mul_nonneg_nonneg; [lia|]. apply Z.pow_nonneg. lia. Qed.
Lemma rv_nonneg K m e : 0 <= m -> 0 <= rv K m e.
Proof.
  intro H. unfold rv. apply Z.mul_nonneg_nonneg; [|apply Z.pow_nonneg; lia].
  assert (N : 0 <= nexp m e - e) by (unfold nexp; lia).
  pose proof (rne_mono 0 m _ N ltac:(lia)) as X. pose proof (rne_exact 0 _ N) as Y. rewrite Z.mul_0_l in Y. lia.
Qed.
Lemma fmul_mono B1 B2 x x' y : nonneg B1 x -> nonneg B1 x' -> nonneg B2 y -> 0 <= B1 + B2 <= 890 ->
  fv x <= fv x' -> fv (fmul x y) <= fv (fmul x' y).
Proof.
  intros H1 H1' H2 HB H.
  destruct (fmul_spec B1 B2 x y H1 H2 HB) as [_ ->]. destruct (fmul_spec B1 B2 x' y H1' H2 HB) as [_ ->].
  destruct x as [s1| | |[] m1 e1]; try contradiction; destruct x' as [s1'| | |[] m1' e1']; try contradiction;
  destruct y as [s2| | |[] m2 e2]; try contradiction; try lia; try (apply rv_nonneg; lia); cbn [nonneg fv] in *; unfold emin64, KS in *.
  - exfalso. pose proof (Z.pow_pos_nonneg 2 (e1 + 3000) ltac:(lia) ltac:(lia)). nia.
  - apply rv_mono; try lia.
    replace (e1 + e2 + 3000) with ((e1 + 3000) + e2) by lia. replace (e1' + e2 + 3000) with ((e1' + 3000) + e2) by lia.
    destruct (Z.le_gt_cases 0 e2).
    + rewrite (Z.pow_add_r 2 (e1 + 3000) e2), (Z.pow_add_r 2 (e1' + 3000) e2) by lia.
      pose proof (Z.pow_pos_nonneg 2 e2 ltac:(lia) ltac:(lia)) as PP.
      set (u := 2 ^ (e1 + 3000)) in *. set (v := 2 ^ (e1' + 3000)) in *.
      pose proof (Z.mul_le_mono_nonneg_r _ _ (Zpos m2 * 2 ^ e2) ltac:(lia) H) as HH. lia.
    + replace (e1 + 3000) with ((e1 + 3000 + e2) + (- e2)) in H by lia. replace (e1' + 3000) with ((e1' + 3000 + e2) + (- e2)) in H by lia.
      rewrite (Z.pow_add_r 2 (e1 + 3000 + e2) (- e2)), (Z.pow_add_r 2 (e1' + 3000 + e2) (- e2)) in H by lia.
      pose proof (Z.pow_pos_nonneg 2 (- e2) ltac:(lia) ltac:(lia)) as PP.
      set (u := 2 ^ (e1 + 3000 + e2)) in *. set (v := 2 ^ (e1' + 3000 + e2)) in *. set (w := 2 ^ (- e2)) in *.
      assert (H' : Zpos m1 * u <= Zpos m1' * v) by nia.
      pose proof (Z.mul_le_mono_nonneg_r _ _ (Zpos m2) ltac:(lia) H') as HH. lia.
Qed.
Lemma fmul_mono_r B1 B2 x y y' : nonneg B1 x -> nonneg B2 y -> nonneg B2 y' -> 0 <= B1 + B2 <= 890 ->
  fv y <= fv y' -> fv (fmul x y) <= fv (fmul x y').
Proof.
  intros H1 H2 H2' HB H.
  destruct (fmul_spec B1 B2 x y H1 H2 HB) as [_ E1]. destruct (fmul_spec B1 B2 x y' H1 H2' HB) as [_ E2].
  pose proof (fmul_mono B2 B1 y y' x H2 H2' H1 ltac:(lia) H) as X.
  destruct (fmul_spec B2 B1 y x H2 H1 ltac:(lia)) as [_ E3]. destruct (fmul_spec B2 B1 y' x H2' H1 ltac:(lia)) as [_ E4].
  rewrite E1, E2. rewrite E3, E4 in X.
  destruct x as [s1| | |[] m1 e1]; try contradiction; destruct y as [s1'| | |[] m1' e1']; try contradiction;
  destruct y' as [s2| | |[] m2 e2]; try contradiction; try lia; rewrite ?(Z.mul_comm (Zpos m1)), ?(Z.add_comm e1); exact X.
Qed.

(** Addition *)
Lemma shift_pos_eq d m : Zpos (shift_pos d m) = Zpos m * 2 ^ Zpos d.
Proof.
  unfold shift_pos. induction d as [|d IH] using Pos.peano_ind; [simpl; lia|].
  rewrite Pos.iter_succ, Pos2Z.inj_succ, Z.pow_succ_r by lia. rewrite Pos2Z.inj_xO, IH. lia.
Qed.
Lemma shl_align_eq m e e' : let '(m', e'') := shl_align m e e' in
  e'' = Z.min e e' /\ Zpos m' = Zpos m * 2 ^ (e - e'').
Proof.
  unfold shl_align. destruct (e' - e) as [|d|d] eqn:E.
  - split; [lia|]. rewrite Z.sub_diag. change (2 ^ 0) with 1. lia.
  - split; [lia|]. rewrite Z.sub_diag. change (2 ^ 0) with 1. lia.
  - split; [lia|]. rewrite shift_pos_eq. do 2 f_equal. lia.
Qed.
Lemma log2_lt m e B : 0 < m -> 0 <= e + KS -> 0 <= B + KS -> (Z.log2 m + e < B <-> m * 2 ^ (e + KS) < 2 ^ (B + KS)).
Proof.
  intros Hm He HB. pose proof (Z.log2_spec m Hm) as L. pose proof (Z.log2_nonneg m) as L0.
  pose proof (Z.pow_pos_nonneg 2 (e + KS) ltac:(lia) He) as P. split; intro H.
  - apply Z.lt_le_trans with (2 ^ (Z.succ (Z.log2 m) + (e + KS))); [|apply Z.pow_le_mono_r; lia].
    rewrite (Z.pow_add_r 2 (Z.succ (Z.log2 m))) by lia. nia.
  - apply Z.nle_gt. intro C. assert (2 ^ (B + KS) <= 2 ^ (Z.log2 m + (e + KS))) by (apply Z.pow_le_mono_r; lia).
    rewrite (Z.pow_add_r 2 (Z.log2 m)) in H0 by lia. nia.
Qed.
(** canonical floats are fixed by rounding *)
Lemma rv_canon B m e : nonneg B (S754_finite false m e) -> rv KS (Zpos m) e = Zpos m * 2 ^ (e + KS).
Proof.
  intros (H1 & H2 & H3). unfold rv. replace (nexp (Zpos m) e) with e by (unfold nexp, emin64 in *; lia).
  rewrite Z.sub_diag. pose proof (rne_exact (Zpos m) 0 ltac:(lia)) as X. change (2 ^ 0) with 1 in X. rewrite Z.mul_1_r in X. now rewrite X.
Qed.
Lemma round_spec m e B : -1074 <= e -> Z.log2 (Zpos m) + e < B -> 0 <= B <= 900 ->
  let f := binary_round f64_prec f64_emax false m e in nonneg (B + 1) f /\ fv f = rv KS (Zpos m) e.
Proof.
  intros He HL HB. unfold binary_round. pose proof (shl_align_eq m e (fexp f64_prec f64_emax (Zpos (digits2_pos m) + e))) as S.
  destruct (shl_align _ _ _) as [mz ez]. destruct S as [S1 S2]. cbv zeta.
  assert (Ez : -2200 <= ez).
  { rewrite S1. unfold fexp, emin, f64_prec, f64_emax. lia. }
  assert (V : Zpos mz * 2 ^ (ez + KS) = Zpos m * 2 ^ (e + KS)).
  { rewrite S2, <- Z.mul_assoc, <- (Z.pow_add_r 2 (e - ez)) by (unfold KS; lia). do 2 f_equal. lia. }
  destruct (round_pos (Zpos mz) ez B ltac:(lia) Ez) as [R1 R2]; [|lia|].
  - apply log2_lt; try (unfold KS; lia). rewrite V. apply log2_lt; try (unfold KS; lia). 
  - split; [exact R1|]. rewrite R2. apply rv_eq; try lia; unfold KS; lia.
Qed.
Lemma fadd_spec B x y m e : nonneg B x -> nonneg B y -> 0 <= B <= 800 -> 0 < m -> 0 <= e + KS -> m * 2 ^ (e + KS) = fv x + fv y ->
  nonneg (B + 2) (fadd x y) /\ fv (fadd x y) = rv KS m e.
Proof.
  intros H1 H2 HB Hm He HV. unfold fadd.
  assert (Canon : forall m1 e1, nonneg B (S754_finite false m1 e1) -> m * 2 ^ (e + KS) = Zpos m1 * 2 ^ (e1 + KS) ->
    nonneg (B + 2) (S754_finite false m1 e1) /\ fv (S754_finite false m1 e1) = rv KS m e).
  { intros m1 e1 N E. split; [apply (nonneg_le B); [exact N|lia]|]. cbn [fv]. rewrite <- (rv_canon B) by exact N.
    destruct N as (N1 & N2 & N3). apply rv_eq; try lia. unfold KS, emin64 in *. lia. }
  destruct x as [s1| | |[] m1 e1]; try contradiction; destruct y as [s2| | |[] m2 e2]; try contradiction; cbn [SFadd fv] in *.
  - exfalso. pose proof (Z.pow_pos_nonneg 2 (e + KS) ltac:(lia) He). nia.
  - apply Canon; [exact H2|lia].
  - apply Canon; [exact H1|lia].
  - set (ez := Z.min e1 e2).
    pose proof (shl_align_eq m1 e1 ez) as S1. pose proof (shl_align_eq m2 e2 ez) as S2.
    destruct (shl_align m1 e1 ez) as [m1' e1']. destruct (shl_align m2 e2 ez) as [m2' e2']. cbn [fst cond_Zopp].
    destruct S1 as [S1 V1]. destruct S2 as [S2 V2]. cbn [nonneg] in H1, H2. unfold emin64 in *.
    assert (e1' = ez /\ e2' = ez) as [-> ->] by (unfold ez in *; lia).
    cbn [binary_normalize Z.add].
    assert (Sum : Zpos (m1' + m2') * 2 ^ (ez + KS) = fv (S754_finite false m1 e1) + fv (S754_finite false m2 e2)).
    { cbn [fv]. rewrite Pos2Z.inj_add, V1, V2, Z.mul_add_distr_r, <- !Z.mul_assoc, <- (Z.pow_add_r 2 (e1 - ez)), <- (Z.pow_add_r 2 (e2 - ez)) by (unfold KS, ez; lia).
      do 3 f_equal; lia. }
    cbn [fv] in Sum.
    assert (LB : Z.log2 (Zpos (m1' + m2')) + ez < B + 1).
    { apply log2_lt; try (unfold KS, ez; lia). rewrite Sum. 
      destruct H1 as (H11 & H12 & H13). destruct H2 as (H21 & H22 & H23).
      apply log2_lt in H12; [|lia|unfold KS; lia..]. apply log2_lt in H22; [|lia|unfold KS; lia..].
      replace (B + 1 + KS) with (Z.succ (B + KS)) by lia. rewrite Z.pow_succ_r by (unfold KS; lia). lia. }
    destruct (round_spec (m1' + m2') ez (B + 1)) as [R1 R2]; try (unfold ez; lia); try lia.
    split; [apply (nonneg_le (B + 1 + 1)); [exact R1|lia]|]. rewrite R2. apply rv_eq; try lia; unfold KS, ez; lia.
Qed.
Lemma nonneg_fv_pos B x : nonneg B x -> fv x = 0 \/ exists m e, 0 < m /\ -1074 <= e /\ m * 2 ^ (e + KS) = fv x.
Proof.
  destruct x as [| | |[] m e]; try contradiction; [left; reflexivity|]. intros (H1 & H2 & H3). right. exists (Zpos m), e. 
  unfold emin64 in *. repeat split; lia.
Qed.
Lemma nonneg_sum B x y : nonneg B x -> nonneg B y ->
  fv x + fv y = 0 \/ exists m e, 0 < m /\ 0 <= e + KS /\ m * 2 ^ (e + KS) = fv x + fv y.
Proof.
  intros H1 H2. pose proof (fv_nonneg x). pose proof (fv_nonneg y).
  destruct (Z.eq_dec (fv x + fv y) 0) as [E|E]; [left; exact E|right]. exists (fv x + fv y), (- KS).
  replace (- KS + KS) with 0 by lia. change (2 ^ 0) with 1. lia.
Qed.
Lemma fadd_mono B x x' y : nonneg B x -> nonneg B x' -> nonneg B y -> 0 <= B <= 800 -> 0 < fv y ->
  fv x <= fv x' -> fv (fadd x y) <= fv (fadd x' y).
Proof.
  intros H1 H1' H2 HB Hy H.
  destruct (nonneg_sum B x y H1 H2) as [E|(m & e & M & Ee & V)]; [pose proof (fv_nonneg x); lia|].
  destruct (nonneg_sum B x' y H1' H2) as [E|(m' & e' & M' & Ee' & V')]; [pose proof (fv_nonneg x'); lia|].
  destruct (fadd_spec B x y m e) as [_ ->]; auto. destruct (fadd_spec B x' y m' e') as [_ ->]; auto.
  apply rv_mono; lia.
Qed.

(** Truncation *)
Lemma trunc_spec B x : nonneg B x -> f_trunc x = inr (fv x / 2 ^ KS).
Proof.
  intro H. assert (PK : 0 < 2 ^ KS) by (apply Z.pow_pos_nonneg; unfold KS; lia).
  destruct x as [| | |[] m e]; try contradiction; cbn [f_trunc fv]; [rewrite Z.div_0_l by lia; reflexivity|].
  destruct H as (H1 & _ & _). unfold emin64 in H1. destruct (0 <=? e) eqn:E.
  - rewrite Z.pow_add_r, Z.mul_assoc, Z.div_mul by (unfold KS in *; lia). reflexivity.
  - f_equal. replace (2 ^ KS) with (2 ^ (- e) * 2 ^ (e + KS)) by (rewrite <- Z.pow_add_r by (unfold KS; lia); f_equal; lia).
    rewrite Z.div_mul_cancel_r; [reflexivity|..]; apply Z.pow_nonzero; unfold KS; lia.
Qed.
Lemma trunc_mono B x y a b : nonneg B x -> nonneg B y -> fv x <= fv y -> f_trunc x = inr a -> f_trunc y = inr b -> a <= b.
Proof.
  intros H1 H2 H Ha Hb. rewrite (trunc_spec B) in Ha by exact H1. rewrite (trunc_spec B) in Hb by exact H2.
  assert (Ea : a = fv x / 2 ^ KS) by congruence. assert (Eb : b = fv y / 2 ^ KS) by congruence. rewrite Ea, Eb.
  apply Z.div_le_mono; [|exact H]. apply Z.pow_pos_nonneg; unfold KS; lia.
Qed.
