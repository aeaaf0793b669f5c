(** * FloatRN: signed values, division and square root of binary64 numbers; rounding error. *)
From Coq Require Import ZArith NArith List Bool Lia.
From Coq Require Import Floats.SpecFloat.
From Coq Require Import ZifyBool ZifyNat ZifyN.
From Verif Require Import PyBase PyFloat FloatProofs.
Import ListNotations.
Open Scope Z_scope.

Lemma pow_pos2 k : 0 <= k -> 0 < 2 ^ k.
Proof. intro. now apply Z.pow_pos_nonneg. Qed.

(** ** Error of rounding *)
Lemma rv_err K m e E : 0 < m -> 0 <= e + K -> nexp m e <= E -> 2 * Z.abs (rv K m e - m * 2 ^ (e + K)) <= 2 ^ (E + K).
Proof.
  intros Hm He HE. assert (N : 0 <= nexp m e - e) by (unfold nexp; lia).
  pose proof (rne_bounds m _ ltac:(lia) N) as B. unfold rv. set (n := nexp m e - e) in *.
  replace (nexp m e + K) with (n + (e + K)) by (unfold n; lia). rewrite (Z.pow_add_r 2 n) by lia.
  pose proof (pow_pos2 (e + K) He) as P. pose proof (pow_pos2 n N) as P2.
  apply Z.le_trans with (2 ^ (n + (e + K))); [|apply Z.pow_le_mono_r; unfold n; lia]. rewrite (Z.pow_add_r 2 n) by lia.
  assert (H2 : 2 * (2 ^ n / 2) <= 2 ^ n) by (apply Z.mul_div_le; lia).
  set (h := 2 ^ n / 2) in *. set (r := rne m n) in *. set (P' := 2 ^ (e + K)) in *. set (Q := 2 ^ n) in *.
  rewrite Z.mul_assoc, <- Z.mul_sub_distr_r, Z.abs_mul, (Z.abs_eq P') by lia. nia.
Qed.
Lemma nexp_bound m e B : 0 < m -> Z.log2 m + e < B -> nexp m e <= Z.max e (Z.max (B - 53) emin64).
Proof. intros. unfold nexp. lia. Qed.

(** ** Rounding a scaled value *)
Definition RN (v : Z) : Z := if v =? 0 then 0 else Z.sgn v * rv KS (Z.abs v) (- KS).
Lemma rv_RN m e : 0 < m -> 0 <= e + KS -> rv KS m e = RN (m * 2 ^ (e + KS)).
Proof.
  intros Hm He. pose proof (pow_pos2 _ He) as P. unfold RN. assert (X : 0 < m * 2 ^ (e + KS)) by nia.
  replace (_ =? 0) with false by lia. rewrite Z.sgn_pos, Z.abs_eq by lia. rewrite Z.mul_1_l. apply rv_eq; try lia.
  replace (- KS + KS) with 0 by lia. change (2 ^ 0) with 1. lia.
Qed.
Lemma RN_opp v : RN (- v) = - RN v.
Proof. unfold RN. destruct (v =? 0) eqn:E, (- v =? 0) eqn:E2; try lia. rewrite Z.sgn_opp, Z.abs_opp. lia. Qed.
Lemma RN_pos v : 0 <= v -> 0 <= RN v.
Proof. intro H. unfold RN. destruct (v =? 0) eqn:E; [lia|]. rewrite Z.sgn_pos by lia. pose proof (rv_nonneg KS (Z.abs v) (- KS) ltac:(lia)). lia. Qed.
Lemma RN_mono v w : v <= w -> RN v <= RN w.
Proof.
  assert (P : forall v w, 0 <= v <= w -> RN v <= RN w).
  { clear. intros v w H. destruct (Z.eq_dec v 0) as [->|N]; [change (RN 0) with 0; apply RN_pos; lia|].
    unfold RN. destruct (v =? 0) eqn:E; [lia|]. destruct (w =? 0) eqn:E2; [lia|]. rewrite !Z.sgn_pos, !Z.abs_eq by lia. rewrite !Z.mul_1_l.
    apply rv_mono; try lia. apply Z.mul_le_mono_nonneg_r; [apply Z.pow_nonneg; lia|lia]. }
  intro H. destruct (Z.le_gt_cases 0 v); [apply P; lia|]. destruct (Z.le_gt_cases 0 w).
  - pose proof (RN_pos w ltac:(lia)). pose proof (RN_pos (- v) ltac:(lia)) as X. rewrite RN_opp in X. lia.
  - pose proof (P (- w) (- v) ltac:(lia)) as X. rewrite !RN_opp in X. lia.
Qed.
(** Below 2^B, rounding moves a value by at most 2^(B-54). *)
Lemma RN_err v B : 0 <= v < 2 ^ (B + KS) -> -1000 <= B -> 2 * Z.abs (RN v - v) <= 2 ^ (B - 53 + KS).
Proof.
  intros H HB. unfold RN. destruct (v =? 0) eqn:E.
  - replace v with 0 by lia. change (2 * Z.abs (0 - 0)) with 0. apply Z.pow_nonneg. lia.
  - rewrite Z.sgn_pos, (Z.abs_eq v), Z.mul_1_l by lia.
    pose proof (rv_err KS v (- KS) (B - 53) ltac:(lia) ltac:(lia)) as X. replace (- KS + KS) with 0 in X by lia. 
    rewrite Z.mul_1_r in X. apply X. eapply Z.le_trans; [apply (nexp_bound _ _ B); [lia|]|unfold emin64, KS; lia].
    assert (Z.log2 v < B + KS) by (apply Z.log2_lt_pow2; lia). lia.
Qed.

(** ** Signed values *)
Definition sv (f : f64) : Z := match f with S754_finite s m e => cond_Zopp s (Zpos m * 2 ^ (e + KS)) | _ => 0 end.
Definition bnd (B : Z) (f : f64) : Prop :=
  match f with
  | S754_zero _ => True
  | S754_finite _ m e => emin64 <= e /\ Z.log2 (Zpos m) + e < B /\ Z.log2 (Zpos m) <= 52
  | _ => False
  end.
Lemma bnd_le B B' f : bnd B f -> B <= B' -> bnd B' f.
Proof. destruct f; simpl; auto. lia. Qed.
Lemma nonneg_bnd B f : nonneg B f -> bnd B f.
Proof. destruct f as [| | |[] m e]; simpl; tauto. Qed.
Lemma nonneg_sv B f : nonneg B f -> sv f = fv f.
Proof. destruct f as [| | |[] m e]; simpl; tauto. Qed.
Lemma sv_opp f : sv (SFopp f) = - sv f.
Proof. destruct f as [| | |[] m e]; try reflexivity. cbn [sv SFopp negb cond_Zopp]. lia. Qed.
Lemma bnd_opp B f : bnd B f -> bnd B (SFopp f).
Proof. destruct f; simpl; auto. Qed.
Lemma bnd_nonneg B f : bnd B f -> 0 < sv f -> nonneg B f.
Proof.
  destruct f as [| | |[] m e]; cbn [bnd nonneg sv cond_Zopp]; try tauto. intros (H1 & H2 & H3) H. exfalso.
  assert (0 < 2 ^ (e + KS)) by (apply pow_pos2; unfold KS, emin64 in *; lia). nia.
Qed.
Lemma bnd_sv B f : bnd B f -> 0 <= B + KS -> Z.abs (sv f) < 2 ^ (B + KS).
Proof.
  intros H HB. pose proof (pow_pos2 _ HB). destruct f as [| | |s m e]; cbn [bnd sv] in *; try (change (Z.abs 0) with 0; lia).
  destruct H as (H1 & H2 & H3). apply log2_lt in H2; [|lia|unfold KS, emin64 in *; lia|lia].
  assert (0 < 2 ^ (e + KS)) by (apply pow_pos2; unfold KS, emin64 in *; lia).
  destruct s; cbn [cond_Zopp]; lia.
Qed.
Lemma RN_canon B f : bnd B f -> RN (sv f) = sv f.
Proof.
  destruct f as [| | |s m e]; try reflexivity. intro H. cbn [sv].
  assert (X : RN (Zpos m * 2 ^ (e + KS)) = Zpos m * 2 ^ (e + KS)).
  { destruct H as (H1 & H2 & H3). rewrite <- rv_RN by (unfold KS, emin64 in *; lia). apply (rv_canon B). repeat split; lia. }
  destruct s; cbn [cond_Zopp]; [now rewrite RN_opp, X|exact X].
Qed.

Lemma round_aux_opp s m e l : binary_round_aux f64_prec f64_emax (negb s) m e l = SFopp (binary_round_aux f64_prec f64_emax s m e l).
Proof.
  unfold binary_round_aux. destruct (shr_fexp _ _ m e l) as [r e']. destruct (shr_fexp _ _ _ e' loc_Exact) as [r2 e2].
  destruct (shr_m r2); try reflexivity. destruct (_ <=? _); reflexivity.
Qed.
Lemma fmul_opp x y : fmul x (SFopp y) = SFopp (fmul x y).
Proof.
  unfold fmul. destruct x as [sx|sx| |sx mx ex], y as [sy|sy| |sy my ey]; cbn [SFmul SFopp]; try reflexivity;
    try (now destruct sx, sy).
  rewrite <- round_aux_opp. f_equal. now destruct sx, sy.
Qed.
Lemma fsub_fadd x y : fsub x y = fadd x (SFopp y).
Proof.
  unfold fsub, fadd. destruct x as [sx|sx| |sx mx ex], y as [sy|sy| |sy my ey]; try reflexivity.
  cbn [SFsub SFadd SFopp]. f_equal. destruct sy; cbn [cond_Zopp negb]; lia.
Qed.

Lemma norm_sv m e z B : -1074 <= e -> Z.abs m * 2 ^ (e + KS) < 2 ^ (B + KS) -> 0 <= B <= 900 ->
  let f := binary_normalize f64_prec f64_emax m e z in bnd (B + 1) f /\ sv f = RN (m * 2 ^ (e + KS)).
Proof.
  intros He HB HB2. destruct m as [|p|p]; cbn [binary_normalize].
  - split; [exact I|]. rewrite Z.mul_0_l. reflexivity.
  - destruct (round_spec p e B He) as [R1 R2]; [|exact HB2|].
    + apply log2_lt; [lia|unfold KS; lia|unfold KS; lia|exact HB].
    + split; [now apply nonneg_bnd|]. rewrite (nonneg_sv _ _ R1), R2. apply rv_RN; unfold KS; lia.
  - destruct (round_spec p e B He) as [R1 R2]; [|exact HB2|].
    + apply log2_lt; [lia|unfold KS; lia|unfold KS; lia|exact HB].
    + assert (X : binary_round f64_prec f64_emax true p e = SFopp (binary_round f64_prec f64_emax false p e)).
      { unfold binary_round. destruct (shl_align _ _ _) as [mz ez]. apply (round_aux_opp false). }
      cbv zeta. rewrite X. split; [now apply bnd_opp, nonneg_bnd|]. rewrite sv_opp, (nonneg_sv _ _ R1), R2, rv_RN by (unfold KS; lia).
      rewrite <- RN_opp. f_equal. lia.
Qed.

Lemma fadd_sv B x y : bnd B x -> bnd B y -> 0 <= B <= 800 -> bnd (B + 2) (fadd x y) /\ sv (fadd x y) = RN (sv x + sv y).
Proof.
  intros H1 H2 HB. unfold fadd. destruct x as [s1| | |s1 m1 e1]; try contradiction; destruct y as [s2| | |s2 m2 e2]; try contradiction; cbn [SFadd].
  - destruct (Bool.eqb s1 s2); split; exact I || reflexivity.
  - split; [eapply bnd_le; [exact H2|lia]|]. change (sv (S754_zero s1)) with 0. rewrite Z.add_0_l. symmetry. apply (RN_canon B _ H2).
  - split; [eapply bnd_le; [exact H1|lia]|]. change (sv (S754_zero s2)) with 0. rewrite Z.add_0_r. symmetry. apply (RN_canon B _ H1).
  - set (ez := Z.min e1 e2).
    pose proof (shl_align_eq m1 e1 ez) as S1. pose proof (shl_align_eq m2 e2 ez) as S2.
    destruct (shl_align m1 e1 ez) as [m1' e1']. destruct (shl_align m2 e2 ez) as [m2' e2']. cbn [fst].
    destruct S1 as [S1 V1]. destruct S2 as [S2 V2]. 
    pose proof (bnd_sv B _ H1 ltac:(unfold KS; lia)) as X1. pose proof (bnd_sv B _ H2 ltac:(unfold KS; lia)) as X2.
    cbn [bnd] in H1, H2. unfold emin64 in *.
    assert (e1' = ez /\ e2' = ez) as [-> ->] by (unfold ez in *; lia).
    assert (E1 : Zpos m1' * 2 ^ (ez + KS) = Zpos m1 * 2 ^ (e1 + KS)).
    { rewrite V1, <- Z.mul_assoc, <- (Z.pow_add_r 2 (e1 - ez)) by (unfold KS, ez; lia). do 2 f_equal. lia. }
    assert (E2 : Zpos m2' * 2 ^ (ez + KS) = Zpos m2 * 2 ^ (e2 + KS)).
    { rewrite V2, <- Z.mul_assoc, <- (Z.pow_add_r 2 (e2 - ez)) by (unfold KS, ez; lia). do 2 f_equal. lia. }
    assert (Sum : (cond_Zopp s1 (Zpos m1') + cond_Zopp s2 (Zpos m2')) * 2 ^ (ez + KS) = sv (S754_finite s1 m1 e1) + sv (S754_finite s2 m2 e2)).
    { cbn [sv]. rewrite Z.mul_add_distr_r. f_equal; [destruct s1|destruct s2]; cbn [cond_Zopp]; lia. }
    set (sum := cond_Zopp s1 _ + _) in *.
    destruct (norm_sv sum ez false (B + 1)) as [R1 R2].
    + unfold ez. lia.
    + replace (B + 1 + KS) with (Z.succ (B + KS)) by lia. rewrite Z.pow_succ_r by (unfold KS; lia).
      assert (P : 0 < 2 ^ (ez + KS)) by (apply pow_pos2; unfold KS, ez; lia).
      rewrite <- (Z.abs_eq (2 ^ (ez + KS))) by lia. rewrite <- Z.abs_mul, Sum. lia.
    + lia.
    + split; [eapply bnd_le; [exact R1|lia]|]. rewrite R2. f_equal. exact Sum.
Qed.

Lemma f_of_Z_sv a : 0 <= a < 2 ^ 53 -> nonneg 54 (f_of_Z a) /\ fv (f_of_Z a) = a * 2 ^ KS.
Proof.
  intro H. unfold f_of_Z. destruct a as [|p|p]; [split; [exact I|reflexivity]| |lia]. cbn [binary_normalize].
  assert (L : Z.log2 (Zpos p) < 53) by (apply Z.log2_lt_pow2; lia).
  destruct (round_spec p 0 53 ltac:(lia) ltac:(lia) ltac:(lia)) as [R1 R2]. split; [exact R1|]. rewrite R2. unfold rv.
  replace (nexp (Zpos p) 0) with 0 by (unfold nexp, emin64; lia). cbn [Z.sub Z.opp Z.add].
  pose proof (rne_exact (Zpos p) 0 ltac:(lia)) as X. change (2 ^ 0) with 1 in X. rewrite Z.mul_1_r in X. now rewrite X.
Qed.

(** Positive products: the exact product is an integer at this scale. *)
Lemma fmul_sv B1 B2 x y : nonneg B1 x -> nonneg B2 y -> 0 <= B1 + B2 <= 890 ->
  nonneg (B1 + B2 + 2) (fmul x y) /\ exists p, p * 2 ^ KS = fv x * fv y /\ fv (fmul x y) = RN p.
Proof.
  intros H1 H2 HB. destruct (fmul_spec B1 B2 x y H1 H2 HB) as [R1 R2]. split; [exact R1|]. rewrite R2.
  destruct x as [s1| | |[] m1 e1]; try contradiction; destruct y as [s2| | |[] m2 e2]; try contradiction; cbn [fv];
    try (exists 0; split; [lia|reflexivity]).
  cbn [nonneg] in H1, H2. unfold emin64 in *.
  exists (Zpos m1 * Zpos m2 * 2 ^ (e1 + e2 + KS)). split; [|apply rv_RN; unfold KS; lia].
  rewrite <- Z.mul_assoc, <- Z.pow_add_r by (unfold KS; lia).
  replace (e1 + e2 + KS + KS) with ((e1 + KS) + (e2 + KS)) by lia. rewrite (Z.pow_add_r 2 (e1 + KS)) by (unfold KS; lia). ring.
Qed.

(** ** Locations: two more bits say as much *)
Definition adj (l : location) : Z := match l with loc_Exact => 0 | loc_Inexact Lt => 1 | loc_Inexact Eq => 2 | loc_Inexact Gt => 3 end.
Lemma iter_pos_add {A} (f : A -> A) p x : iter_pos f (p + 2) x = iter_pos f p (f (f x)).
Proof.
  rewrite !iter_pos_eq. rewrite Pos.iter_add. reflexivity.
Qed.
Lemma sticky s q e l : 0 < q -> e <= fexp f64_prec f64_emax (Zdigits2 q + e) ->
  binary_round_aux f64_prec f64_emax s q e l = binary_round_aux f64_prec f64_emax s (4 * q + adj l) (e - 2) loc_Exact.
Proof.
  intros Hq He. unfold binary_round_aux. 
  assert (D : Zdigits2 (4 * q + adj l) + (e - 2) = Zdigits2 q + e).
  { rewrite !Zdigits2_log2 by (destruct l as [|[]]; cbn [adj]; lia).
    assert (Z.log2 (4 * q + adj l) = Z.log2 q + 2); [|lia].
    assert (A : 0 <= adj l < 4) by (destruct l as [|[]]; cbn [adj]; lia).
    pose proof (Z.log2_spec q Hq) as [L1 L2]. pose proof (Z.log2_nonneg q). apply Z.log2_unique; [lia|].
    rewrite <- Z.add_succ_l, !Z.pow_add_r by lia. change (2 ^ 2) with 4. 
    rewrite Z.pow_succ_r in * by lia. lia. }
  unfold shr_fexp. rewrite D. set (E := fexp _ _ _) in *.
  assert (X : shr (shr_record_of_loc (4 * q + adj l) loc_Exact) (e - 2) (E - (e - 2)) = shr (shr_record_of_loc q l) e (E - e)).
  { assert (Y : shr_1 (shr_1 (shr_record_of_loc (4 * q + adj l) loc_Exact)) = shr_record_of_loc q l).
    { destruct q as [|p|p]; try lia. destruct l as [|[]]; reflexivity. }
    destruct (E - e) as [|p|p] eqn:En; [| |lia].
    - replace (E - (e - 2)) with 2 by lia. cbn [shr]. change (iter_pos shr_1 2 ?x) with (shr_1 (shr_1 x)). rewrite Y. f_equal. lia.
    - replace (E - (e - 2)) with (Zpos (p + 2)) by lia. cbn [shr]. rewrite iter_pos_add, Y. f_equal. lia. }
  now rewrite X.
Qed.

(** Refining the position of an inexact value does not change its rounding. *)
Lemma rne_refine S W n k : 2 <= n -> 0 <= k -> 0 <= S ->
  (Z.odd S = false -> W = S * 2 ^ k) -> (Z.odd S = true -> (S - 1) * 2 ^ k < W < (S + 1) * 2 ^ k) ->
  rne W (n + k) = rne S n.
Proof.
  intros Hn Hk HS HE HO. destruct (Z.odd S) eqn:O; [|rewrite HE by reflexivity; apply rne_scale; lia].
  specialize (HO eq_refl). clear HE. unfold rne.
  pose proof (pow_pos2 n ltac:(lia)) as P. pose proof (pow_pos2 k Hk) as Pk. rewrite Z.pow_add_r by lia.
  assert (E4 : 2 ^ n = 4 * 2 ^ (n - 2)) by (replace n with (2 + (n - 2)) at 1 by lia; rewrite Z.pow_add_r by lia; reflexivity).
  pose proof (Z.div_mod S (2 ^ n) ltac:(lia)) as D. pose proof (Z.mod_pos_bound S (2 ^ n) P) as B.
  set (q := S / 2 ^ n) in *. set (r := S mod 2 ^ n) in *.
  assert (Or : exists j, r = 2 * j + 1).
  { exists (r / 2). apply Z.odd_spec in O as [i Hi]. assert (Z.odd r = true).
    { apply Z.odd_spec. exists (i - 2 * 2 ^ (n - 2) * q). lia. }
    apply Z.odd_spec in H as [j ->]. replace (2 * j + 1) with (1 + j * 2) by lia. rewrite Z.div_add by lia. change (1 / 2) with 0. lia. }
  destruct Or as [j Hj]. set (N := 2 ^ n) in *. set (K := 2 ^ k) in *. set (h := 2 ^ (n - 2)) in *.
  set (R := W - N * K * q).
  assert (R1 : (r - 1) * K < R < (r + 1) * K).
  { unfold R. replace ((S - 1) * K) with (N * K * q + (r - 1) * K) in HO by (rewrite D; ring).
    replace ((S + 1) * K) with (N * K * q + (r + 1) * K) in HO by (rewrite D; ring). lia. }
  assert (R2 : 0 <= (r - 1) * K) by (apply Z.mul_nonneg_nonneg; lia).
  assert (R3 : (r + 1) * K <= N * K) by (apply Z.mul_le_mono_nonneg_r; lia).
  assert (Q : W / (N * K) = q /\ W mod (N * K) = R).
  { split; symmetry.
    - apply Z.div_unique with R; [left; lia|unfold R; ring].
    - apply Z.mod_unique with q; [left; lia|unfold R; ring]. }
  destruct Q as [-> ->].
  destruct (Z.lt_ge_cases (2 * r) N) as [C|C].
  - replace (2 * r <? N) with true by lia. replace (2 * R <? N * K) with true; [reflexivity|]. symmetry. apply Z.ltb_lt.
    assert (2 * ((r + 1) * K) <= N * K) by (rewrite Z.mul_assoc; apply Z.mul_le_mono_nonneg_r; lia). lia.
  - assert (N < 2 * r) by lia. replace (2 * r <? N) with false by lia. replace (N <? 2 * r) with true by lia.
    assert (N * K <= 2 * ((r - 1) * K)) by (rewrite Z.mul_assoc; apply Z.mul_le_mono_nonneg_r; lia). assert (N * K < 2 * R) by lia. replace (2 * R <? N * K) with false by lia. replace (N * K <? 2 * R) with true by lia. reflexivity.
Qed.
Lemma rv_refine K S e W k : 4 <= S -> 0 <= k -> nexp S e >= e + 2 ->
  (Z.odd S = false -> W = S * 2 ^ k) -> (Z.odd S = true -> (S - 1) * 2 ^ k < W < (S + 1) * 2 ^ k) ->
  0 < W /\ rv K S e = rv K W (e - k).
Proof.
  intros HS Hk Hn HE HO. pose proof (pow_pos2 k Hk) as Pk.
  assert (L : 0 < W /\ Z.log2 W = Z.log2 S + k).
  { pose proof (Z.log2_spec S ltac:(lia)) as [L1 L2]. pose proof (Z.log2_nonneg S). 
    assert (L3 : 2 <= Z.log2 S) by (change 2 with (Z.log2 4); apply Z.log2_le_mono; lia).
    destruct (Z.odd S) eqn:O.
    - specialize (HO eq_refl). assert (0 < W) by nia. split; [assumption|]. apply Z.log2_unique; [lia|].
      assert (EV : 2 ^ Z.log2 S <= S - 1 /\ S + 1 <= 2 ^ Z.succ (Z.log2 S)).
      { rewrite Z.pow_succ_r in * by lia. replace (Z.log2 S) with (Z.succ (Z.log2 S - 1)) in * by lia.
        rewrite Z.pow_succ_r in * by lia. apply Z.odd_spec in O as [j Hj]. lia. }
      rewrite <- Z.add_succ_l, !Z.pow_add_r by lia. nia.
    - specialize (HE eq_refl). subst W. split; [nia|]. rewrite Z.log2_mul_pow2; lia. }
  destruct L as [LW L]. split; [exact LW|]. unfold rv.
  assert (EN : nexp W (e - k) = nexp S e) by (unfold nexp in *; rewrite L; lia).
  rewrite EN. f_equal. replace (nexp S e - (e - k)) with (nexp S e - e + k) by lia. symmetry. apply rne_refine; try assumption; lia.
Qed.

(** ** Division *)
(** The quotient n/d in units of 2^-2999, doubled, odd when inexact. *)
Definition qstick (n d : Z) : Z := 2 * (n / d) + (if n mod d =? 0 then 0 else 1).
Lemma qstick_mono n n' d : 0 < d -> n <= n' -> qstick n d <= qstick n' d.
Proof.
  intros Hd H. unfold qstick. pose proof (Z.div_mod n d ltac:(lia)). pose proof (Z.div_mod n' d ltac:(lia)).
  pose proof (Z.mod_pos_bound n d Hd). pose proof (Z.mod_pos_bound n' d Hd).
  set (q := n / d) in *. set (q' := n' / d) in *. set (r := n mod d) in *. set (r' := n' mod d) in *.
  assert (q < q' \/ q = q' /\ r <= r') as [C|[C C']] by nia; destruct (r =? 0) eqn:E1, (r' =? 0) eqn:E2; lia.
Qed.
Lemma adj_new_location d r : 0 < d -> 0 <= r < d ->
  (adj (new_location d r) = 0 /\ r = 0) \/ (adj (new_location d r) = 1 /\ 0 < 2 * r < d) \/
  (adj (new_location d r) = 2 /\ 2 * r = d) \/ (adj (new_location d r) = 3 /\ d < 2 * r).
Proof.
  intros Hd Hr. unfold new_location. destruct (Z.even d) eqn:Ev.
  - unfold new_location_even. unfold Zeq_bool. destruct (r ?= 0) eqn:C; [apply Z.compare_eq in C; left; split; [reflexivity|exact C]| |].
    all: destruct (2 * r ?= d) eqn:C2; cbn [adj]; rewrite ?Z.compare_eq_iff, ?Z.compare_lt_iff, ?Z.compare_gt_iff in *; lia.
  - assert (O : exists j, d = 2 * j + 1) by (apply Z.odd_spec; rewrite <- Z.negb_even, Ev; reflexivity). destruct O as [j Hj].
    unfold new_location_odd. unfold Zeq_bool. destruct (r ?= 0) eqn:C; [apply Z.compare_eq in C; left; split; [reflexivity|exact C]| |].
    all: destruct (2 * r + 1 ?= d) eqn:C2; cbn [adj]; rewrite ?Z.compare_eq_iff, ?Z.compare_lt_iff, ?Z.compare_gt_iff in *; lia.
Qed.
Lemma qstick_lt n d h : 0 < d -> n < h * d -> qstick n d < 2 * h.
Proof.
  intros Hd H. unfold qstick. pose proof (Z.div_mod n d ltac:(lia)). pose proof (Z.mod_pos_bound n d Hd).
  set (q := n / d) in *. set (r := n mod d) in *. assert (q < h) by nia. destruct (r =? 0); lia.
Qed.
Lemma qstick_gt n d h : 0 < d -> h * d < n -> 2 * h < qstick n d.
Proof.
  intros Hd H. unfold qstick. pose proof (Z.div_mod n d ltac:(lia)). pose proof (Z.mod_pos_bound n d Hd).
  set (q := n / d) in *. set (r := n mod d) in *. destruct (r =? 0) eqn:E; nia.
Qed.
Lemma qstick_exact d h : 0 < d -> qstick (h * d) d = 2 * h.
Proof. intro Hd. unfold qstick. rewrite Z.div_mul, Z.mod_mul by lia. cbn [Z.eqb]. lia. Qed.
Lemma qstick_scale n d c : 0 < d -> 0 < c -> qstick (n * c) (d * c) = qstick n d.
Proof.
  intros Hd Hc. unfold qstick. rewrite Z.div_mul_cancel_r, Z.mul_mod_distr_r by lia. f_equal.
  destruct (n mod d =? 0) eqn:E1, (n mod d * c =? 0) eqn:E2; try reflexivity; nia.
Qed.
Lemma log2_ge m e B : 0 < m -> 0 <= e + KS -> 0 <= B + KS -> 2 ^ (B + KS) <= m * 2 ^ (e + KS) -> B <= Z.log2 m + e.
Proof.
  intros Hm He HB H. destruct (Z.le_gt_cases B (Z.log2 m + e)) as [C|C]; [exact C|]. apply log2_lt in C; lia.
Qed.

Lemma fdiv_sv B1 B2 C2 x y : nonneg B1 x -> nonneg B2 y -> 2 ^ (C2 + KS) <= fv y -> (fv x = 0 \/ 2 ^ (-500 + KS) <= fv x) ->
  0 <= B1 <= 300 -> B2 <= 300 -> -300 <= C2 <= 0 ->
  nonneg (B1 - C2 + 2) (fdiv x y) /\
  fv (fdiv x y) = if fv x =? 0 then 0 else rv KS (qstick (fv x * 2 ^ 2999) (fv y)) (-3000).
Proof.
  intros Hx Hy Cy Cx HB1 HB2 HC2. assert (P0 : 0 < 2 ^ (C2 + KS)) by (apply pow_pos2; unfold KS; lia).
  assert (P1 : 0 < 2 ^ (-500 + KS)) by (apply pow_pos2; unfold KS; lia).
  destruct y as [s2| | |[] m2 e2]; try contradiction; cbn [fv] in Cy; try lia.
  destruct x as [s1| | |[] m1 e1]; try contradiction; unfold fdiv; cbn [SFdiv]; [split; [exact I|reflexivity]|].
  cbn [nonneg fv] in *. destruct Hx as (X1 & X2 & X3). destruct Hy as (Y1 & Y2 & Y3). unfold emin64 in *.
  assert (P2 : 0 < 2 ^ (e2 + KS)) by (apply pow_pos2; unfold KS; lia).
  assert (P3 : 0 < 2 ^ (e1 + KS)) by (apply pow_pos2; unfold KS; lia).
  apply log2_ge in Cy; try (unfold KS; lia). assert (Px : 0 < Zpos m1 * 2 ^ (e1 + KS)) by (apply Z.mul_pos_pos; lia). destruct Cx as [Cx|Cx]; [lia|]. apply log2_ge in Cx; try (unfold KS; lia).
  replace (Zpos m1 * 2 ^ (e1 + KS) =? 0) with false by lia.
  unfold SFdiv_core_binary. rewrite !Zdigits2_log2 by lia.
  pose proof (Z.log2_spec (Zpos m1) ltac:(lia)) as [L1 L1']. pose proof (Z.log2_spec (Zpos m2) ltac:(lia)) as [L2 L2'].
  pose proof (Z.log2_nonneg (Zpos m1)) as L10. pose proof (Z.log2_nonneg (Zpos m2)) as L20.
  set (g1 := Z.log2 (Zpos m1)) in *. set (g2 := Z.log2 (Zpos m2)) in *.
  assert (FE : fexp f64_prec f64_emax (g1 + 1 + e1 - (g2 + 1 + e2)) = g1 + e1 - g2 - e2 - 53).
  { unfold fexp, emin, f64_prec, f64_emax. lia. }
  rewrite FE. set (e' := Z.min _ _). set (s := e1 - e2 - e').
  assert (Hs : 0 <= s) by (unfold s, e'; lia).
  assert (Em : match s with Z0 => Zpos m1 | Zpos _ => Z.shiftl (Zpos m1) s | Zneg _ => 0 end = Zpos m1 * 2 ^ s).
  { destruct s eqn:Es; [change (2 ^ 0) with 1; lia| |lia]. apply Z.shiftl_mul_pow2. lia. }
  rewrite Em. set (m' := Zpos m1 * 2 ^ s). pose proof (Z_div_mod m' (Zpos m2) ltac:(lia)) as DM.
  destruct (Z.div_eucl m' (Zpos m2)) as [q r]. destruct DM as [DM Dr]. change (xorb false false) with false.
  pose proof (pow_pos2 s Hs) as Ps.
  assert (Mlow : 2 ^ (g1 + s) <= m') by (unfold m'; rewrite Z.pow_add_r by lia; apply Z.mul_le_mono_nonneg_r; lia).
  assert (Gs : g2 + 53 <= g1 + s) by (unfold s, e'; lia).
  assert (Q52 : 2 ^ 52 <= q).
  { assert (2 ^ (g2 + 53) <= m') by (apply Z.le_trans with (2 ^ (g1 + s)); [apply Z.pow_le_mono_r; lia|exact Mlow]).
    replace (g2 + 53) with (Z.succ g2 + 52) in * by lia. rewrite Z.pow_add_r in * by lia.
    apply Z.lt_succ_r. apply (Z.mul_lt_mono_pos_l (Zpos m2)); [lia|].
    assert (2 ^ 52 * Zpos m2 < 2 ^ 52 * 2 ^ Z.succ g2) by (apply Z.mul_lt_mono_pos_l; lia). lia. }
  assert (Q0 : 0 < q) by (assert (0 < 2 ^ 52) by reflexivity; lia).
  assert (LQ : 52 <= Z.log2 q) by (apply Z.log2_le_pow2; lia).
  rewrite sticky; [|exact Q0|rewrite Zdigits2_log2 by exact Q0; unfold fexp, emin, f64_prec, f64_emax; lia].
  set (a := adj (new_location (Zpos m2) r)). pose proof (adj_new_location (Zpos m2) r ltac:(lia) Dr) as A. fold a in A.
  assert (LS : Z.log2 (4 * q + a) = Z.log2 q + 2).
  { pose proof (Z.log2_spec q Q0) as [U1 U2]. apply Z.log2_unique; [lia|]. rewrite <- Z.add_succ_l, !Z.pow_add_r by lia.
    change (2 ^ 2) with 4. rewrite Z.pow_succ_r in * by lia. lia. }
  assert (LQ2 : Z.log2 q + e' <= g1 + e1 - g2 - e2 + 1).
  { assert (Z.log2 q < g1 + s + 1 - g2 + 1); [|unfold s in *; lia]. apply Z.log2_lt_pow2; [exact Q0|].
    apply Z.nle_gt. intro C. replace (g1 + s + 1 - g2 + 1) with ((Z.succ g1 + s) - g2 + 1) in C by lia.
    assert (2 ^ g2 * (2 * 2 ^ (Z.succ g1 + s - g2)) <= Zpos m2 * q).
    { replace (Z.succ g1 + s - g2 + 1) with (Z.succ (Z.succ g1 + s - g2)) in C by lia. rewrite Z.pow_succ_r in C by lia.
      apply Z.mul_le_mono_nonneg; [apply Z.pow_nonneg; lia|lia|apply Z.mul_nonneg_nonneg; [lia|apply Z.pow_nonneg; lia]|exact C]. }
    replace (2 ^ g2 * (2 * 2 ^ (Z.succ g1 + s - g2))) with (2 * 2 ^ (Z.succ g1 + s)) in *
      by (rewrite Z.mul_assoc, (Z.mul_comm (2 ^ g2) 2), <- Z.mul_assoc, <- Z.pow_add_r by lia; do 2 f_equal; lia).
    assert (m' < 2 ^ (Z.succ g1 + s)) by (unfold m'; rewrite Z.pow_add_r by lia; apply Z.mul_lt_mono_pos_r; lia).
    lia. }
  destruct (round_pos (4 * q + a) (e' - 2) (B1 - C2 + 1)) as [R1 R2]; try lia; try (unfold e'; lia).
  split; [eapply nonneg_le; [exact R1|lia]|]. rewrite R2.
  set (k := e' - 2 + 3000). assert (Hk : 0 <= k) by (unfold k, e'; lia). pose proof (pow_pos2 k Hk) as Pk.
  assert (EW : qstick (Zpos m1 * 2 ^ (e1 + KS) * 2 ^ 2999) (Zpos m2 * 2 ^ (e2 + KS)) = qstick (m' * (2 * 2 ^ k)) (Zpos m2)).
  { rewrite <- (qstick_scale (m' * (2 * 2 ^ k)) (Zpos m2) (2 ^ (e2 + KS))) by lia. f_equal. unfold m'.
    rewrite <- Z.pow_succ_r by lia. rewrite <- !Z.mul_assoc, <- !Z.pow_add_r by (unfold KS, s, k, e' in *; lia). do 2 f_equal. unfold s, k. lia. }
  rewrite EW. replace (-3000) with (e' - 2 - k) by (unfold k; lia).
  apply rv_refine; try lia.
  - unfold nexp. lia.
  - rewrite Z.odd_add, Z.odd_mul. cbn [Z.odd andb xorb]. intro O.
    destruct A as [[A Ar]|[[A Ar]|[[A Ar]|[A Ar]]]]; rewrite A in *; try discriminate.
    + replace (m' * (2 * 2 ^ k)) with (2 * q * 2 ^ k * Zpos m2) by (rewrite DM, Ar; ring). rewrite qstick_exact by lia. lia.
    + replace (m' * (2 * 2 ^ k)) with ((2 * q + 1) * 2 ^ k * Zpos m2); [rewrite qstick_exact by lia; lia|].
      rewrite DM. replace ((Zpos m2 * q + r) * (2 * 2 ^ k)) with ((2 * Zpos m2 * q + 2 * r) * 2 ^ k) by ring. rewrite Ar. ring.
  - rewrite Z.odd_add, Z.odd_mul. cbn [Z.odd andb xorb]. intro O.
    replace (m' * (2 * 2 ^ k)) with ((2 * Zpos m2 * q + 2 * r) * 2 ^ k) by (rewrite DM; ring).
    destruct A as [[A Ar]|[[A Ar]|[[A Ar]|[A Ar]]]]; rewrite A in *; try discriminate.
    + split.
      * replace ((4 * q + 1 - 1) * 2 ^ k) with (2 * (2 * q * 2 ^ k)) by ring. apply qstick_gt; [lia|].
        replace (2 * q * 2 ^ k * Zpos m2) with (2 * Zpos m2 * q * 2 ^ k) by ring. apply Z.mul_lt_mono_pos_r; lia.
      * replace ((4 * q + 1 + 1) * 2 ^ k) with (2 * ((2 * q + 1) * 2 ^ k)) by ring. apply qstick_lt; [lia|].
        replace ((2 * q + 1) * 2 ^ k * Zpos m2) with ((2 * Zpos m2 * q + Zpos m2) * 2 ^ k) by ring. apply Z.mul_lt_mono_pos_r; lia.
    + split.
      * replace ((4 * q + 3 - 1) * 2 ^ k) with (2 * ((2 * q + 1) * 2 ^ k)) by ring. apply qstick_gt; [lia|].
        replace ((2 * q + 1) * 2 ^ k * Zpos m2) with ((2 * Zpos m2 * q + Zpos m2) * 2 ^ k) by ring. apply Z.mul_lt_mono_pos_r; lia.
      * replace ((4 * q + 3 + 1) * 2 ^ k) with (2 * ((2 * q + 2) * 2 ^ k)) by ring. apply qstick_lt; [lia|].
        replace ((2 * q + 2) * 2 ^ k * Zpos m2) with ((2 * Zpos m2 * q + 2 * Zpos m2) * 2 ^ k) by ring. apply Z.mul_lt_mono_pos_r; lia.
Qed.
Lemma fdiv_mono B1 B2 C2 x x' y : nonneg B1 x -> nonneg B1 x' -> nonneg B2 y -> 2 ^ (C2 + KS) <= fv y ->
  (fv x = 0 \/ 2 ^ (-500 + KS) <= fv x) -> (fv x' = 0 \/ 2 ^ (-500 + KS) <= fv x') ->
  0 <= B1 <= 300 -> B2 <= 300 -> -300 <= C2 <= 0 -> fv x <= fv x' -> fv (fdiv x y) <= fv (fdiv x' y).
Proof.
  intros Hx Hx' Hy Cy Cx Cx' HB1 HB2 HC2 H. assert (P1 : 0 < 2 ^ (-500 + KS)) by (apply pow_pos2; unfold KS; lia).
  assert (P0 : 0 < 2 ^ (C2 + KS)) by (apply pow_pos2; unfold KS; lia).
  destruct (fdiv_sv B1 B2 C2 x y Hx Hy Cy Cx HB1 HB2 HC2) as [N1 ->].
  destruct (fdiv_sv B1 B2 C2 x' y Hx' Hy Cy Cx' HB1 HB2 HC2) as [N2 E2].
  destruct (fv x =? 0) eqn:Z1; [apply fv_nonneg|]. rewrite E2. destruct (fv x' =? 0) eqn:Z2; [lia|].
  assert (PQ : forall v, 0 < v -> 0 < qstick (v * 2 ^ 2999) (fv y)).
  { intros v Hv. apply (qstick_gt _ _ 0); [lia|]. assert (0 < 2 ^ 2999) by (apply pow_pos2; lia). nia. }
  assert (0 < 2 ^ 2999) by (apply pow_pos2; lia).
  apply rv_mono; try (apply PQ; lia); try (unfold KS; lia).
  apply Z.mul_le_mono_nonneg_r; [apply Z.pow_nonneg; lia|]. apply qstick_mono; [lia|]. nia.
Qed.

(** ** Square root *)
Definition sstick (n : Z) : Z := 2 * Z.sqrt n + (if Z.sqrt n * Z.sqrt n =? n then 0 else 1).
Lemma sstick_lt n h : 0 <= n -> 0 <= h -> n < h * h -> sstick n < 2 * h.
Proof. intros Hn Hh H. unfold sstick. assert (Z.sqrt n < h) by (apply Z.sqrt_lt_square; lia). destruct (_ =? _); lia. Qed.
Lemma sstick_gt n h : 0 <= n -> 0 <= h -> h * h < n -> 2 * h < sstick n.
Proof.
  intros Hn Hh H. unfold sstick. assert (h <= Z.sqrt n) by (apply Z.sqrt_le_square; lia).
  destruct (Z.eq_dec h (Z.sqrt n)) as [E|E]; [|destruct (_ =? _); lia]. rewrite <- E.
  replace (h * h =? n) with false by lia. lia.
Qed.
Lemma sstick_exact h : 0 <= h -> sstick (h * h) = 2 * h.
Proof. intro H. unfold sstick. rewrite Z.sqrt_square by exact H. rewrite Z.eqb_refl. lia. Qed.
Lemma sstick_mono n n' : 0 <= n <= n' -> sstick n <= sstick n'.
Proof.
  intro H. pose proof (Z.sqrt_spec n ltac:(lia)) as S1. pose proof (Z.sqrt_spec n' ltac:(lia)) as S2.
  pose proof (Z.sqrt_le_mono n n' ltac:(lia)) as M. unfold sstick.
  cbv zeta in S1, S2. set (r := Z.sqrt n) in *. set (r' := Z.sqrt n') in *. clearbody r r'.
  destruct (Z.eq_dec r r') as [E|E].
  - subst r'. destruct (r * r =? n) eqn:E1; destruct (r * r =? n') eqn:E2; lia.
  - destruct (r * r =? n); destruct (r' * r' =? n'); lia.
Qed.

Lemma fsqrt_sv B x : nonneg B x -> 2 ^ (-500 + KS) <= fv x -> 0 <= B <= 300 ->
  nonneg (B + 1) (fsqrt x) /\ fv (fsqrt x) = rv KS (sstick (fv x * 2 ^ 2998)) (-3000).
Proof.
  intros Hx Cx HB. assert (P1 : 0 < 2 ^ (-500 + KS)) by (apply pow_pos2; unfold KS; lia).
  destruct x as [s1| | |[] m e]; try contradiction; cbn [fv] in Cx; try lia. unfold fsqrt. cbn [SFsqrt].
  cbn [nonneg fv] in *. destruct Hx as (X1 & X2 & X3). unfold emin64 in *.
  assert (P3 : 0 < 2 ^ (e + KS)) by (apply pow_pos2; unfold KS; lia).
  apply log2_ge in Cx; try (unfold KS; lia). unfold SFsqrt_core_binary. rewrite Zdigits2_log2 by lia.
  pose proof (Z.log2_spec (Zpos m) ltac:(lia)) as [L1 L1']. pose proof (Z.log2_nonneg (Zpos m)) as L10.
  set (g := Z.log2 (Zpos m)) in *.
  assert (FE : fexp f64_prec f64_emax (Z.div2 (g + 1 + e + 1)) = Z.div2 (g + 1 + e + 1) - 53).
  { unfold fexp, emin, f64_prec, f64_emax. rewrite Z.div2_div. pose proof (Z.div_mod (g + 1 + e + 1) 2 ltac:(lia)). pose proof (Z.mod_pos_bound (g + 1 + e + 1) 2 ltac:(lia)). lia. }
  rewrite FE, !Z.div2_div. 
  pose proof (Z.div_mod (g + 1 + e + 1) 2 ltac:(lia)) as D1. pose proof (Z.mod_pos_bound (g + 1 + e + 1) 2 ltac:(lia)) as D1'.
  pose proof (Z.div_mod e 2 ltac:(lia)) as D2. pose proof (Z.mod_pos_bound e 2 ltac:(lia)) as D2'.
  set (h1 := (g + 1 + e + 1) / 2) in *. set (h2 := e / 2) in *. set (e' := Z.min (h1 - 53) h2). set (s := e - 2 * e').
  assert (Hs : 0 <= s) by (unfold s, e'; lia).
  assert (Em : match s with Z0 => Zpos m | Zpos _ => Z.shiftl (Zpos m) s | Zneg _ => 0 end = Zpos m * 2 ^ s).
  { destruct s eqn:Es; [change (2 ^ 0) with 1; lia| |lia]. apply Z.shiftl_mul_pow2. lia. }
  rewrite Em. set (m' := Zpos m * 2 ^ s). pose proof (pow_pos2 s Hs) as Ps.
  assert (Pm : 0 < m') by (unfold m'; lia).
  pose proof (Z.sqrtrem_spec m' ltac:(lia)) as SR. destruct (Z.sqrtrem m') as [q r]. destruct SR as [SR Rr].
  assert (Mlow : 2 ^ (g + s) <= m') by (unfold m'; rewrite Z.pow_add_r by lia; apply Z.mul_le_mono_nonneg_r; lia).
  assert (Mhi : m' < 2 ^ (Z.succ g + s)) by (unfold m'; rewrite Z.pow_add_r by lia; apply Z.mul_lt_mono_pos_r; lia).
  assert (Gs : 104 <= g + s) by (unfold s, e'; lia).
  assert (Q52 : 2 ^ 52 <= q).
  { assert (2 ^ 104 <= m') by (apply Z.le_trans with (2 ^ (g + s)); [apply Z.pow_le_mono_r; lia|exact Mlow]).
    change (2 ^ 104) with (2 ^ 52 * 2 ^ 52) in *. set (Q := 2 ^ 52) in *. assert (0 < Q) by reflexivity. nia. }
  assert (Q0 : 0 < q) by (assert (0 < 2 ^ 52) by reflexivity; lia).
  assert (LQ : 52 <= Z.log2 q) by (apply Z.log2_le_pow2; lia).
  set (l := if Zeq_bool r 0 then _ else _).
  rewrite sticky; [|exact Q0|rewrite Zdigits2_log2 by exact Q0; unfold fexp, emin, f64_prec, f64_emax; lia].
  set (a := adj l).
  assert (A : a = 0 /\ r = 0 \/ a = 1 /\ 0 < r <= q \/ a = 3 /\ q < r).
  { unfold a, l, Zeq_bool. destruct (r ?= 0) eqn:C; rewrite ?Z.compare_eq_iff, ?Z.compare_lt_iff, ?Z.compare_gt_iff in C; [left; split; [reflexivity|exact C]|lia|right].
    destruct (r <=? q) eqn:C2; cbn [adj]; lia. }
  assert (LS : Z.log2 (4 * q + a) = Z.log2 q + 2).
  { pose proof (Z.log2_spec q Q0) as [U1 U2]. apply Z.log2_unique; [lia|]. rewrite <- Z.add_succ_l, !Z.pow_add_r by lia.
    change (2 ^ 2) with 4. rewrite Z.pow_succ_r in * by lia. lia. }
  assert (LQ2 : 2 * (Z.log2 q + e') <= g + e).
  { assert (2 * Z.log2 q < Z.succ g + s); [|unfold s in *; lia]. 
    pose proof (Z.log2_spec q Q0) as [U1 U2]. apply (Z.pow_lt_mono_r_iff 2); [lia|lia|].
    eapply Z.le_lt_trans; [|exact Mhi]. replace (2 * Z.log2 q) with (Z.log2 q + Z.log2 q) by lia. rewrite Z.pow_add_r by lia.
    assert (0 < 2 ^ Z.log2 q) by (apply pow_pos2; lia).
    assert (2 ^ Z.log2 q * 2 ^ Z.log2 q <= q * q) by (apply Z.mul_le_mono_nonneg; lia). lia. }
  destruct (round_pos (4 * q + a) (e' - 2) B) as [R1 R2]; try lia; try (unfold e'; lia).
  split; [exact R1|]. rewrite R2.
  set (k := e' - 2 + 3000). assert (Hk : 0 <= k) by (unfold k, e'; lia). pose proof (pow_pos2 k Hk) as Pk.
  assert (EW : Zpos m * 2 ^ (e + KS) * 2 ^ 2998 = m' * ((2 * 2 ^ k) * (2 * 2 ^ k))).
  { unfold m'. rewrite <- Z.pow_succ_r by lia. rewrite <- !Z.mul_assoc, <- !Z.pow_add_r by (unfold KS; lia). do 2 f_equal. unfold s, k, KS. lia. }
  rewrite EW. replace (-3000) with (e' - 2 - k) by (unfold k; lia).
  apply rv_refine; try lia.
  - unfold nexp. lia.
  - rewrite Z.odd_add, Z.odd_mul. cbn [Z.odd andb xorb]. intro O.
    destruct A as [[A Ar]|[[A Ar]|[A Ar]]]; rewrite A in *; try discriminate.
    rewrite SR, Ar. replace ((q * q + 0) * (2 * 2 ^ k * (2 * 2 ^ k))) with ((2 * q * 2 ^ k) * (2 * q * 2 ^ k)) by ring.
    rewrite sstick_exact by (repeat apply Z.mul_nonneg_nonneg; lia). lia.
  - rewrite Z.odd_add, Z.odd_mul. cbn [Z.odd andb xorb]. intro O. set (K := 2 ^ k) in *.
    assert (N0 : 0 <= m' * (2 * K * (2 * K))) by (repeat apply Z.mul_nonneg_nonneg; lia).
    destruct A as [[A Ar]|[[A Ar]|[A Ar]]]; rewrite A in *; try discriminate.
    + split.
      * replace ((4 * q + 1 - 1) * K) with (2 * (2 * q * K)) by ring. apply sstick_gt; [exact N0|repeat apply Z.mul_nonneg_nonneg; lia|].
        replace (2 * q * K * (2 * q * K)) with ((q * q) * (2 * K * (2 * K))) by ring. apply Z.mul_lt_mono_pos_r; [repeat apply Z.mul_pos_pos; lia|lia].
      * replace ((4 * q + 1 + 1) * K) with (2 * ((2 * q + 1) * K)) by ring. apply sstick_lt; [exact N0|repeat apply Z.mul_nonneg_nonneg; lia|].
        replace ((2 * q + 1) * K * ((2 * q + 1) * K)) with ((4 * (q * q) + 4 * q + 1) * (K * K)) by ring.
        replace (m' * (2 * K * (2 * K))) with ((4 * m') * (K * K)) by ring. apply Z.mul_lt_mono_pos_r; [repeat apply Z.mul_pos_pos; lia|lia].
    + split.
      * replace ((4 * q + 3 - 1) * K) with (2 * ((2 * q + 1) * K)) by ring. apply sstick_gt; [exact N0|repeat apply Z.mul_nonneg_nonneg; lia|].
        replace ((2 * q + 1) * K * ((2 * q + 1) * K)) with ((4 * (q * q) + 4 * q + 1) * (K * K)) by ring.
        replace (m' * (2 * K * (2 * K))) with ((4 * m') * (K * K)) by ring. apply Z.mul_lt_mono_pos_r; [repeat apply Z.mul_pos_pos; lia|lia].
      * replace ((4 * q + 3 + 1) * K) with (2 * ((2 * q + 2) * K)) by ring. apply sstick_lt; [exact N0|repeat apply Z.mul_nonneg_nonneg; lia|].
        replace ((2 * q + 2) * K * ((2 * q + 2) * K)) with ((4 * (q * q) + 8 * q + 4) * (K * K)) by ring.
        replace (m' * (2 * K * (2 * K))) with ((4 * m') * (K * K)) by ring. apply Z.mul_lt_mono_pos_r; [repeat apply Z.mul_pos_pos; lia|lia].
Qed.
Lemma fsqrt_mono B x x' : nonneg B x -> nonneg B x' -> 2 ^ (-500 + KS) <= fv x -> 0 <= B <= 300 -> fv x <= fv x' -> fv (fsqrt x) <= fv (fsqrt x').
Proof.
  intros Hx Hx' Cx HB H. assert (P1 : 0 < 2 ^ (-500 + KS)) by (apply pow_pos2; unfold KS; lia).
  destruct (fsqrt_sv B x Hx Cx HB) as [_ ->]. destruct (fsqrt_sv B x' Hx' ltac:(lia) HB) as [_ ->].
  assert (P2 : 0 < 2 ^ 2998) by (apply pow_pos2; lia).
  assert (PQ : forall v, 0 < v -> 0 < sstick (v * 2 ^ 2998)) by (intros v Hv; apply (sstick_gt _ 0); nia).
  apply rv_mono; try (apply PQ; lia); try (unfold KS; lia).
  apply Z.mul_le_mono_nonneg_r; [apply Z.pow_nonneg; lia|]. apply sstick_mono. nia.
Qed.
