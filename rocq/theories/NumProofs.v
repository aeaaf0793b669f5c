(** * NumProofs: speed of sound and Mach numbers. *)
From Coq Require Import ZArith NArith List Bool String Lia.
From Coq Require Import Floats.SpecFloat.
From Coq Require Import ZifyBool ZifyNat ZifyN.
From Verif Require Import PyBase PyFloat Utils SpecNum FloatProofs FloatRN NumTables.
Import List ListNotations.
Local Open Scope list_scope.
Local Open Scope Z_scope.
Ltac Zify.zify_post_hook ::= Z.div_mod_to_equations.

Lemma sos_11000 a : 11000 < a -> sos a = sos 11000.
Proof. intro H. unfold sos. rewrite sos_above by exact H. reflexivity. Qed.
Lemma sos_eq a : 0 <= a -> speed_of_sound_at_altitude a = inr (sos a) /\ nonneg 38 (sos a).
Proof.
  intro H. destruct (Z.le_gt_cases a 11000) as [C|C].
  - split; [|apply sos_low_ok; lia]. unfold sos. rewrite sos_low_eq by lia. reflexivity.
  - rewrite (sos_11000 a C), (sos_above a C). split; [|apply sos_low_ok; lia]. unfold sos. rewrite sos_low_eq by lia. reflexivity.
Qed.
Lemma sos_antitone a b : 0 <= a <= b -> fv (sos b) <= fv (sos a).
Proof.
  intros [Ha Hab]. destruct (Z.le_gt_cases b 11000) as [C|C]; [apply sos_low_anti; lia|]. rewrite (sos_11000 b C).
  destruct (Z.le_gt_cases a 11000) as [D|D]; [apply sos_low_anti; lia|]. rewrite (sos_11000 a D). apply Z.le_refl.
Qed.

Definition machf (m : Z) : f64 := fdiv (f_of_Z m) (f_of_Z 100).
Lemma c100_ok : nonneg 7 (f_of_Z 100) /\ 2 ^ (0 + KS) <= fv (f_of_Z 100).
Proof. split; [apply nonnegb_spec|apply Z.leb_le]; vm_compute; reflexivity. Qed.
Lemma fv_low m : 0 <= m -> m * 2 ^ KS = 0 \/ 2 ^ (-500 + KS) <= m * 2 ^ KS.
Proof.
  intro H. destruct (Z.eq_dec m 0) as [->|N]; [left; reflexivity|right]. apply Z.le_trans with (2 ^ KS); [apply Z.pow_le_mono_r; unfold KS; lia|].
  assert (0 < 2 ^ KS) by (apply pow_pos2; unfold KS; lia). assert (1 * 2 ^ KS <= m * 2 ^ KS) by (apply Z.mul_le_mono_nonneg_r; lia). lia.
Qed.
Lemma machf_ok m : 0 <= m < 1000 -> nonneg 19 (machf m).
Proof.
  intro H. destruct (f_of_Z_20 m) as [N E]; [change (2 ^ 17) with 131072; lia|]. destruct c100_ok as [C1 C2].
  refine (proj1 (fdiv_sv 17 7 0 _ _ N C1 C2 _ ltac:(lia) ltac:(lia) ltac:(lia))). rewrite E. apply fv_low. lia.
Qed.
Lemma machf_mono m m' : 0 <= m <= m' -> m' < 1000 -> fv (machf m) <= fv (machf m').
Proof.
  intros H H'. destruct (f_of_Z_20 m) as [N E]; [change (2 ^ 17) with 131072; lia|].
  destruct (f_of_Z_20 m') as [N' E']; [change (2 ^ 17) with 131072; lia|]. destruct c100_ok as [C1 C2].
  refine (fdiv_mono 17 7 0 _ _ _ N N' C1 C2 _ _ ltac:(lia) ltac:(lia) ltac:(lia) _); rewrite ?E, ?E'; try (apply fv_low; lia).
  apply Z.mul_le_mono_nonneg_r; [apply Z.pow_nonneg; lia|lia].
Qed.
(** The speed of sound used for an altitude in metres. *)
Definition sound (alt : Z) : f64 := if alt =? 0 then MACH_TO_METERS_SECOND else sos alt.
Lemma sound_ok alt : 0 <= alt -> nonneg 38 (sound alt).
Proof.
  intro H. unfold sound. destruct (alt =? 0); [|exact (proj2 (sos_eq alt H))]. apply nonnegb_spec. vm_compute. reflexivity.
Qed.
Lemma mach_eq m alt : 0 <= alt -> mach_to_ms_speed m alt = inr (fmul (machf m) (sound alt)).
Proof.
  intro H. unfold mach_to_ms_speed, sound, machf. destruct (alt =? 0); [reflexivity|].
  now destruct (sos_eq alt H) as [-> _].
Qed.
Lemma half_ok : nonneg 60 half /\ 0 < fv half.
Proof. split; [apply nonnegb_spec|]; vm_compute; reflexivity. Qed.
Definition mach_ms (m alt : Z) : Z := fv (fadd (fmul (machf m) (sound alt)) half) / 2 ^ KS.
Lemma mach_prod m alt : 0 <= m < 1000 -> 0 <= alt -> nonneg 59 (fmul (machf m) (sound alt)).
Proof. intros Hm Ha. apply (fmul_spec 19 38); [now apply machf_ok|now apply sound_ok|lia]. Qed.
Lemma mach_sum m alt : 0 <= m < 1000 -> 0 <= alt -> nonneg 62 (fadd (fmul (machf m) (sound alt)) half).
Proof.
  intros Hm Ha. pose proof (nonneg_le 59 60 _ (mach_prod m alt Hm Ha) ltac:(lia)) as P. destruct half_ok as [H1 H2].
  destruct (nonneg_sum 60 _ half P H1) as [E|(mm & e & M & Ee & V)]; [pose proof (fv_nonneg (fmul (machf m) (sound alt))); lia|].
  apply (fadd_spec 60 _ half mm e); auto; lia.
Qed.
Lemma mach_conv m alt : 0 <= m < 1000 -> 0 <= alt ->
  exists f, mach_to_ms_speed m alt = inr f /\ f_trunc (fadd f half) = inr (mach_ms m alt).
Proof.
  intros Hm Ha. exists (fmul (machf m) (sound alt)). split; [now apply mach_eq|]. unfold mach_ms.
  apply (trunc_spec 62). now apply mach_sum.
Qed.
Lemma mach_ms_mono m m' alt alt' : 0 <= m <= m' -> m' < 1000 -> 0 <= alt' <= alt -> mach_ms m alt <= mach_ms m' alt'.
Proof.
  intros Hm Hm' Ha. unfold mach_ms. apply Z.div_le_mono; [apply Z.pow_pos_nonneg; unfold KS; lia|].
  assert (N : forall m a, 0 <= m < 1000 -> 0 <= a -> nonneg 60 (fmul (machf m) (sound a))).
  { intros. apply (nonneg_le 59); [|lia]. now apply mach_prod. }
  assert (L : 0 <= m' < 1000) by lia. assert (L0 : 0 <= m < 1000) by lia. assert (La : 0 <= alt) by lia. assert (La' : 0 <= alt') by lia.
  refine (fadd_mono 60 _ _ half (N _ _ L0 La) (N _ _ L La') (proj1 half_ok) _ (proj2 half_ok) _); [lia|].
  apply Z.le_trans with (fv (fmul (machf m') (sound alt))).
  - refine (fmul_mono 19 38 _ _ _ (machf_ok _ L0) (machf_ok _ L) (sound_ok _ La) _ _); [lia|]. apply machf_mono; lia.
  - refine (fmul_mono_r 19 38 _ _ _ (machf_ok _ L) (sound_ok _ La) (sound_ok _ La') _ _); [lia|].
    unfold sound. destruct (alt =? 0) eqn:E1, (alt' =? 0) eqn:E2; try lia.

    + apply Z.le_trans with (fv (sos 0)); [apply sos_antitone; lia|]. apply Z.leb_le. vm_compute. reflexivity.
    + apply sos_antitone. lia.
Qed.
