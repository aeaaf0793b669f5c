(** * Bearings: latitudes and longitudes are ordered as the places they stand for (lemmas behind PropsBearings). *)
From Coq Require Import ZArith NArith List Bool String Lia.
From Coq Require Import ZifyBool ZifyNat ZifyN.
From Coq Require Import Floats.SpecFloat.
From Verif Require Import PyBase PyFloat Enums Tokenizer Ers Utils Parser SpecNum SpecParser SpecGrammar SpecLegs SpecReader SpecComplete SpecOrder SpecBearings.
From Verif Require Import FloatProofs GeoTables PointEq NumFacts LegFacts Reader ReaderFacts CompleteFacts ErsFacts Writing Reuse.
From Verif Require NumTables.
Import List ListNotations.
Local Open Scope list_scope.
Local Open Scope Z_scope.

(** The double for [d] degrees and [m] minutes. *)
Definition dm (d m : Z) : f64 := fadd (f_of_Z d) (fdiv (f_of_Z m) (f_of_Z 60)).
Lemma dm_dm d m : dm d m = dm_val d m.
Proof. unfold dm, dm_val. now rewrite sixty_eq. Qed.
Lemma dm_whole d : 0 <= d < 1000 -> dm d 0 = f_of_Z d.
Proof. intro H. apply plus_nothing. change (2 ^ 53) with 9007199254740992. lia. Qed.
Lemma value_signed neg y : finite_nonneg y -> value (signed neg y) = minus_if neg (scaled y).
Proof. destruct y as [[]|[]| |[] m e]; intro H; try contradiction; destruct neg; reflexivity. Qed.
Lemma hemi_value neg d m : 0 <= d < 1000 -> 0 <= m < 100 -> value (SpecComplete.times_minus_one neg (dm d m)) = minus_if neg (fv (dm d m)).
Proof.
  intros Hd Hm. rewrite dm_dm. destruct (dm_spec d m Hd Hm) as [N _]. rewrite <- hemi_eq. destruct (hemi_signed 19 neg _ N ltac:(lia)) as (y & -> & F & S).
  rewrite value_signed by exact F. now rewrite S.
Qed.
Lemma digits2 a b : forallb is_digit [a; b] = true -> 0 <= decimal [a; b] < 100.
Proof. intro H. exact (dnum_bound [a; b] 2 ltac:(unfold zlen; cbn; lia) H). Qed.
Lemma digits3 a b c : forallb is_digit [a; b; c] = true -> 0 <= decimal [a; b; c] < 1000.
Proof. intro H. exact (dnum_bound [a; b; c] 3 ltac:(unfold zlen; cbn; lia) H). Qed.

Section G.
Variable G : geodesic.
Lemma occurs_exact r : occurs G r -> exact_pos G r.
Proof.
  intros (d & f & b & s & P & I). change (reparse G d f new_ers 0 = Ok b s) in P.
  destruct (used_made G _ (used_again G d f new_ers 0 b s (used_new G) P)) as (e & _ & E & _). rewrite Forall_forall in E. exact (E r I).
Qed.
(** The text of a record with coordinates that are not computed. *)
Lemma occurs_text r : occurs G r -> r_llv r = true -> plain_point (r_name r) -> deg_text (r_name r) [] \/ min_text (r_name r) [].
Proof.
  intros (d & f & b & s & P & I) V L. destruct (coords_all G d f b s r P I) as [(N & _)|[_ C]]; [congruence|].
  assert (X : forall rest la lo, lat_long (r_name r) rest la lo -> zlen rest = 0 \/ zlen rest = 6 -> deg_text (r_name r) [] \/ min_text (r_name r) []).
  { intros rest la lo [(D & h & g & e & x & y & E & A & L1 & L2 & Hh & He & _)|(D & m & h & g & n & e & x & y & E & A & L1 & L2 & L3 & L4 & Hh & He & _)] Z.
    - assert (rest = []) by (destruct L as [L|L]; rewrite E in L; rewrite !app_length in L; unfold zlen in *; cbn [length] in L; destruct rest; [reflexivity|cbn [length] in *; lia|reflexivity|cbn [length] in *; lia]).
      subst rest. left. destruct D as [|d1 [|d2 [|? ?]]]; try (unfold zlen in L1; cbn [length] in L1; lia). destruct g as [|g1 [|g2 [|g3 [|? ?]]]]; try (unfold zlen in L2; cbn [length] in L2; lia).
      apply NumTables.all_digits_forallb in A. exists d1, d2, h, g1, g2, g3, e. rewrite E. split; [reflexivity|]. split; [exact A|]. cbn in Hh, He. unfold hemi_ns, hemi_ew. intuition auto.
    - assert (rest = []) by (destruct L as [L|L]; rewrite E in L; rewrite !app_length in L; unfold zlen in *; cbn [length] in L; destruct rest; [reflexivity|cbn [length] in *; lia|reflexivity|cbn [length] in *; lia]).
      subst rest. right. destruct D as [|d1 [|d2 [|? ?]]]; try (unfold zlen in L1; cbn [length] in L1; lia). destruct m as [|m1 [|m2 [|? ?]]]; try (unfold zlen in L2; cbn [length] in L2; lia).
      destruct g as [|g1 [|g2 [|g3 [|? ?]]]]; try (unfold zlen in L3; cbn [length] in L3; lia). destruct n as [|n1 [|n2 [|? ?]]]; try (unfold zlen in L4; cbn [length] in L4; lia).
      apply NumTables.all_digits_forallb in A. exists d1, d2, m1, m2, h, g1, g2, g3, n1, n2, e. rewrite E. split; [reflexivity|]. split; [exact A|]. cbn in Hh, He. unfold hemi_ns, hemi_ew. intuition auto. }
  destruct C as [C|(bb & dd & la0 & lo0 & brg & dist & C & A & L1 & L2 & _)]; [exact (X _ _ _ C (or_introl eq_refl))|].
  apply (X _ _ _ C). right. unfold zlen in *. rewrite app_length. lia.
Qed.
Definition in_range (s : pstr) : Prop := 0 <= lat_degrees s < 1000 /\ 0 <= lat_minutes s < 100 /\ 0 <= lon_degrees s < 1000 /\ 0 <= lon_minutes s < 100.
Lemma stored r : occurs G r -> r_llv r = true -> plain_point (r_name r) -> let s := r_name r in in_range s /\
  value (r_lat r) = minus_if (southern s) (fv (dm (lat_degrees s) (lat_minutes s))) /\
  value (r_lon r) = minus_if (western s) (fv (dm (lon_degrees s) (lon_minutes s))).
Proof.
  intros O V L s. destruct (occurs_exact r O) as [_ C]. rewrite V in C. destruct (occurs_text r O V L) as [T|T]; fold s in C, T; clearbody s.
  - destruct T as (d1 & d2 & h & g1 & g2 & g3 & e & -> & A & _). cbn [forallb] in A.
    assert (A1 : forallb is_digit [d1; d2] = true) by (cbn [forallb]; repeat rewrite andb_true_iff in *; tauto). assert (A2 : forallb is_digit [g1; g2; g3] = true) by (cbn [forallb]; repeat rewrite andb_true_iff in *; tauto).
    pose proof (digits2 _ _ A1). pose proof (digits3 _ _ _ A2).
    assert (I : in_range [d1; d2; h; g1; g2; g3; e]).
    { unfold in_range. change (lat_degrees _) with (decimal [d1; d2]). change (lat_minutes _) with 0. change (lon_degrees _) with (decimal [g1; g2; g3]). change (lon_minutes _) with 0. lia. }
    split; [exact I|]. destruct I as (I1 & I2 & I3 & I4). rewrite <- !hemi_value by assumption.
    change (lat_minutes [d1; d2; h; g1; g2; g3; e]) with 0. change (lon_minutes [d1; d2; h; g1; g2; g3; e]) with 0. rewrite !dm_whole by assumption. injection C as -> ->. split; reflexivity.
  - destruct T as (d1 & d2 & m1 & m2 & h & g1 & g2 & g3 & n1 & n2 & e & -> & A & _). cbn [forallb] in A.
    assert (A1 : forallb is_digit [d1; d2] = true) by (cbn [forallb]; repeat rewrite andb_true_iff in *; tauto). assert (A2 : forallb is_digit [g1; g2; g3] = true) by (cbn [forallb]; repeat rewrite andb_true_iff in *; tauto).
    assert (A3 : forallb is_digit [m1; m2] = true) by (cbn [forallb]; repeat rewrite andb_true_iff in *; tauto). assert (A4 : forallb is_digit [n1; n2] = true) by (cbn [forallb]; repeat rewrite andb_true_iff in *; tauto).
    pose proof (digits2 _ _ A1). pose proof (digits3 _ _ _ A2). pose proof (digits2 _ _ A3). pose proof (digits2 _ _ A4).
    assert (I : in_range [d1; d2; m1; m2; h; g1; g2; g3; n1; n2; e]).
    { unfold in_range. change (lat_degrees _) with (decimal [d1; d2]). change (lat_minutes _) with (decimal [m1; m2]). change (lon_degrees _) with (decimal [g1; g2; g3]). change (lon_minutes _) with (decimal [n1; n2]). lia. }
    split; [exact I|]. destruct I as (I1 & I2 & I3 & I4). rewrite <- !hemi_value by assumption. injection C as -> ->. split; reflexivity.
Qed.
End G.

(** ** The order *)
Lemma dm_near d m : 0 <= d < 1000 -> 0 <= m < 100 -> Z.abs (60 * fv (dm d m) - (60 * d + m) * 2 ^ KS) * 2 ^ 43 <= 60 * 2 ^ KS /\ 0 <= fv (dm d m).
Proof. intros Hd Hm. rewrite dm_dm. split; [exact (proj2 (dm_spec d m Hd Hm))|apply fv_nonneg]. Qed.
Lemma near_order K (n n' : Z) x x' a a' : 0 < K -> 0 <= n -> 0 <= n' -> 0 <= x -> 0 <= x' -> Z.abs (60 * x - n * K) * 2 ^ 43 <= 60 * K -> Z.abs (60 * x' - n' * K) * 2 ^ 43 <= 60 * K ->
  minus_if a n < minus_if a' n' -> minus_if a x < minus_if a' x'.
Proof.
  change (2 ^ 43) with 8796093022208. intros HK Hn Hn' Hx Hx' H H' L. destruct a, a'; cbn [minus_if] in *.
  - assert (K <= (n - n') * K) by nia. lia.
  - assert (K <= (n' + n) * K) by nia. assert (60 * (x' + x) > 0) by lia. lia.
  - lia.
  - assert (K <= (n' - n) * K) by nia. lia.
Qed.
Lemma same_minutes d m d' m' a a' : 0 <= d -> 0 <= m < 60 -> 0 <= d' -> 0 <= m' < 60 -> minus_if a (60 * d + m) = minus_if a' (60 * d' + m') ->
  minus_if a (fv (dm d m)) = minus_if a' (fv (dm d' m')).
Proof.
  intros Hd Hm Hd' Hm' E. assert (Z0 : fv (dm 0 0) = 0) by (vm_compute; reflexivity). destruct a, a'; cbn [minus_if] in *; assert (d = d' /\ m = m') as [-> ->] by lia; try reflexivity;
  assert (d' = 0 /\ m' = 0) as [-> ->] by lia; rewrite Z0; reflexivity.
Qed.

Section Two.
Variables G G' : geodesic.
Variables r r' : rrec.
Hypothesis O : occurs G r. Hypothesis O' : occurs G' r'.
Hypothesis V : r_llv r = true. Hypothesis V' : r_llv r' = true.
Hypothesis L : plain_point (r_name r). Hypothesis L' : plain_point (r_name r').
Lemma KS_pos : 0 < 2 ^ KS. Proof. apply Z.pow_pos_nonneg; unfold KS; lia. Qed.
Lemma lat_order : north (r_name r) < north (r_name r') -> value (r_lat r) < value (r_lat r').
Proof.
  destruct (stored G r O V L) as ((A1 & A2 & A3 & A4) & E & _), (stored G' r' O' V' L') as ((B1 & B2 & B3 & B4) & F & _). rewrite E, F.
  destruct (dm_near _ _ A1 A2) as [N1 N2], (dm_near _ _ B1 B2) as [M1 M2]. unfold north. apply (near_order (2 ^ KS)); try assumption; try lia. exact KS_pos.
Qed.
Lemma lon_order : east (r_name r) < east (r_name r') -> value (r_lon r) < value (r_lon r').
Proof.
  destruct (stored G r O V L) as ((A1 & A2 & A3 & A4) & _ & E), (stored G' r' O' V' L') as ((B1 & B2 & B3 & B4) & _ & F). rewrite E, F.
  destruct (dm_near _ _ A3 A4) as [N1 N2], (dm_near _ _ B3 B4) as [M1 M2]. unfold east. apply (near_order (2 ^ KS)); try assumption; try lia. exact KS_pos.
Qed.
Lemma lat_same : lat_minutes (r_name r) < 60 -> lat_minutes (r_name r') < 60 -> north (r_name r) = north (r_name r') -> value (r_lat r) = value (r_lat r').
Proof.
  destruct (stored G r O V L) as ((A1 & A2 & A3 & A4) & E & _), (stored G' r' O' V' L') as ((B1 & B2 & B3 & B4) & F & _). rewrite E, F. intros. apply same_minutes; try lia. assumption.
Qed.
Lemma lon_same : lon_minutes (r_name r) < 60 -> lon_minutes (r_name r') < 60 -> east (r_name r) = east (r_name r') -> value (r_lon r) = value (r_lon r').
Proof.
  destruct (stored G r O V L) as ((A1 & A2 & A3 & A4) & _ & E), (stored G' r' O' V' L') as ((B1 & B2 & B3 & B4) & _ & F). rewrite E, F. intros. apply same_minutes; try lia. assumption.
Qed.
End Two.
Lemma lat_iff G G' r r' : occurs G r -> occurs G' r' -> r_llv r = true -> r_llv r' = true -> plain_point (r_name r) -> plain_point (r_name r') -> orderly (r_name r) -> orderly (r_name r') ->
  ((value (r_lat r) ?= value (r_lat r')) = (north (r_name r) ?= north (r_name r'))) /\ ((value (r_lon r) ?= value (r_lon r')) = (east (r_name r) ?= east (r_name r'))).
Proof.
  intros O O' V V' L L' [T1 T2] [T1' T2']. split.
  - destruct (Z.compare_spec (north (r_name r)) (north (r_name r'))) as [E|E|E].
    + apply Z.compare_eq_iff. exact (lat_same G G' r r' O O' V V' L L' T1 T1' E).
    + apply Z.compare_lt_iff. exact (lat_order G G' r r' O O' V V' L L' E).
    + apply Z.compare_gt_iff. exact (lat_order G' G r' r O' O V' V L' L E).
  - destruct (Z.compare_spec (east (r_name r)) (east (r_name r'))) as [E|E|E].
    + apply Z.compare_eq_iff. exact (lon_same G G' r r' O O' V V' L L' T2 T2' E).
    + apply Z.compare_lt_iff. exact (lon_order G G' r r' O O' V V' L L' E).
    + apply Z.compare_gt_iff. exact (lon_order G' G r' r O' O V' V L' L E).
Qed.
