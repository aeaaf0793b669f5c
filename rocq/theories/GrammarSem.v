(** * GrammarSem: the value conditions of SpecGrammar are exactly those under which the
    parser's value checks report nothing. *)
From Coq Require Import ZArith NArith List Bool String Lia.
From Coq Require Import ZifyBool ZifyNat ZifyN.
From Verif Require Import PyBase Enums ErrorTable Regex SyntaxTable Syntax Tokenizer Ers Parser.
From Verif Require Import TokenizerProofs RegexProofs SyntaxProofs SpecNum NumTables NumProofs ParserPrims PerfEq PointEq SpecParser ParserInv SpecGrammar.
Import List ListNotations.
Local Open Scope list_scope.
Local Open Scope nat_scope.

(** ** Levels *)
Lemma lvl_errs_fl t s : lvl_errs t s = [] <-> fl_ok s.
Proof.
  unfold lvl_errs, fl_ok. destruct s as [|c ds]; [tauto|]. destruct (N.eqb c 70) eqn:E; cbn [andb].
  - destruct (decimal ds mod 5 =? 0)%Z eqn:E5; cbn [negb]; (split; [intros H|intros H]); try discriminate; try reflexivity.
    + intros _. now apply Z.eqb_eq.
    + apply N.eqb_eq in E. apply Z.eqb_neq in E5. now apply H in E.
  - split; [|reflexivity]. intros _ K. apply N.eqb_neq in E. contradiction.
Qed.
Definition cls (i : nat) (sh : shape) : list (N * N) := nth i sh [].
Definition only (rs : list (N * N)) (l : list N) : bool := shape_incl [rs] [map (fun c => (c, c)) l].
(** The speed ends at [a] and the first level at [b]. *)
Definition cuts (a b : nat) (sh : shape) : bool :=
  (b <=? length sh)%nat && (match a with 4 => only (cls 0 sh) [77%N] | 5 => misses (cls 0 sh) 77 | _ => false end)
  && (match b - a with 4 => only (cls a sh) [70; 65]%N | 5 => misses (cls a sh) 70 && misses (cls a sh) 65 | _ => false end).
Lemma only_spec rs l c : only rs l = true -> in_ranges c rs = true -> In c l.
Proof.
  intros H Hc. unfold only in H. assert (K : shape_in [map (fun c => (c, c)) l] [c]).
  { apply (shape_incl_sound _ _ _ H). constructor; [exact Hc|constructor]. }
  inversion K as [|? ? ? ? K1]; subst. unfold in_ranges in K1. apply existsb_exists in K1 as ((x & y) & K1 & K2).
  apply in_map_iff in K1 as (z & E & Hz). injection E as <- <-. assert (c = z) as -> by (cbn in K2; lia). exact Hz.
Qed.
Lemma cls_spec i sh s : shape_in sh s -> i < length sh -> exists c r, skipn i s = c :: r /\ in_ranges c (cls i sh) = true.
Proof.
  intro H. revert i. induction H as [|rs c sh s H1 H IH]; intros i Hi; cbn [length] in Hi; [lia|].
  destruct i as [|i]; [exists c, s; split; [reflexivity|exact H1]|]. cbn [skipn cls nth]. apply IH. lia.
Qed.
Lemma slice_sub {A} (s : list A) (a b : nat) : b <= length s -> a <= b -> slice s (Some (Z.of_nat a)) (Some (Z.of_nat b)) = firstn (b - a) (skipn a s).
Proof.
  intros H1 H2. unfold slice, slice_bound. unfold zlen.
  destruct (Z.of_nat a <? 0)%Z eqn:E1; [lia|]. destruct (Z.of_nat b <? 0)%Z eqn:E2; [lia|].
  replace (Z.to_nat (Z.max 0 (Z.min (Z.of_nat (length s)) (Z.of_nat a)))) with a by lia.
  f_equal. lia.
Qed.
Lemma slice_from {A} (s : list A) (a : nat) : slice s (Some (Z.of_nat a)) None = skipn a s.
Proof.
  unfold slice, slice_bound, zlen. destruct (_ <? 0)%Z eqn:E1; [lia|].
  destruct (Nat.le_gt_cases a (length s)).
  - replace (Z.to_nat (Z.max 0 (Z.min (Z.of_nat (length s)) (Z.of_nat a)))) with a by lia.
    apply firstn_all2. rewrite skipn_length. lia.
  - replace (Z.to_nat (Z.max 0 (Z.min (Z.of_nat (length s)) (Z.of_nat a)))) with (length s) by lia.
    rewrite skipn_all, firstn_nil. symmetry. apply skipn_all2. lia.
Qed.
Lemma cuts_spec a b sh s : cuts a b sh = true -> shape_in sh s ->
  speed_len s = a /\ level_len (after_speed s) = b - a /\ b <= length s /\ a <= b /\
  (b - a = 4 <-> exists d r, skipn a s = d :: r /\ is_feet d = true) /\
  exists c r, s = c :: r /\ (c = 77%N <-> a = 4).
Proof.
  intros H Hs. unfold cuts in H. apply andb_true_iff in H as [H H3]. apply andb_true_iff in H as [H1 H2]. apply Nat.leb_le in H1.
  assert (Ln : length sh = length s) by exact (Forall2_len _ _ _ Hs).
  assert (Hab : a <= b /\ a < length sh /\ (a = 4 \/ a = 5)).
  { destruct (b - a) as [|x] eqn:E; [discriminate|]. do 5 (destruct a as [|a]; [first [discriminate|lia]|]). destruct a; [lia|discriminate]. }
  destruct Hab as (Hab & Hal & Ha).
  destruct (cls_spec 0 sh s Hs ltac:(lia)) as (c & r & Es & Hc). cbn [skipn] in Es.
  destruct (cls_spec a sh s Hs Hal) as (d & r' & Ed & Hd).
  assert (S1 : (a = 4 /\ c = 77%N) \/ (a = 5 /\ c <> 77%N)).
  { destruct Ha as [-> | ->].
    - left. split; [reflexivity|]. destruct (only_spec _ _ _ H2 Hc) as [<-|[]]; reflexivity.
    - right. split; [reflexivity|]. intros ->. unfold misses in H2. rewrite Hc in H2. discriminate. }
  assert (S2 : (b - a = 4 /\ is_feet d = true) \/ (b - a = 5 /\ is_feet d = false)).
  { destruct (b - a) as [|[|[|[|[|[|x]]]]]]; try discriminate.
    - left. split; [reflexivity|]. destruct (only_spec _ _ _ H3 Hd) as [<-|[<-|[]]]; reflexivity.
    - right. split; [reflexivity|]. apply andb_true_iff in H3 as [M1 M2]. unfold misses in *. unfold is_feet.
      destruct (N.eqb d 70) eqn:E1; [apply N.eqb_eq in E1; subst; rewrite Hd in M1; discriminate|].
      destruct (N.eqb d 65) eqn:E2; [apply N.eqb_eq in E2; subst; rewrite Hd in M2; discriminate|]. reflexivity. }
  assert (SL : speed_len s = a).
  { rewrite Es. unfold speed_len. destruct (N.eqb c 77) eqn:E; lia. }
  split; [exact SL|]. split; [unfold after_speed; rewrite SL, Ed; unfold level_len; destruct S2 as [[-> ->]|[-> ->]]; reflexivity|].
  split; [lia|]. split; [exact Hab|]. split.
  - split.
    + intro E. exists d, r'. split; [exact Ed|]. destruct S2 as [[_ K]|[K _]]; [exact K|lia].
    + intros (d' & r'' & E' & K). rewrite Ed in E'. injection E' as -> ->. destruct S2 as [[K' _]|[_ K']]; [exact K'|congruence].
  - exists c, r. split; [exact Es|]. lia.
Qed.
Lemma first_level_cut a b sh s : cuts a b sh = true -> shape_in sh s -> first_level s = slice s (Some (Z.of_nat a)) (Some (Z.of_nat b)).
Proof.
  intros H Hs. destruct (cuts_spec a b sh s H Hs) as (E1 & E2 & E3 & E4 & _). unfold first_level. rewrite E2. unfold after_speed. rewrite E1.
  now rewrite slice_sub.
Qed.

(** By sub type. *)
Definition sa_cuts (sb : sub_type) (sh : shape) : bool :=
  match sa_cut sb with Some a => cuts (Z.to_nat a) (length sh) sh | None => false end.
Definition sap_cuts (sb : sub_type) (sh : shape) : bool :=
  match sap_cut sb with Some (a, b) => cuts (Z.to_nat a) (Z.to_nat b) sh | None => false end.
Definition saa_cuts (sb : sub_type) (sh : shape) : bool :=
  match saa_cut sb with
  | Some (a, b, c) => cuts (Z.to_nat a) (Z.to_nat b) sh
      && (if (a =? 5)%Z && (b =? 9)%Z then (c =? 9)%Z
          else (c =? b + 1)%Z && forallb (fun rs => misses rs 70) (skipn (Z.to_nat c) sh))
  | None => false
  end.
Definition na_disjoint (sb : sub_type) (sh : shape) : bool :=
  is_na_sm sb || negb (length sh =? 15)%nat || misses (cls 0 sh) 78 || misses (cls 5 sh) 65 || (misses (cls 10 sh) 83 && misses (cls 10 sh) 77).
Lemma sa_cuts_all : all_rows F15_SPEED_ALTITUDE sa_cuts = true. Proof. vm_compute. reflexivity. Qed.
Lemma sap_cuts_all : all_rows F15_SPEED_ALTITUDE_PLUS sap_cuts = true. Proof. vm_compute. reflexivity. Qed.
Lemma saa_cuts_all : all_rows F15_SPEED_ALTITUDE_ALTITUDE saa_cuts = true. Proof. vm_compute. reflexivity. Qed.
Lemma na_disjoint_all : all_rows F15_SPEED_ALTITUDE_ALTITUDE na_disjoint = true. Proof. vm_compute. reflexivity. Qed.
Lemma of_to z : (0 <= z)%Z -> Z.of_nat (Z.to_nat z) = z. Proof. lia. Qed.
Lemma sa_cut_pos sb a : sa_cut sb = Some a -> (0 <= a)%Z. Proof. destruct sb; cbn; try discriminate; intro H; injection H as <-; lia. Qed.
Lemma sap_cut_pos sb a b : sap_cut sb = Some (a, b) -> (0 <= a /\ 0 <= b)%Z. Proof. destruct sb; cbn; try discriminate; intro H; injection H as <- <-; lia. Qed.
Lemma saa_cut_pos sb a b c : saa_cut sb = Some (a, b, c) -> (0 <= a /\ 0 <= b /\ 0 <= c)%Z. Proof. destruct sb; cbn; try discriminate; intro H; injection H as <- <- <-; lia. Qed.

Lemma sa_first t a : wt t -> t_base t = F15_SPEED_ALTITUDE -> sa_cut (t_sub t) = Some a -> first_level (t_text t) = text_from a t.
Proof.
  intros H Hb Ha. destruct (all_rows_spec F15_SPEED_ALTITUDE _ t ltac:(discriminate) ltac:(discriminate) H Hb sa_cuts_all) as (sh & Hs & K).
  unfold sa_cuts in K. rewrite Ha in K. rewrite (first_level_cut _ _ _ _ K Hs). pose proof (sa_cut_pos _ _ Ha).
  destruct (cuts_spec _ _ _ _ K Hs) as (_ & _ & B1 & B2 & _).
  pose proof (Forall2_len _ _ _ Hs) as Ln. unfold text_from. rewrite <- (of_to a) at 2 by lia. rewrite slice_from.
  rewrite slice_sub by lia. apply firstn_all2. rewrite skipn_length. apply Nat.sub_le_mono_r, Nat.eq_le_incl. symmetry. exact Ln.
Qed.
Lemma sap_first t a b : wt t -> t_base t = F15_SPEED_ALTITUDE_PLUS -> sap_cut (t_sub t) = Some (a, b) -> first_level (t_text t) = text_mid a b t.
Proof.
  intros H Hb Ha. destruct (all_rows_spec F15_SPEED_ALTITUDE_PLUS _ t ltac:(discriminate) ltac:(discriminate) H Hb sap_cuts_all) as (sh & Hs & K).
  unfold sap_cuts in K. rewrite Ha in K. rewrite (first_level_cut _ _ _ _ K Hs). destruct (sap_cut_pos _ _ _ Ha).
  unfold text_mid. now rewrite !of_to by lia.
Qed.
Lemma sa_levels t a : wt t -> t_base t = F15_SPEED_ALTITUDE -> sa_cut (t_sub t) = Some a ->
  (lvl_errs t (text_from a t) = [] <-> levels_ok t).
Proof. intros H Hb Ha. unfold levels_ok. rewrite Hb, (sa_first t a H Hb Ha). apply lvl_errs_fl. Qed.
Lemma sap_levels t a b : wt t -> t_base t = F15_SPEED_ALTITUDE_PLUS -> sap_cut (t_sub t) = Some (a, b) ->
  (lvl_errs t (text_mid a b t) = [] <-> levels_ok t).
Proof. intros H Hb Ha. unfold levels_ok. rewrite Hb, (sap_first t a b H Hb Ha). apply lvl_errs_fl. Qed.
Lemma misses_all sh s : forallb (fun rs => misses rs 70) sh = true -> shape_in sh s -> fl_ok s.
Proof.
  intros H Hs. destruct Hs as [|rs c sh s H1 Hs]; [exact I|]. cbn [fl_ok forallb] in *. intros ->.
  apply andb_true_iff in H as [H _]. unfold misses in H. rewrite H1 in H. discriminate.
Qed.
Lemma na_iff t : wt t -> t_base t = F15_SPEED_ALTITUDE_ALTITUDE -> raising_text (t_text t) -> is_na_sm (t_sub t) = true.
Proof.
  intros H Hb (da & db & dc & x & E & Hx & D1 & D2 & D3 & Z1 & Z2 & Z3).
  destruct (all_rows_spec F15_SPEED_ALTITUDE_ALTITUDE _ t ltac:(discriminate) ltac:(discriminate) H Hb na_disjoint_all) as (sh & Hs & K).
  destruct (is_na_sm (t_sub t)) eqn:En; [reflexivity|exfalso]. unfold na_disjoint in K. rewrite En in K. cbn [orb] in K.
  unfold zlen in *. assert (Lt : length (t_text t) = 15) by (rewrite E; cbn [length]; rewrite app_length; cbn [length]; rewrite app_length; cbn [length]; lia).
  assert (Ls : length sh = 15) by (rewrite <- Lt; exact (Forall2_len _ _ _ Hs)). rewrite Ls in K. cbn [Nat.eqb negb orb] in K.
  destruct da as [|a1 [|a2 [|a3 [|a4 [|]]]]]; cbn [length] in Z1; try lia.
  destruct db as [|b1 [|b2 [|b3 [|b4 [|]]]]]; cbn [length] in Z2; try lia. cbn [app] in E.
  destruct (cls_spec 0 sh _ Hs ltac:(lia)) as (c0 & r0 & E0 & H0).
  destruct (cls_spec 5 sh _ Hs ltac:(lia)) as (c5 & r5 & E5 & H5).
  destruct (cls_spec 10 sh _ Hs ltac:(lia)) as (c10 & r10 & E10 & H10).
  rewrite E in E0, E5, E10. cbn [skipn] in E0, E5, E10. injection E0 as <- _. injection E5 as <- _. injection E10 as <- _.
  unfold misses in K. rewrite H0, H5 in K. cbn [negb orb] in K. destruct Hx as [-> | ->]; rewrite H10 in K; rewrite ?andb_false_r in K; discriminate.
Qed.
Lemma na_levels t : wt t -> t_base t = F15_SPEED_ALTITUDE_ALTITUDE -> is_na_sm (t_sub t) = true -> ~ levels_ok t.
Proof. intros H Hb En K. unfold levels_ok in K. rewrite Hb in K. destruct K as (_ & _ & K). apply K. now apply na_text. Qed.
Lemma target_iff s c r d r' : s = c :: r -> after_speed s = d :: r' -> (target_checked s <-> c <> 77%N /\ is_feet d = true).
Proof. intros -> E. unfold target_checked. rewrite E. tauto. Qed.
Lemma saa_levels t a b c : wt t -> t_base t = F15_SPEED_ALTITUDE_ALTITUDE -> saa_cut (t_sub t) = Some (a, b, c) -> is_na_sm (t_sub t) = false ->
  (lvl_errs t (text_mid a b t) ++ lvl_errs t (text_from c t) = [] <-> levels_ok t).
Proof.
  intros H Hb Ha En. unfold levels_ok. rewrite Hb.
  destruct (all_rows_spec F15_SPEED_ALTITUDE_ALTITUDE _ t ltac:(discriminate) ltac:(discriminate) H Hb saa_cuts_all) as (sh & Hs & K).
  unfold saa_cuts in K. rewrite Ha in K. apply andb_true_iff in K as [K1 K2]. destruct (saa_cut_pos _ _ _ _ Ha) as (P1 & P2 & P3).
  destruct (cuts_spec _ _ _ _ K1 Hs) as (C1 & C2 & C3 & C4 & C5 & x & r & C6 & C7).
  assert (F1 : first_level (t_text t) = text_mid a b t) by (rewrite (first_level_cut _ _ _ _ K1 Hs); unfold text_mid; now rewrite !of_to by lia).
  assert (NR : ~ raising_text (t_text t)) by (intro R; apply (na_iff t H Hb) in R; congruence).
  assert (App : forall l1 l2 : list rrec, l1 ++ l2 = [] <-> l1 = [] /\ l2 = []).
  { intros l1 l2. split; [apply app_eq_nil|intros [-> ->]; reflexivity]. }
  rewrite App, !lvl_errs_fl, F1.
  assert (TF : text_from c t = skipn (Z.to_nat c) (t_text t)) by (unfold text_from; rewrite <- (of_to c) at 1 by lia; apply slice_from).
  destruct ((a =? 5)%Z && (b =? 9)%Z)%bool eqn:E.
  - assert (a = 5 /\ b = 9 /\ c = 9)%Z as (-> & -> & ->) by lia.
    assert (T : target_checked (t_text t)).
    { destruct (proj1 C5 eq_refl) as (d & r' & E1 & E2). rewrite <- C1 in E1. apply (target_iff _ _ _ _ _ C6 E1).
      split; [intro X; apply C7 in X; discriminate|exact E2]. }
    assert (S2 : second_level (t_text t) = text_from 9 t).
    { rewrite TF. unfold second_level. rewrite C2. unfold after_speed. rewrite C1. change (Z.to_nat 9 - Z.to_nat 5) with 4. change (Z.to_nat 5) with 5. change (Z.to_nat 9) with 9.
      rewrite C6. clear. cbn [skipn]. do 4 (destruct r as [|? r]; [reflexivity|]). cbn [skipn]. destruct r as [|? r]; reflexivity. }
    rewrite S2. tauto.
  - apply andb_true_iff in K2 as [K2 K3].
    assert (T : ~ target_checked (t_text t)).
    { intro X. destruct (after_speed (t_text t)) as [|d r'] eqn:Ed; [unfold target_checked in X; rewrite C6 in X; rewrite C6 in Ed; now rewrite Ed in X|].
      apply (target_iff _ _ _ _ _ C6 Ed) in X. destruct X as [X1 X2]. unfold after_speed in Ed. rewrite C1 in Ed. assert (Z.to_nat b - Z.to_nat a = 4) by (apply C5; eauto). 
      assert (Z.to_nat a <> 4) by (intro; apply X1, C7; assumption).
      assert (A45 : Z.to_nat a = 4 \/ Z.to_nat a = 5) by (rewrite <- C1; unfold speed_len; rewrite C6; destruct (N.eqb x 77); auto). lia. }
    assert (Fl : fl_ok (text_from c t)).
    { rewrite TF. apply (misses_all (skipn (Z.to_nat c) sh)); [exact K3|]. now apply Forall2_skipn. }
    tauto.
Qed.

(** ** Angles *)
Lemma if_nil {A} (b : bool) (x : A) : (if b then [] else [x]) = [] <-> b = true.
Proof. destruct b; split; intro H; try reflexivity; discriminate. Qed.
Lemma app_nil_iff {A} (a b : list A) : a ++ b = [] <-> a = [] /\ b = [].
Proof. split; [apply app_eq_nil|intros [-> ->]; reflexivity]. Qed.
Lemma brg_part t : wt t -> In (t_sub t) [F15_SB_PRP_BD; F15_SB_LLBD_DEG; F15_SB_LLBD_MIN] -> (errs_brg t = [] <-> deg_ok (bearing_part (t_text t)) 360).
Proof.
  intros H Hs. unfold errs_brg, deg_ok. rewrite if_nil, Z.leb_le.
  assert (Ln : 6 <= length (t_text t)).
  { set (f := fun sh : shape => (6 <=? length sh)%nat).
    assert (E : exists sh, shape_in sh (t_text t) /\ f sh = true).
    { destruct Hs as [Hs|[Hs|[Hs|[]]]]; symmetry in Hs; refine (wt_sub f _ t _ H Hs _); try discriminate; vm_compute; reflexivity. }
    destruct E as (sh & Hin & K). unfold f in K. apply Nat.leb_le in K. pose proof (Forall2_len _ _ _ Hin) as Ln. exact (eq_ind _ (fun m => 6 <= m) K _ Ln). }
  assert (E : brg_text (t_text t) = bearing_part (t_text t)); [|now rewrite E].
  unfold brg_text, bearing_part, sub_str, slice, slice_bound. cbn [Z.ltb Z.compare]. unfold zlen.
  replace (Z.to_nat (Z.max 0 (Z.min (Z.of_nat (length (t_text t))) (-6 + Z.of_nat (length (t_text t)))))) with (length (t_text t) - 6) by lia.
  f_equal. lia.
Qed.
Lemma deg_part t r : deg_text (t_text t) r ->
  (errs_deg t = [] <-> deg_ok (sub_str (t_text t) 0 2) 90 /\ deg_ok (sub_str (t_text t) 3 3) 180).
Proof.
  intros (d1 & d2 & h & g1 & g2 & g3 & e & E & _). unfold errs_deg. rewrite E. unfold deg_ok, sub_str. cbn [skipn firstn].
  now rewrite app_nil_iff, !if_nil, !Z.leb_le.
Qed.
Lemma dm_iff d m mx : (0 <= m)%Z -> dm_ok d m mx = true <-> (m < 60 /\ d * 60 + m <= mx * 60)%Z.
Proof. unfold dm_ok. lia. Qed.
Lemma min_part t r : min_text (t_text t) r ->
  (errs_min t = [] <-> deg_min_ok (sub_str (t_text t) 0 2) (sub_str (t_text t) 2 2) 90 /\ deg_min_ok (sub_str (t_text t) 5 3) (sub_str (t_text t) 8 2) 180).
Proof.
  intros (d1 & d2 & m1 & m2 & h & g1 & g2 & g3 & n1 & n2 & e & E & D & _). unfold errs_min. rewrite E. unfold deg_min_ok, sub_str. cbn [skipn firstn].
  cbn [forallb] in D. repeat (apply andb_true_iff in D; let X := fresh "X" in destruct D as [X D]).
  assert (P1 : (0 <= decimal [m1; m2])%Z) by (apply decimal_bound; cbn [forallb]; now rewrite X1, X2).
  assert (P2 : (0 <= decimal [n1; n2])%Z) by (apply decimal_bound; cbn [forallb]; now rewrite X6, X7).
  now rewrite app_nil_iff, !if_nil, !dm_iff.
Qed.
Lemma pt_angles t : wt t -> (pt_errs t = [] <-> angles_ok t).
Proof.
  intro H. unfold pt_errs, angles_ok. cbv zeta. destruct (t_sub t) eqn:Es; try tauto.
  - apply (brg_part t H). rewrite Es. cbn. tauto.
  - apply (deg_part t []). now apply ll_deg_text.
  - apply (min_part t []). now apply ll_min_text.
  - destruct (llbd_deg_text t H Es) as (r & Hr & _). rewrite app_nil_iff, (deg_part t r Hr), (brg_part t H); [tauto|]. rewrite Es. cbn. tauto.
  - destruct (llbd_min_text t H Es) as (r & Hr & _). rewrite app_nil_iff, (min_part t r Hr), (brg_part t H); [tauto|]. rewrite Es. cbn. tauto.
Qed.
