(** * SyntaxProofs: classification of token texts. *)
From Coq Require Import ZArith NArith List Bool String Lia ZifyBool ZifyNat ZifyN.
From Verif Require Import PyBase Enums Regex SyntaxTable Syntax Tokenizer Parser SpecRegex RegexProofs TokenizerProofs.
Import List ListNotations.
Local Open Scope list_scope.
Local Open Scope nat_scope.

(** ** Rows of the source table and compiled rows *)
Lemma row_compiled k p b sb : nth_error f15_configuration k = Some (p, b, sb) ->
  exists r, parse_regex (of_str p) = Some r /\ nth_error compiled_rows k = Some (r, b, sb) /\ wf_re r = true.
Proof.
  intro H. pose proof (map_nth_error compile_row _ _ H) as H1. rewrite <- compiled_rows_eq in H1.
  assert (H2 : exists x, nth_error compiled_rows k = Some x).
  { destruct (nth_error compiled_rows k) eqn:E; [eauto|]. exfalso.
    apply nth_error_None in E. assert (k < length (map opt_row compiled_rows)).
    { apply nth_error_Some. congruence. } rewrite map_length in *. lia. }
  destruct H2 as [[[r b'] sb'] H2]. pose proof (map_nth_error opt_row _ _ H2) as H3.
  rewrite H1 in H3. simpl in H3. injection H3 as E1 E2 E3. subst b' sb'.
  exists r. split; [assumption|]. split; [assumption|].
  pose proof compiled_rows_wf as W. rewrite forallb_forall in W. apply nth_error_In in H2. exact (W _ H2).
Qed.
Lemma compiled_row k r b sb : nth_error compiled_rows k = Some (r, b, sb) ->
  exists p, nth_error f15_configuration k = Some (p, b, sb) /\ parse_regex (of_str p) = Some r.
Proof.
  intro H. pose proof (map_nth_error opt_row _ _ H) as H1.
  rewrite compiled_rows_eq in H1.
  destruct (nth_error f15_configuration k) as [[[p b'] sb']|] eqn:E.
  - pose proof (map_nth_error compile_row _ _ E) as H3. rewrite H3 in H1. simpl in H1. injection H1 as E1 E2 E3. subst.
    exists p. now split.
  - exfalso. apply nth_error_None in E. assert (k < length (map compile_row f15_configuration)) by (apply nth_error_Some; congruence).
    rewrite map_length in *. lia.
Qed.
Lemma row_matches_spec k row r b sb s : nth_error f15_configuration k = Some row -> nth_error compiled_rows k = Some (r, b, sb) ->
  row_matches row s <-> fullmatch r s = true.
Proof.
  intros H1 H2. destruct row as [[p b'] sb']. destruct (row_compiled _ _ _ _ H1) as (r' & P1 & P2 & P3).
  rewrite H2 in P2. injection P2 as <- <- <-. unfold row_matches; simpl. split.
  - intros [r'' [E H]]. rewrite P1 in E. injection E as <-. now apply fullmatch_spec.
  - intro H. exists r. split; [assumption|]. now apply fullmatch_spec.
Qed.

Definition first_row_b (i : nat) (s : pstr) : bool :=
  match nth_error compiled_rows i with
  | Some x => fullmatch (fst (fst x)) s && forallb (fun y : rrow => negb (fullmatch (fst (fst y)) s)) (firstn i compiled_rows)
  | None => false
  end.
Lemma nth_error_firstn {A} (l : list A) : forall n k, k < n -> nth_error (firstn n l) k = nth_error l k.
Proof. induction l as [|a l IH]; intros [|n] [|k] H; simpl; try lia; try reflexivity. apply IH. lia. Qed.
Lemma first_row_b_spec i s : first_row_b i s = true <-> first_row i s.
Proof.
  unfold first_row_b, first_row. split.
  - destruct (nth_error compiled_rows i) as [[[r b] sb]|] eqn:E; [|discriminate]. intro H.
    apply andb_true_iff in H as [H1 H2]. simpl in H1. rewrite forallb_forall in H2.
    destruct (compiled_row _ _ _ _ E) as [p [Hp Hr]]. exists (p, b, sb). split; [assumption|].
    split; [now apply (row_matches_spec i _ _ _ _ s Hp E)|].
    intros j row' Hj Hrow Hm. destruct row' as [[p' b'] sb'].
    destruct (row_compiled _ _ _ _ Hrow) as (r' & P1 & P2 & P3).
    apply (row_matches_spec j _ _ _ _ s Hrow P2) in Hm.
    assert (In (r', b', sb') (firstn i compiled_rows)).
    { eapply nth_error_In. rewrite nth_error_firstn; eauto. }
    specialize (H2 _ H). simpl in H2. rewrite Hm in H2. discriminate.
  - intros [row [H1 [H2 H3]]]. destruct row as [[p b] sb]. destruct (row_compiled _ _ _ _ H1) as (r & P1 & P2 & P3).
    rewrite P2. simpl. apply andb_true_iff. split; [now apply (row_matches_spec i _ _ _ _ s H1 P2)|].
    apply forallb_forall. intros [[r' b'] sb'] Hin. simpl. apply negb_true_iff.
    destruct (fullmatch r' s) eqn:E; [|reflexivity]. exfalso.
    apply In_nth_error in Hin as [j Hj].
    assert (j < i). { assert (j < length (firstn i compiled_rows)) by (apply nth_error_Some; congruence). rewrite firstn_length in *. lia. }
    rewrite nth_error_firstn in Hj by assumption. destruct (compiled_row _ _ _ _ Hj) as [p' [Hp' Hr']].
    apply (H3 j _ H Hp'). now apply (row_matches_spec j _ _ _ _ s Hp' Hj).
Qed.

Lemma get_token_type_spec s T : get_token_type s = T <->
  (exists i row, nth_error f15_configuration i = Some row /\ row_types row = T /\ first_row i s) \/
  (T = (F15_UNKNOWN, F15_SB_UNKNOWN) /\ forall row, In row f15_configuration -> ~ row_matches row s).
Proof.
  rewrite get_token_type_first. split.
  - intro H. apply first_re_split in H as [(l1 & x & l2 & E & H1 & H2 & H3)|[H1 H2]].
    + left. destruct x as [[r b] sb]. assert (Hn : nth_error compiled_rows (length l1) = Some (r, b, sb)).
      { rewrite E, nth_error_app2, Nat.sub_diag by lia. reflexivity. }
      destruct (compiled_row _ _ _ _ Hn) as [p [Hp Hr]].
      exists (length l1), (p, b, sb). split; [assumption|]. split; [exact H1|].
      apply first_row_b_spec. unfold first_row_b. rewrite Hn. apply andb_true_iff. split; [exact H2|].
      rewrite E, firstn_app, Nat.sub_diag, firstn_all, firstn_O, app_nil_r. apply forallb_forall. intros y Hy.
      rewrite (H3 y Hy). reflexivity.
    + right. split; [assumption|]. intros [[p b] sb] Hin Hm. apply In_nth_error in Hin as [k Hk].
      destruct (row_compiled _ _ _ _ Hk) as (r & P1 & P2 & P3).
      apply (row_matches_spec k _ _ _ _ s Hk P2) in Hm. apply nth_error_In in P2. specialize (H2 _ P2). simpl in H2. congruence.
  - intros [(i & row & H1 & H2 & H3)|[-> H]].
    + apply first_row_b_spec in H3. unfold first_row_b in H3. destruct row as [[p b] sb].
      destruct (row_compiled _ _ _ _ H1) as (r & P1 & P2 & P3). rewrite P2 in H3. apply andb_true_iff in H3 as [H3 H4].
      apply nth_error_split in P2 as (l1 & l2 & E & Hl). rewrite E in *. subst i.
      rewrite firstn_app, Nat.sub_diag, firstn_all, firstn_O, app_nil_r in H4. rewrite forallb_forall in H4.
      rewrite first_re_app; [exact H2| |exact H3]. intros y Hy. specialize (H4 y Hy). now apply negb_true_iff in H4.
    + destruct (first_re_split compiled_rows s _ eq_refl) as [(l1 & x & l2 & E & H1 & H2 & H3)|[H1 H2]]; [|exact H1].
      exfalso. destruct x as [[r b] sb]. assert (Hn : nth_error compiled_rows (length l1) = Some (r, b, sb)).
      { rewrite E, nth_error_app2, Nat.sub_diag by lia. reflexivity. }
      destruct (compiled_row _ _ _ _ Hn) as [p [Hp Hr]]. apply (H (p, b, sb)); [now apply nth_error_In in Hp|].
      now apply (row_matches_spec _ _ _ _ _ s Hp Hn).
Qed.

(** ** Length and alphabet *)
Definition recognised (T : types) : bool := negb (base_eqb (fst T) F15_UNKNOWN).
Definition alphabet : cc := [(65, 90); (48, 57); (47, 47)]%N.
Lemma recognised_shapes : forallb (fun sh : shape => (length sh <=? 17) && (1 <=? length sh) && forallb (fun c => cc_incl c alphabet) sh)
  (shapes_with recognised) = true.
Proof. vm_compute; reflexivity. Qed.

Lemma shape_length sh s : shape_in sh s -> length sh = length s.
Proof. induction 1; simpl; congruence. Qed.
Lemma recognised_spec s : fst (get_token_type s) <> F15_UNKNOWN ->
  1 <= length s <= 17 /\ forall c, In c s -> ((65 <= c <= 90) \/ (48 <= c <= 57) \/ c = 47)%N.
Proof.
  intro H. destruct (typed_shape recognised s eq_refl) as [sh [H1 H2]].
  { unfold recognised. apply negb_true_iff. now apply base_eqb_neq. }
  pose proof recognised_shapes as R. rewrite forallb_forall in R. specialize (R _ H1).
  apply andb_true_iff in R as [R1 R2]. apply andb_true_iff in R1 as [R1 R3].
  split.
  - rewrite <- (shape_length _ _ H2). apply Nat.leb_le in R1, R3. lia.
  - clear R1 R3 H1 H. intros c Hc. induction H2 as [|x y sh s Hx Hs IH]; [destruct Hc|].
    simpl in R2. apply andb_true_iff in R2 as [R2 R3]. destruct Hc as [<-|Hc]; [|auto].
    pose proof (cc_incl_sound _ _ _ R2 Hx) as R. apply in_ranges_spec in R as (a & b & Hin & Ha & Hb).
    simpl in Hin. destruct Hin as [E|[E|[E|[]]]]; injection E as <- <-; lia.
Qed.

Lemma classify_spec s :
  (fst (classify s) = F15_TOO_LONG <-> (25 < zlen s)%Z) /\
  ((zlen s <= 25)%Z -> classify s = get_token_type s) /\
  ((25 < zlen s)%Z -> classify s = (F15_TOO_LONG, F15_SB_UNKNOWN)).
Proof.
  unfold classify, max_token_length. destruct (Z.ltb_spec 25 (zlen s)) as [H|H].
  - split; [split; auto|]. split; [lia|reflexivity].
  - split; [split; [|lia]|split; [reflexivity|lia]]. intro E. exfalso.
    destruct (typed_in_table s) as [H1|[x [H1 [H2 H3]]]]; [rewrite H1 in E; discriminate|].
    assert (X : forallb (fun x : srow => negb (base_eqb (fst (sr_types x)) F15_TOO_LONG)) shape_table = true) by (vm_compute; reflexivity).
    rewrite forallb_forall in X. specialize (X _ H1). rewrite H2, E in X. discriminate.
Qed.

Lemma classify_get s : fst (classify s) <> F15_TOO_LONG -> classify s = get_token_type s.
Proof. intro H. apply (classify_spec s). destruct (Z_le_gt_dec (zlen s) 25); [assumption|]. exfalso. apply H. apply classify_spec. lia. Qed.

Lemma classify_recognised s : fst (classify s) <> F15_UNKNOWN -> fst (classify s) <> F15_TOO_LONG ->
  (1 <= zlen s <= 17)%Z /\ forall c, In c s -> ((65 <= c <= 90) \/ (48 <= c <= 57) \/ c = 47)%N.
Proof.
  intros H1 H2. rewrite (classify_get s H2) in H1. apply recognised_spec in H1 as [H1 H3].
  split; [unfold zlen; lia|assumption].
Qed.

(** ** Type characterisations through the decision procedure *)
Definition none : re := RClass [].
Lemma none_in s : ~ re_in none s.
Proof. intro H. inversion H; subst. match goal with H : In _ [] |- _ => destruct H end. Qed.

Definition is_types (b : base_type) (sb : sub_type) (T : types) : bool := base_eqb (fst T) b && sub_eqb (snd T) sb.
Lemma is_types_spec b sb T : is_types b sb T = true <-> T = (b, sb).
Proof.
  unfold is_types. rewrite andb_true_iff, base_eqb_eq, sub_eqb_eq. destruct T; simpl. split; [intros [-> ->]; reflexivity|].
  intro H; injection H; auto.
Qed.
Lemma type_iff b sb spec R : wf_re spec = true -> wf_re R = true -> check (is_types b sb) (expand spec) (expand R) = true ->
  forall s, get_token_type s = (b, sb) <-> (re_in spec s /\ ~ re_in R s).
Proof. intros W1 W2 H s. rewrite <- is_types_spec. now apply check_sound. Qed.
Lemma type_iff' b sb spec : wf_re spec = true -> check (is_types b sb) (expand spec) (expand none) = true ->
  forall s, get_token_type s = (b, sb) <-> re_in spec s.
Proof.
  intros W1 H s. rewrite (type_iff b sb spec none W1 eq_refl H s). split; [easy|]. intro. split; [assumption|apply none_in].
Qed.
Lemma base_iff b spec R : wf_re spec = true -> wf_re R = true -> check (fun T => base_eqb (fst T) b) (expand spec) (expand R) = true ->
  forall s, fst (get_token_type s) = b <-> (re_in spec s /\ ~ re_in R s).
Proof. intros W1 W2 H s. rewrite <- base_eqb_eq. apply (check_sound (fun T => base_eqb (fst T) b)); assumption. Qed.
Lemma base_iff' b spec : wf_re spec = true -> check (fun T => base_eqb (fst T) b) (expand spec) (expand none) = true ->
  forall s, fst (get_token_type s) = b <-> re_in spec s.
Proof.
  intros W1 H s. rewrite (base_iff b spec none W1 eq_refl H s). split; [easy|]. intro. split; [assumption|apply none_in].
Qed.

(** One direction only: everything in [spec] is typed P. *)
Definition incl_check (P : types -> bool) (spec : list shape) : bool :=
  forallb (fun sigma => check_bwd P [] sigma shape_table) spec.
Lemma incl_check_sound P spec s : wf_re spec = true -> incl_check P (expand spec) = true -> re_in spec s -> P (get_token_type s) = true.
Proof.
  intros W H Hs. apply (expand_spec spec W) in Hs as [sigma [H1 H2]]. unfold incl_check in H. rewrite forallb_forall in H.
  eapply check_bwd_sound; [exact H2| |apply H; exact H1|apply get_token_type_sh]. intros [sh [[] _]].
Qed.

Lemma check_fwd_concl P spec R s : P (F15_UNKNOWN, F15_SB_UNKNOWN) = false -> wf_re spec = true -> wf_re R = true ->
  check_fwd P (expand spec) (expand R) [] shape_table = true -> P (get_token_type s) = true -> re_in spec s /\ ~ re_in R s.
Proof.
  intros HU W1 W2 H HP. rewrite (expand_spec spec W1), (expand_spec R W2).
  eapply check_fwd_sound; eauto; [|apply get_token_type_sh]. intros [sh [[] _]].
Qed.
(** Shapes of [spec] that lie within R are of no interest. *)
Definition minus_check (P : types -> bool) (spec R : list shape) : bool :=
  forallb (fun sigma => incl_any sigma R || check_bwd P R sigma shape_table) spec.
Lemma minus_check_sound P spec R s : wf_re spec = true -> wf_re R = true -> minus_check P (expand spec) (expand R) = true ->
  re_in spec s -> ~ re_in R s -> P (get_token_type s) = true.
Proof.
  intros W1 W2 H Hs HR. rewrite (expand_spec R W2) in HR. apply (expand_spec spec W1) in Hs as [sigma [H1 H2]].
  unfold minus_check in H. rewrite forallb_forall in H. specialize (H _ H1). apply orb_true_iff in H as [H|H].
  - exfalso. apply HR. eapply incl_any_sound; eauto.
  - eapply check_bwd_sound; [exact H2|exact HR|exact H|apply get_token_type_sh].
Qed.

(** ** Live and dead rows *)
Fixpoint sample (sh : shape) : pstr :=
  match sh with
  | [] => []
  | c :: r => match c with (a, _) :: _ => a | [] => 0%N end :: sample r
  end.
Definition row_sample (i : nat) : pstr :=
  match nth_error shape_table i with Some (sh :: _, _, _) => sample sh | _ => [] end.
Definition dead_row : nat := 38.
Lemma all_rows_live : forallb (fun i => Nat.eqb i dead_row || first_row_b i (row_sample i)) (seq 0 (length f15_configuration)) = true.
Proof. vm_compute; reflexivity. Qed.
Lemma rows_live i : i < length f15_configuration -> i <> dead_row -> exists s, first_row i s.
Proof.
  intros Hi Hd. pose proof all_rows_live as H. rewrite forallb_forall in H.
  specialize (H i ltac:(apply in_seq; lia)). apply orb_true_iff in H as [H|H]; [apply Nat.eqb_eq in H; contradiction|].
  exists (row_sample i). now apply first_row_b_spec.
Qed.
Lemma row_dead s : ~ first_row dead_row s.
Proof.
  intro H. apply first_row_b_spec in H. unfold first_row_b in H.
  destruct (nth_error compiled_rows dead_row) as [x|] eqn:E; [|discriminate].
  apply andb_true_iff in H as [H1 H2]. apply fullmatch_shapes in H1 as [sh [H1 H3]].
  assert (X : forallb (fun sh => existsb (fun y : rrow => incl_any sh (expand (fst (fst y)))) (firstn dead_row compiled_rows))
    (match nth_error compiled_rows dead_row with Some x => expand (fst (fst x)) | None => [] end) = true) by (vm_compute; reflexivity).
  rewrite E in X. rewrite forallb_forall in X. specialize (X _ H1). apply existsb_exists in X as [y [Hy X]].
  rewrite forallb_forall in H2. specialize (H2 _ Hy). apply negb_true_iff in H2.
  assert (fullmatch (fst (fst y)) s = true) by (apply fullmatch_shapes; eapply incl_any_sound; eauto). congruence.
Qed.

(** ** Cruise-climb letter combinations *)
Definition cc_subs : list (N * N * N * sub_type) :=
  let K := 75%N in let N_ := 78%N in let M_ := 77%N in let F := 70%N in let A := 65%N in let S_ := 83%N in
  [ (K,F,F,F15_SB_SPEED_ALTITUDE_KFF); (K,F,S_,F15_SB_SPEED_ALTITUDE_KFS); (K,F,A,F15_SB_SPEED_ALTITUDE_KFA); (K,F,M_,F15_SB_SPEED_ALTITUDE_KFM);
    (K,S_,F,F15_SB_SPEED_ALTITUDE_KSF); (K,S_,S_,F15_SB_SPEED_ALTITUDE_KSS); (K,S_,A,F15_SB_SPEED_ALTITUDE_KSA); (K,S_,M_,F15_SB_SPEED_ALTITUDE_KSM);
    (K,A,F,F15_SB_SPEED_ALTITUDE_KAF); (K,A,S_,F15_SB_SPEED_ALTITUDE_KAS); (K,A,A,F15_SB_SPEED_ALTITUDE_KAA); (K,A,M_,F15_SB_SPEED_ALTITUDE_KAM);
    (K,M_,F,F15_SB_SPEED_ALTITUDE_KMF); (K,M_,S_,F15_SB_SPEED_ALTITUDE_KMS); (K,M_,A,F15_SB_SPEED_ALTITUDE_KMA); (K,M_,M_,F15_SB_SPEED_ALTITUDE_KMM);
    (N_,F,F,F15_SB_SPEED_ALTITUDE_NFF); (N_,F,S_,F15_SB_SPEED_ALTITUDE_NFS); (N_,F,A,F15_SB_SPEED_ALTITUDE_NFA); (N_,F,M_,F15_SB_SPEED_ALTITUDE_NFM);
    (N_,S_,F,F15_SB_SPEED_ALTITUDE_NSF); (N_,S_,S_,F15_SB_SPEED_ALTITUDE_NSS); (N_,S_,A,F15_SB_SPEED_ALTITUDE_NSA); (N_,S_,M_,F15_SB_SPEED_ALTITUDE_NSM);
    (N_,A,F,F15_SB_SPEED_ALTITUDE_NAF); (N_,A,S_,F15_SB_SPEED_ALTITUDE_NAS); (N_,A,A,F15_SB_SPEED_ALTITUDE_NAA); (N_,A,M_,F15_SB_SPEED_ALTITUDE_NAM);
    (N_,M_,F,F15_SB_SPEED_ALTITUDE_NMF); (N_,M_,S_,F15_SB_SPEED_ALTITUDE_NMS); (N_,M_,A,F15_SB_SPEED_ALTITUDE_NMA); (N_,M_,M_,F15_SB_SPEED_ALTITUDE_NMM);
    (M_,F,F,F15_SB_SPEED_ALTITUDE_MFF); (M_,F,S_,F15_SB_SPEED_ALTITUDE_MFS); (M_,F,A,F15_SB_SPEED_ALTITUDE_MFA); (M_,F,M_,F15_SB_SPEED_ALTITUDE_MFM);
    (M_,S_,F,F15_SB_SPEED_ALTITUDE_MSF); (M_,S_,S_,F15_SB_SPEED_ALTITUDE_MSS); (M_,S_,A,F15_SB_SPEED_ALTITUDE_MSA); (M_,S_,M_,F15_SB_SPEED_ALTITUDE_MSM);
    (M_,A,F,F15_SB_SPEED_ALTITUDE_MAF); (M_,A,S_,F15_SB_SPEED_ALTITUDE_MAS); (M_,A,A,F15_SB_SPEED_ALTITUDE_MAA); (M_,A,M_,F15_SB_SPEED_ALTITUDE_MAM);
    (M_,M_,F,F15_SB_SPEED_ALTITUDE_MMF); (M_,M_,S_,F15_SB_SPEED_ALTITUDE_MMS); (M_,M_,A,F15_SB_SPEED_ALTITUDE_MMA); (M_,M_,M_,F15_SB_SPEED_ALTITUDE_MMM) ].
Definition cc_lang (k l1 l2 : N) : re := speed_with k +++ level_with l1 +++ level_with l2.
(** combinations whose row of the table is wrong *)
Definition cc_wrong (sb : sub_type) : bool :=
  sub_eqb sb F15_SB_SPEED_ALTITUDE_NAS || sub_eqb sb F15_SB_SPEED_ALTITUDE_NAM
  || sub_eqb sb F15_SB_SPEED_ALTITUDE_KFA || sub_eqb sb F15_SB_SPEED_ALTITUDE_KFS.
Lemma cc_ok : forallb (fun x : N * N * N * sub_type => let '(k, l1, l2, sb) := x in
  wf_re (cc_lang k l1 l2) && (cc_wrong sb || check (is_types F15_SPEED_ALTITUDE_ALTITUDE sb) (expand (cc_lang k l1 l2)) (expand none))) cc_subs = true.
Proof. vm_compute; reflexivity. Qed.
Lemma cc_iff k l1 l2 sb s : In (k, l1, l2, sb) cc_subs -> cc_wrong sb = false ->
  get_token_type s = (F15_SPEED_ALTITUDE_ALTITUDE, sb) <-> re_in (cc_lang k l1 l2) s.
Proof.
  intros H1 H2. pose proof cc_ok as H. rewrite forallb_forall in H. specialize (H _ H1). cbv beta iota in H.
  apply andb_true_iff in H as [W H]. rewrite H2 in H. simpl in H. now apply type_iff'.
Qed.

(** ** Speed/level *)
Definition sa_subs : list (N * N * sub_type) :=
  let K := 75%N in let N_ := 78%N in let M_ := 77%N in let F := 70%N in let A := 65%N in let S_ := 83%N in
  [ (K,F,F15_SB_SPEED_ALTITUDE_KF); (K,S_,F15_SB_SPEED_ALTITUDE_KS); (K,A,F15_SB_SPEED_ALTITUDE_KA); (K,M_,F15_SB_SPEED_ALTITUDE_KM);
    (N_,F,F15_SB_SPEED_ALTITUDE_NF); (N_,S_,F15_SB_SPEED_ALTITUDE_NS); (N_,A,F15_SB_SPEED_ALTITUDE_NA); (N_,M_,F15_SB_SPEED_ALTITUDE_NM);
    (M_,F,F15_SB_SPEED_ALTITUDE_MF); (M_,S_,F15_SB_SPEED_ALTITUDE_MS); (M_,A,F15_SB_SPEED_ALTITUDE_MA); (M_,M_,F15_SB_SPEED_ALTITUDE_MM) ].
Definition sap_subs : list (N * N * sub_type) :=
  let K := 75%N in let N_ := 78%N in let M_ := 77%N in let F := 70%N in let A := 65%N in let S_ := 83%N in
  [ (K,F,F15_SB_SPEED_ALTITUDE_KF_P); (K,S_,F15_SB_SPEED_ALTITUDE_KS_P); (K,A,F15_SB_SPEED_ALTITUDE_KA_P); (K,M_,F15_SB_SPEED_ALTITUDE_KM_P);
    (N_,F,F15_SB_SPEED_ALTITUDE_NF_P); (N_,S_,F15_SB_SPEED_ALTITUDE_NS_P); (N_,A,F15_SB_SPEED_ALTITUDE_NA_P); (N_,M_,F15_SB_SPEED_ALTITUDE_NM_P);
    (M_,F,F15_SB_SPEED_ALTITUDE_MF_P); (M_,S_,F15_SB_SPEED_ALTITUDE_MS_P); (M_,A,F15_SB_SPEED_ALTITUDE_MA_P); (M_,M_,F15_SB_SPEED_ALTITUDE_MM_P) ].
Definition sv_subs : list (N * sub_type) :=
  [(75%N, F15_SB_SPEED_ALTITUDE_KV); (78%N, F15_SB_SPEED_ALTITUDE_NV); (77%N, F15_SB_SPEED_ALTITUDE_MV)].
Definition sa_lang (k l : N) : re := speed_with k +++ level_with l.
Definition sap_lang (k l : N) : re := speed_with k +++ level_with l +++ lit "PLUS".
Definition sv_lang (k : N) : re := speed_with k +++ lit "VFR".
Lemma sa_iff k l sb s : In (k, l, sb) sa_subs -> get_token_type s = (F15_SPEED_ALTITUDE, sb) <-> re_in (sa_lang k l) s.
Proof.
  assert (H : forallb (fun x : N * N * sub_type => let '(k, l, sb) := x in
    wf_re (sa_lang k l) && check (is_types F15_SPEED_ALTITUDE sb) (expand (sa_lang k l)) (expand none)) sa_subs = true) by (vm_compute; reflexivity).
  intro Hin. rewrite forallb_forall in H. specialize (H _ Hin). cbv beta iota in H. apply andb_true_iff in H as [W H]. now apply type_iff'.
Qed.
Lemma sap_iff k l sb s : In (k, l, sb) sap_subs -> get_token_type s = (F15_SPEED_ALTITUDE_PLUS, sb) <-> re_in (sap_lang k l) s.
Proof.
  assert (H : forallb (fun x : N * N * sub_type => let '(k, l, sb) := x in
    wf_re (sap_lang k l) && check (is_types F15_SPEED_ALTITUDE_PLUS sb) (expand (sap_lang k l)) (expand none)) sap_subs = true) by (vm_compute; reflexivity).
  intro Hin. rewrite forallb_forall in H. specialize (H _ Hin). cbv beta iota in H. apply andb_true_iff in H as [W H]. now apply type_iff'.
Qed.
Lemma sv_iff k sb s : In (k, sb) sv_subs -> get_token_type s = (F15_SPEED_VFR, sb) <-> re_in (sv_lang k) s.
Proof.
  assert (H : forallb (fun x : N * sub_type => let '(k, sb) := x in
    wf_re (sv_lang k) && check (is_types F15_SPEED_VFR sb) (expand (sv_lang k)) (expand none)) sv_subs = true) by (vm_compute; reflexivity).
  intro Hin. rewrite forallb_forall in H. specialize (H _ Hin). cbv beta iota in H. apply andb_true_iff in H as [W H]. now apply type_iff'.
Qed.

(** ** Sub type names *)
Definition prefix : pstr := $"F15_SB_SPEED_ALTITUDE_".
Definition speed_letters : list N := [75; 78; 77]%N.
Definition level_letters : list N := [70; 65; 83; 77]%N.
Lemma find_sub (l : list (N * N * sub_type)) suf :
  forallb (fun k => forallb (fun x => existsb (fun y : N * N * sub_type => let '(k', x', sb) := y in
     N.eqb k k' && N.eqb x x' && pstr_eqb (sub_name sb) (prefix ++ [k; x] ++ suf)) l) level_letters) speed_letters = true ->
  forall k x, In k speed_letters -> In x level_letters ->
  exists sb, In (k, x, sb) l /\ sub_name sb = prefix ++ [k; x] ++ suf.
Proof.
  intros H k x Hk Hx. rewrite forallb_forall in H. specialize (H _ Hk). rewrite forallb_forall in H. specialize (H _ Hx).
  apply existsb_exists in H as [[[k' x'] sb] [H1 H2]]. apply andb_true_iff in H2 as [H2 H3]. apply andb_true_iff in H2 as [H2 H4].
  apply N.eqb_eq in H2, H4. subst. apply pstr_eqb_eq in H3. eauto.
Qed.
Lemma sa_name k x s : In k speed_letters -> In x level_letters -> re_in (speed_with k +++ level_with x) s ->
  exists sb, get_token_type s = (F15_SPEED_ALTITUDE, sb) /\ sub_name sb = prefix ++ [k; x].
Proof.
  intros Hk Hx H. destruct (find_sub sa_subs [] ltac:(vm_compute; reflexivity) k x Hk Hx) as [sb [H1 H2]].
  exists sb. split; [now apply (sa_iff k x)|]. exact H2.
Qed.
Lemma sap_name k x s : In k speed_letters -> In x level_letters -> re_in (speed_with k +++ level_with x +++ lit "PLUS") s ->
  exists sb, get_token_type s = (F15_SPEED_ALTITUDE_PLUS, sb) /\ sub_name sb = prefix ++ [k; x] ++ $"_P".
Proof.
  intros Hk Hx H. destruct (find_sub sap_subs ($"_P") ltac:(vm_compute; reflexivity) k x Hk Hx) as [sb [H1 H2]].
  exists sb. split; [now apply (sap_iff k x)|]. exact H2.
Qed.
Lemma cc_name k x y s : In k speed_letters -> In x level_letters -> In y level_letters ->
  ~ In [k; x; y] [$"NAS"; $"NAM"; $"KFA"] ->
  re_in (speed_with k +++ level_with x +++ level_with y) s ->
  exists sb, get_token_type s = (F15_SPEED_ALTITUDE_ALTITUDE, sb) /\ sub_name sb = prefix ++ [k; x; y].
Proof.
  intros Hk Hx Hy Hn H.
  assert (C : forallb (fun k => forallb (fun x => forallb (fun y => existsb (pstr_eqb [k; x; y]) [$"NAS"; $"NAM"; $"KFA"] ||
     existsb (fun z : N * N * N * sub_type => let '(k', x', y', sb) := z in
        N.eqb k k' && N.eqb x x' && N.eqb y y' && pstr_eqb (sub_name sb) (prefix ++ [k; x; y])
        && incl_check (is_types F15_SPEED_ALTITUDE_ALTITUDE sb) (expand (cc_lang k x y))) cc_subs) level_letters) level_letters) speed_letters = true)
    by (vm_compute; reflexivity).
  rewrite forallb_forall in C. specialize (C _ Hk). rewrite forallb_forall in C. specialize (C _ Hx).
  rewrite forallb_forall in C. specialize (C _ Hy). apply orb_true_iff in C as [C|C].
  { exfalso. apply Hn. apply existsb_exists in C as [z [Hz E]]. apply pstr_eqb_eq in E. now rewrite E. }
  apply existsb_exists in C as [[[[k' x'] y'] sb] [H1 C]].
  apply andb_true_iff in C as [C C5]. apply andb_true_iff in C as [C C4]. apply andb_true_iff in C as [C C3].
  apply andb_true_iff in C as [C1 C2]. apply N.eqb_eq in C1, C2, C3. subst. apply pstr_eqb_eq in C4.
  exists sb. split; [|assumption]. apply is_types_spec. eapply incl_check_sound; [|exact C5|exact H].
  destruct Hk as [<-|[<-|[<-|[]]]]; destruct Hx as [<-|[<-|[<-|[<-|[]]]]]; destruct Hy as [<-|[<-|[<-|[<-|[]]]]]; reflexivity.
Qed.
Lemma sv_name k s : In k speed_letters -> re_in (speed_with k +++ lit "VFR") s ->
  exists sb, get_token_type s = (F15_SPEED_VFR, sb) /\ sub_name sb = prefix ++ [k] ++ $"V".
Proof.
  intros Hk H. destruct Hk as [<-|[<-|[<-|[]]]]; eexists; (split; [eapply sv_iff; [|exact H]; simpl; intuition reflexivity|reflexivity]).
Qed.

Lemma point_sub_types s : fst (get_token_type s) = F15_POINT ->
  In (snd (get_token_type s)) [F15_SB_LL_DEG; F15_SB_LL_MIN; F15_SB_LLBD_DEG; F15_SB_LLBD_MIN;
                               F15_SB_PRP_BD; F15_SB_PRP_AERO; F15_SB_PRP].
Proof.
  intro H. destruct (typed_in_table s) as [E|[x [H1 [H2 _]]]]; [rewrite E in H; discriminate|].
  assert (X : forallb (fun x : srow => negb (base_eqb (fst (sr_types x)) F15_POINT) ||
     existsb (sub_eqb (snd (sr_types x))) [F15_SB_LL_DEG; F15_SB_LL_MIN; F15_SB_LLBD_DEG; F15_SB_LLBD_MIN;
                               F15_SB_PRP_BD; F15_SB_PRP_AERO; F15_SB_PRP]) shape_table = true) by (vm_compute; reflexivity).
  rewrite forallb_forall in X. specialize (X _ H1). rewrite H2, H in X. simpl in X.
  apply (existsb_exists _ [F15_SB_LL_DEG; F15_SB_LL_MIN; F15_SB_LLBD_DEG; F15_SB_LLBD_MIN;
                               F15_SB_PRP_BD; F15_SB_PRP_AERO; F15_SB_PRP]) in X as [z [Hz E]].
  apply sub_eqb_eq in E. now rewrite E.
Qed.

Lemma lits_spec w : forall s, re_in (lits w) s <-> s = w.
Proof.
  assert (L1 : forall c s, re_in (lit1 c) s <-> s = [c]).
  { intros c s. unfold lit1. split.
    - intro H. inversion H as [|rs a b d Hin Ha Hb| | | |]; subst. destruct Hin as [E|[]]. injection E as <- <-. f_equal. lia.
    - intros ->. econstructor; [now left|lia|lia]. }
  induction w as [|c w IH]; intro s.
  - simpl. split; [intro H; now inversion H|intros ->; constructor].
  - destruct w as [|d w]; [apply L1|]. change (lits (c :: d :: w)) with (RSeq (lit1 c) (lits (d :: w))). split.
    + intro H. inversion H as [| |r1 r2 s1 s2 H1 H2| | |]; subst. apply L1 in H1. apply IH in H2. subst. reflexivity.
    + intros ->. change (c :: d :: w) with ([c] ++ (d :: w)). constructor; [now apply L1|now apply IH].
Qed.

Lemma saa_exact s :
  fst (get_token_type s) = F15_SPEED_ALTITUDE_ALTITUDE <->
  (re_in (any_of [speed +++ level +++ level; lit "N" +++ digits 4 +++ lit "A" +++ digits 4 +++ lit "S" +++ digits 4;
                  lit "N" +++ digits 4 +++ lit "A" +++ digits 4 +++ lit "M" +++ digits 4]) s
   /\ ~ re_in (any_of [lit "N" +++ digits 4 +++ lit "A" +++ digits 3 +++ lit "S" +++ digits 4;
                       lit "N" +++ digits 4 +++ lit "A" +++ digits 3 +++ lit "M" +++ digits 4]) s).
Proof.
  rewrite <- base_eqb_eq. split.
  - intro H. set (P := fun T : types => base_eqb (fst T) F15_SPEED_ALTITUDE_ALTITUDE).
    apply (check_fwd_concl P); [vm_compute; reflexivity..|exact H].
  - intros [H1 H2].
    set (spec := any_of _) in H1. set (R := any_of _) in H2.
    apply (minus_check_sound (fun T => base_eqb (fst T) F15_SPEED_ALTITUDE_ALTITUDE) spec R); try assumption; vm_compute; reflexivity.
Qed.
