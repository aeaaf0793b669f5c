(** * ReuseFacts: a field is read into a used route sequence as on its own (lemmas behind PropsReuse). *)
From Coq Require Import ZArith NArith List Bool String Lia.
From Verif Require Import PyBase PyFloat Enums ErrorTable Tokenizer Ers Utils Parser SpecNum SpecParser SpecGrammar SpecAccept SpecDiagnosis SpecReader SpecComplete SpecReuse.
From Verif Require Import TokenizerProofs ParserFacts Reader ReaderFacts RecoveryFacts SettledFacts CompleteFacts ErsFacts Unknown Reuse.
Import List ListNotations.
Local Open Scope list_scope.
Local Open Scope Z_scope.

(** ** Records in front *)
Definition ov (B : list item) (s : notes) : notes := mkNotes (B ++ n_before s) (n_last s) (n_reports s).
Lemma ov_add B nm t s : add_as nm t (ov B s) = ov B (add_as nm t s).
Proof. unfold add_as, ov. cbn [n_before n_last n_reports]. now rewrite app_assoc. Qed.
Lemma ov_add' B t s : add t (ov B s) = ov B (add t s). Proof. apply ov_add. Qed.
Lemma ov_report B t ms s : report t ms (ov B s) = ov B (report t ms s). Proof. reflexivity. Qed.
Lemma ov_with B f s : with_last f (ov B s) = ov B (with_last f s). Proof. reflexivity. Qed.
Lemma ov_rules B r s : rules r (ov B s) = ov B (rules r s). Proof. reflexivity. Qed.
Lemma ov_types B a b s : types a b (ov B s) = ov B (types a b s). Proof. reflexivity. Qed.
Lemma ov_stays B m s : stays m (ov B s) = ov B (stays m s). Proof. reflexivity. Qed.
Lemma ov_texts B x s : texts x (ov B s) = ov B (texts x s). Proof. reflexivity. Qed.
Lemma ov_locates B t s : locates t (ov B s) = ov B (locates t s). Proof. reflexivity. Qed.
Lemma ov_speeds B t s : speeds t (ov B s) = ov B (speeds t s). Proof. reflexivity. Qed.
Lemma ov_point B t s : point t (ov B s) = ov B (point t s).
Proof. unfold point. now rewrite ov_add'. Qed.
Lemma ov_vfr B t s : vfr t (ov B s) = ov B (vfr t s).
Proof. unfold vfr. cbv zeta. now rewrite ov_with, ov_add. Qed.

Section Two.
Variables (b o : item) (B O : list item).
Notation L := (ov (b :: B)). Notation R := (ov (o :: O)).
Inductive two : result -> result -> Prop :=
| two_goes k s ts : two (Goes k (L s) ts) (Goes k (R s) ts)
| two_breaks s : two (Breaks (L s)) (Breaks (R s)).
Ltac ov := repeat first [rewrite ov_add' | rewrite ov_point | rewrite ov_vfr | rewrite ov_speeds | rewrite ov_rules | rewrite ov_types | rewrite ov_stays | rewrite ov_texts | rewrite ov_locates | rewrite ov_report]; constructor.
Lemma two_last t k s ts : two (the_last t k (L s) ts) (the_last t k (R s) ts).
Proof. unfold the_last. destruct ts; ov. Qed.
Lemma two_start t k s ts : two (start t k (L s) ts) (start t k (R s) ts).
Proof.
  unfold start. change (only_adep (L s)) with false. change (only_adep (R s)) with false. cbv iota.
  destruct (t_base t); try (ov; fail); try (rewrite !ov_add'; apply two_last);
    try (destruct (begins (t_sub t)); ov); destruct (unconvertible t); ov.
Qed.
Lemma two_leave c k s ts : two (leave c k (L s) ts) (leave c k (R s) ts).
Proof. unfold leave. destruct (resume c ts); [ov|ov|destruct ts; ov]. Qed.
Lemma two_wrong j t k s ts : two (wrong j t k (L s) ts) (wrong j t k (R s) ts).
Proof. unfold wrong. change (spot j (L s)) with (spot j s). change (spot j (R s)) with (spot j s). ov. Qed.
Lemma two_read j t k s ts : two (read j t k (L s) ts) (read j t k (R s) ts).
Proof.
  assert (S1 : forall i, suits i t (L s) = suits i t s) by reflexivity. assert (S2 : forall i, suits i t (R s) = suits i t s) by reflexivity.
  assert (T : forall i, i = JText \/ i = JBegin -> two (read i t k (L s) ts) (read i t k (R s) ts)).
  { intros i [-> | ->]; unfold read; (destruct (base_eqb _ _); [ov|]); cbv zeta; rewrite !ov_texts;
      change (ends_here (L (texts (t_text t) s)) t) with (ends_here (texts (t_text t) s) t); change (ends_here (R (texts (t_text t) s)) t) with (ends_here (texts (t_text t) s) t);
      (destruct (ends_here _ t); [apply two_leave|constructor]). }
  destruct j; try (apply T; auto; fail); unfold read; rewrite ?S1, ?S2;
    try (destruct (suits _ t s); [|destruct (t_base t); apply two_wrong]); try apply two_start; try apply two_wrong; try (ov; fail);
    try (destruct (base_eqb (t_base t) F15_SLASH); [ov|]; rewrite ?ov_add'; apply two_start).
  - destruct ts as [|sl [|sp ts]]; [ov..|]. destruct (base_eqb _ _); ov.
  - destruct (t_base t); try apply two_start; try apply two_leave; ov.
  - destruct (t_base t); try apply two_start; ov.
Qed.
Lemma two_step k s ts : two (step1 k (L s) ts) (step1 k (R s) ts).
Proof.
  destruct k as [|j k]; [constructor|].
  assert (Q : plain j = true -> two (step1 (j :: k) (L s) ts) (step1 (j :: k) (R s) ts)).
  { intro Pl. destruct ts as [|t ts]; [rewrite !step_end by exact Pl|rewrite !step_read by exact Pl; apply two_read].
    destruct j; cbn [at_end]; ov. }
  destruct j; try exact (Q eq_refl); cbn [step1]; ov.
Qed.
Inductive both : ending -> ending -> Prop :=
| both_done s : both (Done (L s)) (Done (R s)) | both_broken s : both (Broken (L s)) (Broken (R s)) | both_un : both Unfinished Unfinished.
Lemma two_play n : forall k s ts, both (play n k (L s) ts) (play n k (R s) ts).
Proof.
  induction n as [|n IH]; intros [|j k] s ts; cbn [play]; try constructor.
  pose proof (two_step (j :: k) s ts) as H. destruct H; [apply IH|constructor].
Qed.
End Two.

(** Reports made before. *)
Definition pre_e (e : list (token * Z)) (x : ending) : ending := match x with Done s => Done (pre e s) | Broken s => Broken (pre e s) | Unfinished => Unfinished end.
Lemma pre_play e n : forall k s ts, play n k (pre e s) ts = pre_e e (play n k s ts).
Proof.
  induction n as [|n IH]; intros [|j k] s ts; cbn [play]; try reflexivity. rewrite pre_step. destruct (step1 (j :: k) s ts); [apply IH|reflexivity].
Qed.

(** ** The field *)
Definition vfr_first (ts : list token) : bool := match ts with t :: _ => base_eqb (t_base t) F15_SPEED_VFR | [] => false end.
Definition heads (ts : list token) (l : list item) : list item := match l with i :: r => (if vfr_first ts then turned_vfr i else i) :: r | [] => [] end.
Lemma conclude_two t ts b B e s : base_eqb (t_base t) F15_SPEED_VFR = true \/ ts <> [] -> conclude (t :: ts) (pre e (ov (b :: B) s)) =
  (heads (t :: ts) (b :: B) ++ (n_before s ++ [n_last s]) ++ [n_last (rules (i_rules (n_last s)) (mkNotes [] (aero ($"ADES")) []))], e ++ n_reports s).
Proof.
  intro H. unfold conclude. cbn [pre ov n_before n_last n_reports app]. cbv zeta. cbn [heads vfr_first].
  set (x := if base_eqb (t_base t) F15_SPEED_VFR then turned_vfr b else b).
  assert (E : (if base_eqb (t_base t) F15_SPEED_VFR then n_last (rules ($"VFR") (mkNotes [] b [])) :: (B ++ n_before s) ++ [n_last s] else b :: (B ++ n_before s) ++ [n_last s]) = x :: (B ++ n_before s) ++ [n_last s])
    by (unfold x; destruct (base_eqb (t_base t) F15_SPEED_VFR); reflexivity).
  rewrite E. assert (E2 : last (x :: (B ++ n_before s) ++ [n_last s]) (aero []) = n_last s) by (change (x :: (B ++ n_before s) ++ [n_last s]) with ((x :: B ++ n_before s) ++ [n_last s]); apply last_last).
  rewrite E2. f_equal; [cbn [app]; now rewrite <- !app_assoc|]. destruct ts as [|u ts]; [|reflexivity]. destruct H as [H|[]]; [|reflexivity]. apply base_eqb_eq in H. now rewrite H.
Qed.
Lemma front l (i : item) : exists o O, removelast l ++ [i] = o :: O.
Proof. destruct (removelast l ++ [i]) as [|o O] eqn:E; [destruct (removelast l); discriminate E|eauto]. Qed.

(** Both readings, from a common state on. *)
Lemma same_end t ts n x o O e0 k s us l0 : base_eqb (t_base t) F15_SPEED_VFR = true \/ ts <> [] ->
  begin (t :: ts) = play n k (ov [x] s) us -> begin_on (notes_of l0 e0) (t :: ts) = play n k (pre e0 (ov (o :: O) s)) us -> resumed (t :: ts) l0 = heads (t :: ts) (o :: O) ->
  match reading (t :: ts) with
  | Some (Gives l e) => reading_on l0 e0 (t :: ts) = Some (Gives (resumed (t :: ts) l0 ++ tl l) (e0 ++ e))
  | Some Raises => reading_on l0 e0 (t :: ts) = Some Raises
  | None => True
  end.
Proof.
  intros V E1 E2 E3. unfold reading, reading_on. rewrite E1, E2, E3, pre_play. destruct (two_play x o [] O n k s us) as [q|q|]; cbn [pre_e]; [|reflexivity|exact I].
  change (ov [x] q) with (pre [] (ov [x] q)). rewrite !(conclude_two _ _ _ _ _ _ V). reflexivity.
Qed.
Lemma alike_reads l0 e0 ts : alike ts = true ->
  match reading ts with
  | Some (Gives l e) => reading_on l0 e0 ts = Some (Gives (resumed ts l0 ++ tl l) (e0 ++ e))
  | Some Raises => reading_on l0 e0 ts = Some Raises
  | None => True
  end.
Proof.
  destruct ts as [|t ts]; [discriminate|]. unfold alike. destruct (t_base t) eqn:Bt; try discriminate.
  - intros _. destruct (front l0 (flies (speed_part (t_text t)) ($"F050") (last l0 (aero [])))) as (o & O & F).
    apply (same_end t ts (patience (t :: ts)) (flies (speed_part (t_text t)) ($"F050") (aero ($"ADEP"))) o O e0 [JText] (mkNotes [] (n_last (vfr t blank_notes)) []) ts l0).
    + left. now rewrite Bt.
    + unfold begin, start. rewrite Bt. reflexivity.
    + unfold begin_on, start. rewrite Bt. f_equal. unfold vfr, notes_of, pre, ov, rules, with_last, add_as. cbn [n_before n_last n_reports]. rewrite F, !app_nil_r. reflexivity.
    + unfold resumed, heads, vfr_first. rewrite Bt, F. reflexivity.
  - destruct ts as [|u r]; [discriminate|]. intro A.
    set (p := last l0 (aero [])). set (f := fun i => n_last (speeds t (mkNotes [] i []))). destruct (front l0 (f p)) as (o & O & F).
    set (i := new_item (t_text u) u (f (aero ($"ADEP")))). set (ef := n_reports (speeds t blank_notes)).
    assert (X1 : add u (speeds t blank_notes) = ov [f (aero ($"ADEP"))] (mkNotes [] i ef)) by reflexivity.
    assert (X2 : add u (speeds t (notes_of l0 e0)) = pre e0 (ov (o :: O) (mkNotes [] i ef))).
    { unfold pre, ov. cbn [n_before n_last n_reports]. rewrite <- F, app_nil_r. unfold speeds, notes_of. fold p. unfold report, rules, with_last, add, add_as. cbn [n_before n_last n_reports].
      unfold i, ef, f, new_item, speeds. rewrite Bt. reflexivity. }
    assert (Rs : resumed (t :: u :: r) l0 = heads (t :: u :: r) (o :: O)).
    { unfold resumed, heads, vfr_first. rewrite Bt. change (base_eqb F15_SPEED_ALTITUDE F15_SPEED_VFR) with false. cbv iota. rewrite <- F. reflexivity. }
    assert (B1 : begin (t :: u :: r) = play (patience (t :: u :: r)) [JAdep] (speeds t blank_notes) (u :: r)) by (unfold begin, start; rewrite Bt; reflexivity).
    assert (B2 : exists j, (j = JAdep \/ j = JPoint) /\ begin_on (notes_of l0 e0) (t :: u :: r) = play (patience (t :: u :: r)) [j] (speeds t (notes_of l0 e0)) (u :: r)).
    { unfold begin_on, start. rewrite Bt. destruct (only_adep (notes_of l0 e0)); eauto. }
    destruct B2 as (j & Hj & B2).
    assert (N : patience (t :: u :: r) = S (4 * length r + 11)) by (unfold patience; cbn [length]; lia). rewrite N in *. set (n := (4 * length r + 11)%nat) in *.
    assert (Go : t_base u = F15_DCT \/ t_base u = F15_POINT \/ t_base u = F15_STAR \/ t_base u = F15_TRUNCATE ->
      begin (t :: u :: r) = goes_on n (start u [] (speeds t blank_notes) r) /\ begin_on (notes_of l0 e0) (t :: u :: r) = goes_on n (start u [] (speeds t (notes_of l0 e0)) r)).
    { intro Hu. rewrite B1, B2. cbn [play]. split.
      - rewrite step_read by reflexivity. unfold read, suits, spot, fits. destruct Hu as [Hu|[Hu|[Hu|Hu]]]; rewrite Hu; reflexivity.
      - destruct Hj as [-> | ->]; rewrite step_read by reflexivity; unfold read, suits, spot, fits; destruct Hu as [Hu|[Hu|[Hu|Hu]]]; rewrite Hu; reflexivity. }
    destruct (t_base u) eqn:Bu; try discriminate A; destruct (Go ltac:(auto)) as [G1 G2]; clear Go B1 B2; unfold start in G1, G2; rewrite Bu in G1, G2.
    all: set (x := f (aero ($"ADEP"))) in *; set (s := mkNotes [] i ef) in *; assert (V : base_eqb (t_base t) F15_SPEED_VFR = true \/ u :: r <> []) by (right; discriminate).
    + rewrite X1 in G1. rewrite X2 in G2. exact (same_end t (u :: r) n x o O e0 [JDct] s r l0 V G1 G2 Rs).
    + destruct r as [|v r]; [|discriminate A]. clear A. assert (E : forall s, goes_on n (Goes [JTruncate] s []) = Done s) by (intro q; unfold n; reflexivity).
      rewrite E in G1, G2. unfold reading, reading_on. rewrite G1, G2, Rs. unfold conclude. cbv zeta.
      assert (Y1 : n_before (speeds t blank_notes) = [] /\ n_last (speeds t blank_notes) = x /\ n_reports (speeds t blank_notes) = ef) by (repeat split).
      assert (Y2 : n_before (speeds t (notes_of l0 e0)) ++ [n_last (speeds t (notes_of l0 e0))] = o :: O /\ last (o :: O) (aero []) = f p /\ n_reports (speeds t (notes_of l0 e0)) = e0 ++ ef).
      { rewrite <- F, last_last. unfold speeds, notes_of, ef, f, speeds. rewrite Bt. repeat split. }
      destruct Y1 as (-> & -> & ->). destruct Y2 as (-> & Y2 & ->). cbn [heads app]. cbn [vfr_first]. rewrite Bt. change (base_eqb F15_SPEED_ALTITUDE F15_SPEED_VFR) with false. cbv iota. rewrite Y2.
      assert (Z : i_rules (f p) = i_rules x) by reflexivity. rewrite Z. reflexivity.
    + unfold point in G1, G2. rewrite X1 in G1. rewrite X2 in G2. change (locates u (rules ($"IFR") (pre e0 (ov (o :: O) s)))) with (pre e0 (locates u (rules ($"IFR") (ov (o :: O) s)))) in G2. rewrite pre_report in G2.
      exact (same_end t (u :: r) n x o O e0 [JPoint] (report u (angle_faults u) (locates u (rules ($"IFR") s))) r l0 V G1 G2 Rs).
    + rewrite X1 in G1. rewrite X2 in G2. unfold the_last in G1, G2. destruct r as [|v r].
      * exact (same_end t [u] n x o O e0 [] (types F15_STAR (star_sub u) s) [] l0 V G1 G2 Rs).
      * rewrite pre_report in G2. exact (same_end t (u :: v :: r) n x o O e0 [JSync] (report v [34] s) (v :: r) l0 V G1 G2 Rs).
Qed.

(** ** Accepted fields *)
Lemma noisy n k s ts q t m l e L : play n k (report t [m] s) ts = Done q -> conclude L q = (l, e) -> e <> [].
Proof.
  intros H C ->. destruct (conclude_reports L q) as [e' E]. rewrite C in E. cbn [snd] in E. symmetry in E. apply app_eq_nil in E. destruct E as [E _].
  pose proof (quiet _ _ (grow_play n k _ ts q H) E) as K. cbn in K. destruct (n_reports s); discriminate K.
Qed.
Lemma accepted_alike ts l : ts <> [] -> reading ts = Some (Gives l []) -> alike ts = true \/ sid_second ts = true.
Proof.
  destruct ts as [|t ts]; [congruence|]. intros _ H. unfold reading in H. destruct (begin (t :: ts)) as [q|q|] eqn:B; try discriminate H.
  destruct (conclude (t :: ts) q) as [l' e] eqn:C. injection H as -> ->. unfold begin in B.
  assert (Bad : forall n k s us x m, play n k (report x [m] s) us = Done q -> False) by (intros n k s us x m P; exact (noisy n k s us q x m l [] (t :: ts) P C eq_refl)).
  unfold alike. destruct (t_base t) eqn:Bt; try (destruct (Bad _ _ _ _ _ _ B)); [now left|].
  unfold start in B. rewrite Bt in B. change (only_adep blank_notes) with true in B. cbv iota in B. destruct ts as [|u r].
  - exfalso. unfold conclude in C. rewrite Bt in C. cbv zeta in C. injection C as _ C. apply app_eq_nil in C. destruct C as [_ C]. discriminate C.
  - unfold sid_second. replace (patience (t :: u :: r)) with (S (4 * length r + 11)) in B by (unfold patience; cbn [length]; lia).
    cbn [play] in B. rewrite step_read in B by reflexivity. unfold read, suits, spot, fits in B.
    destruct (t_base u) eqn:Bu; auto; cbv iota beta in B; cbn [orb] in B; try (destruct (Bad _ _ _ _ _ _ B)).
    unfold start in B. rewrite Bu in B. destruct r as [|v r]; [now left|]. exfalso. cbn [length] in B. replace (4 * S (length r) + 11)%nat with (S (4 * S (length r) + 10)) in B by lia.
    cbn [play] in B. rewrite step_read in B by reflexivity. exact (Bad _ _ _ _ _ _ B).
Qed.
(** A SID after the first speed and level of a later route. *)
Lemma sid_reported l0 e0 t u r : (2 <= length l0)%nat -> t_base t = F15_SPEED_ALTITUDE ->
  match reading_on l0 e0 (t :: u :: r) with
  | Some (Gives l e) => (t_base u = F15_SID -> In (u, 30) e) /\ (t_base u = F15_SID_STAR -> match r with v :: _ => In (v, 34) e | [] => True end)
  | _ => True
  end.
Proof.
  intros Hl Bt. unfold reading_on. destruct (begin_on (notes_of l0 e0) (t :: u :: r)) as [q|q|] eqn:B; [|exact I|exact I].
  destruct (conclude (t :: u :: r) q) as [l e] eqn:C. unfold begin_on, start in B. rewrite Bt in B.
  assert (A : only_adep (notes_of l0 e0) = false) by (destruct l0 as [|a [|b l0]]; cbn [length] in Hl; try lia; reflexivity). rewrite A in B.
  assert (In_ : forall n k s us x m, play n k (report x [m] s) us = Done q -> In (x, m) e).
  { intros n k s us x m P. destruct (conclude_reports (t :: u :: r) q) as [e' E]. rewrite C in E. cbn [snd] in E. destruct (grow_play n k _ us q P) as [[z K] _]. rewrite E, K. cbn. rewrite !in_app_iff. left. left. right. now left. }
  replace (patience (t :: u :: r)) with (S (4 * length r + 11)) in B by (unfold patience; cbn [length]; lia).
  cbn [play] in B. rewrite step_read in B by reflexivity. unfold read, suits, spot, fits in B.
  assert (A2 : only_adep (speeds t (notes_of l0 e0)) = false) by exact A.
  split; intro Bu; rewrite Bu in B; cbn [orb base_eqb] in B; unfold start in B; rewrite Bu, A2 in B; cbv iota in B.
  - exact (In_ _ _ _ _ _ _ B).
  - destruct r as [|v r]; [exact I|]. unfold the_last in B. exact (In_ _ _ _ _ _ _ B).
Qed.

(** ** The parser *)
Section G.
Variable G : geodesic.
Lemma used_items depth f x k b s : used G x -> field_tokens f <> [] -> reparse G depth f x k = Ok b s ->
  exists e0 e, e_errs x = map error_of e0 /\ reading_on (map item_of (e_recs x)) e0 (field_tokens f) = Some (Gives (map item_of (e_recs (s_ers s))) e) /\ b = (match e with [] => true | _ => false end) /\ e_errs (s_ers s) = map error_of e.
Proof.
  intros U F H. destruct (used_made G x U) as [e0 M]. destruct (reparse_complete G depth f x k e0 b s M F H) as (l & e & K1 & K2 & K3 & _ & K4).
  exists e0, e. rewrite K4. split; [now apply (made_errors G)|]. split; [exact K1|]. split; [exact K2|]. now rewrite K3.
Qed.
Lemma reuse_alike d1 d2 f x k b1 s1 b s : used G x -> alike (field_tokens f) = true -> parse_field15 G d1 f = Ok b1 s1 -> reparse G d2 f x k = Ok b s ->
  map item_of (e_recs (s_ers s)) = resumed (field_tokens f) (map item_of (e_recs x)) ++ tl (map item_of (e_recs (s_ers s1))) /\
  e_errs (s_ers s) = e_errs x ++ e_errs (s_ers s1) /\ (b = true <-> b1 = true /\ e_errs x = []).
Proof.
  intros U A H1 H. assert (F : field_tokens f <> []) by (intro E; rewrite E in A; discriminate A).
  destruct (used_items d2 f x k b s U F H) as (e0 & e & K1 & K2 & K3 & K4).
  destruct (whole_result G d1 f b1 s1 F H1) as (l1 & e1 & R1 & R2 & _). destruct (complete G d1 f b1 s1 F H1) as (l' & e' & S1 & S2 & S3). rewrite R1 in S1. injection S1 as <- <-.
  pose proof (alike_reads (map item_of (e_recs x)) e0 (field_tokens f) A) as Q. rewrite R1, K2 in Q. injection Q as Q1 Q2.
  rewrite Q1, R2, K4, K1, Q2, map_app, S3, S2. split; [reflexivity|]. split; [reflexivity|]. rewrite K3, Q2.
  destruct e0 as [|a e0], e1 as [|c e1]; cbn [app map]; split; intro Z; try discriminate Z; try (destruct Z; discriminate); auto.
Qed.
Lemma reuse_accepted d1 d2 f x k s1 b s : used G x -> e_errs x = [] -> field_tokens f <> [] -> sid_second (field_tokens f) = false -> parse_field15 G d1 f = Ok true s1 -> reparse G d2 f x k = Ok b s ->
  b = true /\ map item_of (e_recs (s_ers s)) = resumed (field_tokens f) (map item_of (e_recs x)) ++ tl (map item_of (e_recs (s_ers s1))).
Proof.
  intros U E F S H1 H. destruct (complete G d1 f true s1 F H1) as (l' & e' & S1 & S2 & S3). destruct e'; [|discriminate S2].
  destruct (accepted_alike _ _ F S1) as [A|A]; [|congruence]. destruct (reuse_alike d1 d2 f x k true s1 b s U A H1 H) as (K1 & _ & K2). split; [now apply K2|exact K1].
Qed.
Lemma reuse_sid depth f x k b s t u r : used G x -> (2 <= length (e_recs x))%nat -> field_tokens f = t :: u :: r -> t_base t = F15_SPEED_ALTITUDE ->
  reparse G depth f x k = Ok b s ->
  (t_base u = F15_SID -> b = false /\ In (error_of (u, 30)) (e_errs (s_ers s))) /\
  (t_base u = F15_SID_STAR -> forall v r', r = v :: r' -> b = false /\ In (error_of (v, 34)) (e_errs (s_ers s))).
Proof.
  intros U L E Bt H. assert (F : field_tokens f <> []) by (rewrite E; discriminate). destruct (used_items depth f x k b s U F H) as (e0 & e & K1 & K2 & K3 & K4).
  rewrite <- (map_length item_of) in L. pose proof (sid_reported _ e0 t u r L Bt) as Q. rewrite <- E, K2 in Q. destruct Q as [Q1 Q2].
  assert (X : forall q, In q e -> b = false /\ In (error_of q) (e_errs (s_ers s))).
  { intros q Hq. split; [rewrite K3; destruct e; [destruct Hq|reflexivity]|rewrite K4; now apply in_map]. }
  split; [intro Bu; apply X; auto|]. intros Bu v r' ->. apply X. exact (Q2 Bu).
Qed.
Lemma used_two d f x k b s : used G x -> reparse G d f x k = Ok b s -> (2 <= length (e_recs (s_ers s)))%nat.
Proof.
  intros U H. destruct (records_kept G d _ x k b s H) as (old & new & E & N & M). rewrite E, app_length. apply (f_equal (@length _)) in M. rewrite !map_length in M. rewrite M.
  destruct (used_made G x U) as [e0 (M1 & _)]. destruct (e_recs x); [congruence|]. destruct new; [congruence|]. cbn [length]. lia.
Qed.
Lemma sid_again d0 f0 x k0 b0 s0 d f k b s t u r : used G x -> reparse G d0 f0 x k0 = Ok b0 s0 -> field_tokens f = t :: u :: r -> t_base t = F15_SPEED_ALTITUDE ->
  reparse G d f (s_ers s0) k = Ok b s ->
  (t_base u = F15_SID -> b = false /\ In (error_of (u, 30)) (e_errs (s_ers s))) /\
  (t_base u = F15_SID_STAR -> forall v r', r = v :: r' -> b = false /\ In (error_of (v, 34)) (e_errs (s_ers s))).
Proof. intros U H0. exact (reuse_sid d f (s_ers s0) k b s t u r (used_again G d0 f0 x k0 b0 s0 U H0) (used_two d0 f0 x k0 b0 s0 U H0)). Qed.
Lemma empty_again d f x k b s : used G x -> field_tokens f = [] -> reparse G d f x k = Ok b s ->
  b = false /\ s_ers s = mkErs (e_recs x ++ [dummy ($"ADES")]) (e_errs x ++ [empty_err]) (e_rules x).
Proof. intro U. destruct (used_made G x U) as [e0 M]. exact (reparse_empty G d f x k b s (proj1 M)). Qed.
End G.
