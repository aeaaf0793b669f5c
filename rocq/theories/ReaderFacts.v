(** * ReaderFacts: the machine of SpecReader comes to an end; parse_f15 and whole fields. *)
From Coq Require Import ZArith NArith List Bool String Lia.
From Coq Require Import ZifyBool ZifyNat ZifyN.
From Verif Require Import PyBase PyFloat Enums ErrorTable Tokenizer Ers Utils Parser.
From Verif Require Import TokenizerProofs ParserPrims PerfEq PointEq Trace ParseTrace SpecNum SpecParser ParserFacts SpecGrammar GrammarSem Grammar SpecAccept Accept SpecDiagnosis Diagnosis DiagFacts SpecReader Reader.
Import List ListNotations.
Local Open Scope list_scope.
Local Open Scope nat_scope.

(** ** The machine stops *)
Definition weight (j : job) : nat := match j with JTake _ => 2 | _ => 1 end.
Definition weights (k : list job) : nat := list_sum (map weight k).
Definition work (r : result) : nat := match r with Goes k _ ts => 4 * length ts + weights k | Breaks _ => 0 end.
Definition below (n : nat) (r : result) : Prop := work r <= n.
Lemma weights_cons j k : weights (j :: k) = weight j + weights k.
Proof. reflexivity. Qed.
Ltac wk := unfold below, work, wrong; rewrite ?weights_cons; cbn [weight app length]; rewrite ?weights_cons; cbn [weight]; lia.
Lemma work_last t k s ts n : 4 * length ts + weights k + 1 <= n -> below n (the_last t k s ts).
Proof. intro H. unfold the_last. destruct ts as [|x ts]; cbn [length] in H; wk. Qed.
Lemma work_start t k s ts n : 4 * length ts + weights k + 1 <= n -> below n (start t k s ts).
Proof.
  intro H. unfold start. destruct (t_base t); try wk; try (now apply work_last);
    try (destruct (only_adep s); first [wk | now apply work_last]); destruct (unconvertible t); wk.
Qed.
Lemma work_leave b k s ts n : 4 * length ts + weights k + 2 <= n -> below n (leave b k s ts).
Proof. intro H. unfold leave. destruct (resume b ts); [wk|destruct b; wk|]. destruct ts; cbn [length] in H; wk. Qed.
Lemma work_read j t k s ts : below (4 * length ts + weights k + 4) (read j t k s ts).
Proof.
  assert (St : forall u q s', weights q <= weights k + 1 -> below (4 * length ts + weights k + 4) (start u q s' ts)) by (intros; apply work_start; lia).
  assert (Lv : forall b q s', weights q <= weights k + 1 -> below (4 * length ts + weights k + 4) (leave b q s' ts)) by (intros; apply work_leave; lia).
  destruct j; unfold read;
    try (destruct (suits _ t s); [|destruct (t_base t); wk]); try wk;
    try (apply St; rewrite ?weights_cons; cbn [weight]; lia);
    try (destruct (base_eqb (t_base t) F15_SLASH); [wk|apply St; lia]).
  - destruct (base_eqb _ _); [wk|]. cbv zeta. destruct (ends_here _ _); [apply Lv; rewrite weights_cons; cbn [weight]; lia|wk].
  - destruct (base_eqb _ _); [wk|]. cbv zeta. destruct (ends_here _ _); [apply Lv; rewrite weights_cons; cbn [weight]; lia|wk].
  - destruct ts as [|sl [|sp ts]]; try wk. destruct (base_eqb _ _); wk.
  - destruct (t_base t); try wk; try (apply St; lia). apply Lv; lia.
  - destruct (t_base t); try wk; apply St; lia.
Qed.
Lemma work_step j k s ts : work (step1 (j :: k) s ts) < work (Goes (j :: k) s ts).
Proof.
  assert (P : plain j = true -> work (step1 (j :: k) s ts) < work (Goes (j :: k) s ts)).
  { intro P. destruct ts as [|t ts].
    - rewrite step_end by exact P. unfold work. rewrite weights_cons. destruct j; cbn [weight]; lia.
    - rewrite step_read by exact P. pose proof (work_read j t k s ts) as W. unfold below in W. unfold work at 2. rewrite weights_cons. cbn [length]. destruct j; cbn [weight]; lia. }
  destruct j; try exact (P eq_refl); cbn [step1]; unfold work; rewrite ?weights_cons; cbn [weight]; lia.
Qed.
Definition goes_on (n : nat) (r : result) : ending := match r with Goes k s ts => play n k s ts | Breaks s => Broken s end.
Lemma play_stops n : forall r, work r <= n -> goes_on n r <> Unfinished.
Proof.
  induction n as [|n IH]; intros [k s ts|s] H; try discriminate.
  - unfold work in H. destruct k as [|j k]; [discriminate|]. rewrite weights_cons in H. destruct j; cbn [weight] in H; lia.
  - destruct k as [|j k]; [discriminate|]. exact (IH (step1 (j :: k) s ts) ltac:(pose proof (work_step j k s ts); lia)).
Qed.
Lemma steps_play r q : steps r q -> forall n e, (forall m, goes_on m q = e) -> work r <= n -> goes_on n r = e.
Proof.
  induction 1 as [r|j k s ts r _ IH]; intros n e He Hn; [apply He|].
  destruct n as [|n]; [pose proof (work_step j k s ts); lia|]. exact (IH n e He ltac:(pose proof (work_step j k s ts); lia)).
Qed.
Lemma begin_stops ts : begin ts <> Unfinished.
Proof.
  assert (P : forall t r (s : notes), play (patience (t :: r)) [JSync] s r <> Unfinished).
  { intros t r s. apply (play_stops _ (Goes [JSync] s r)). unfold work, patience. cbn [length]. rewrite weights_cons. cbn. lia. }
  destruct ts as [|t r]; [discriminate|]. unfold begin.
  assert (Q : match start t [] blank_notes r with Goes k s ts' => play (patience (t :: r)) k s ts' | Breaks s => Broken s end <> Unfinished).
  { apply (play_stops _ (start t [] blank_notes r)). apply work_start. unfold patience. change (weights []) with 0; cbn [length]; lia. }
  destruct (t_base t); try exact (P t r _); exact Q.
Qed.

(** ** The messages are those of the table *)
Definition okn (s : notes) : bool := forallb (fun q => defined_error (snd q)) (n_reports s).
Definition okr (r : result) : bool := match r with Goes _ s _ | Breaks s => okn s end.
Lemma okn_report t ms s : okn s = true -> forallb defined_error ms = true -> okn (report t ms s) = true.
Proof.
  intros H K. unfold okn, report. cbn [n_reports]. rewrite forallb_app. unfold okn in H. rewrite H. cbn [andb].
  induction ms as [|m ms IH]; [reflexivity|]. cbn [map forallb snd] in *. apply andb_true_iff in K as [K1 K2]. rewrite K1. now apply IH.
Qed.
Lemma angle_faults_ok t : forallb defined_error (angle_faults t) = true.
Proof.
  unfold angle_faults, deg_faults, min_faults, brg_faults. cbv zeta.
  destruct (t_sub t); try reflexivity; repeat match goal with |- context [if ?b then _ else _] => destruct b end; reflexivity.
Qed.
Lemma level_faults_ok t : forallb defined_error (level_faults t) = true.
Proof. unfold level_faults. repeat match goal with |- context [if ?b then _ else _] => destruct b end; reflexivity. Qed.
Lemma okn_point t s : okn s = true -> okn (point t s) = true.
Proof. intro H. apply okn_report; [exact H|apply angle_faults_ok]. Qed.
Lemma okn_speeds t s : okn s = true -> okn (speeds t s) = true.
Proof. intro H. apply okn_report; [exact H|apply level_faults_ok]. Qed.
Lemma okr_last t k s ts : okn s = true -> okr (the_last t k s ts) = true.
Proof. intro H. unfold the_last. destruct ts; [exact H|]. now apply okn_report. Qed.
Lemma okr_start t k s ts : okn s = true -> okr (start t k s ts) = true.
Proof.
  intro H. unfold start. destruct (t_base t); try exact H; try (now apply okr_last); try (now apply okn_point); try (now apply okn_speeds);
    try (destruct (unconvertible t); [exact H|now apply okn_speeds]);
    try (destruct (only_adep s); [exact H|now apply okn_report]); try (destruct (only_adep s); [exact H|now apply okr_last]);
    destruct (begins (t_sub t)); exact H.
Qed.
Lemma okr_leave b k s ts : okn s = true -> okr (leave b k s ts) = true.
Proof. intro H. unfold leave. destruct (resume b ts); [exact H|destruct b; exact H|]. destruct ts; [exact H|now apply okn_report]. Qed.
Lemma okp_spot j s : okp (spot j s) = true.
Proof. destruct j; reflexivity. Qed.
Lemma okr_wrong j t k s ts : okn s = true -> okr (wrong j t k s ts) = true.
Proof. intro H. apply okn_report; [exact H|]. cbn [forallb]. now rewrite (misplaced_ok _ _ (okp_spot j s)). Qed.
Lemma okr_read j t k s ts : okn s = true -> okr (read j t k s ts) = true.
Proof.
  intro H. 
  destruct j; unfold read;
    try (destruct (suits _ t s); [|destruct (t_base t); now apply okr_wrong]); try exact H; try (now apply okr_wrong);
    try (now apply okr_start); try (now apply okn_point);
    try (destruct (base_eqb (t_base t) F15_SLASH); [exact H|now apply okr_start]);
    try (destruct (base_eqb _ _); [now apply okn_report|]; cbv zeta; destruct (ends_here _ _); [now apply okr_leave|exact H]).
  - destruct ts as [|sl [|sp ts]]; try exact H. destruct (base_eqb _ _); [exact H|]. now apply okn_speeds, okn_point.
  - destruct (t_base t); try (now apply okr_start); try (now apply okr_leave); try (now apply okn_report); exact H.
  - destruct (t_base t); try (now apply okr_start); now apply okn_report.
Qed.
Lemma okr_steps r q : steps r q -> okr r = true -> okr q = true.
Proof.
  induction 1 as [|j k s ts r _ IH]; [auto|]. intro H. apply IH. cbn [okr] in H.
  assert (P : plain j = true -> okr (step1 (j :: k) s ts) = true).
  { intro P. destruct ts as [|t ts]; [rewrite step_end by exact P|rewrite step_read by exact P; now apply okr_read].
    destruct j; try exact H; now apply okn_report. }
  destruct j; try exact (P eq_refl); [exact H|now apply okn_point].
Qed.
Lemma reports_all l : forallb (fun q : token * Z => defined_error (snd q)) l = true ->
  Forall2 (fun q e => reports (fst q) (snd q) e) l (map (fun q => err (fst q) (snd q)) l).
Proof.
  induction l as [|[t m] l IH]; intro H; [constructor|]. cbn [forallb snd] in H. apply andb_true_iff in H as [H1 H2]. constructor; [now apply err_reports|auto].
Qed.

(** ** parse_f15 *)
Lemma item_ades rs : item_of (ades_rec rs) = n_last (rules (i_rules (last (map item_of rs) (aero []))) (mkNotes [] (aero ($"ADES")) [])).
Proof.
  unfold ades_rec. assert (E : r_rules (last rs adep0) = i_rules (last (map item_of rs) (aero []))).
  { destruct rs as [|a rs] using rev_ind; [reflexivity|]. rewrite map_app. cbn [map]. rewrite !last_last. reflexivity. }
  rewrite <- E. reflexivity.
Qed.
Lemma letter_eq l : l <> [] -> letter (map item_of l) = derived l.
Proof.
  assert (X : forall r, existsb (fun i => pstr_eqb (i_rules i) r) (map item_of l) = some_rules r l).
  { intro r. unfold some_rules. induction l as [|a l IH]; [reflexivity|]. cbn [map existsb]. now rewrite IH. }
  intro H. unfold letter, derived. cbv zeta. rewrite !X. destruct l; [congruence|reflexivity].
Qed.

Lemma steps_nil s ts r : steps (Goes [] s ts) r -> r = Goes [] s ts.
Proof. intro H. inversion H. reflexivity. Qed.
Lemma match_same {A B} (l : list A) (x : B) : match l with [] => x | _ :: _ => x end = x.
Proof. destruct l; reflexivity. Qed.

Section G.
Variable G : geodesic.

(** What parse_f15 leaves when the machine ends in [r]. *)
Definition as_read (o : out bool) (r : option outcome) : Prop :=
  match o with
  | Exn RecursionError _ => True
  | Ok b s => exists l e, r = Some (Gives l e) /\ map item_of (e_recs (s_ers s)) = l /\
      (e_errs (s_ers s) = map (fun q => err (fst q) (snd q)) e /\ forallb (fun q : token * Z => defined_error (snd q)) e = true) /\ b = (match e with [] => true | _ => false end) /\ e_rules (s_ers s) = letter l
  | Exn e _ => e = ValueError /\ r = Some Raises
  end.
Lemma closing_read L cur l p errs k items e : map item_of (l ++ [p]) = items ->
  errs = map (fun q => err (fst q) (snd q)) e -> forallb (fun q : token * Z => defined_error (snd q)) e = true ->
  as_read (closing (stt L cur l p errs [] k)) (Some (Gives (items ++ [n_last (rules (i_rules (last items (aero []))) (mkNotes [] (aero ($"ADES")) []))]) e)).
Proof.
  intros <- -> D. rewrite closing_out. cbn [as_read s_ers e_recs e_errs e_rules]. set (rs := l ++ [p]).
  assert (E : map item_of rs ++ [n_last (rules (i_rules (last (map item_of rs) (aero []))) (mkNotes [] (aero ($"ADES")) []))] = map item_of (rs ++ [ades_rec rs])).
  { rewrite map_app. f_equal. cbn [map]. now rewrite item_ades. }
  rewrite E. eexists. exists e. split; [reflexivity|]. split; [reflexivity|]. split; [now split|]. split; [destruct e; reflexivity|].
  rewrite letter_eq; [reflexivity|]. destruct rs; discriminate.
Qed.
Lemma run_ends depth L c x s r : Forall wt L -> pre L c x -> rel x s -> okr (conf c [] s (toks L x)) = true -> work (conf c [] s (toks L x)) <= r ->
  match run G depth c (st_of L [] x) with
  | Ok _ s' => exists y q, s' = st_of L [] y /\ rel y q /\ okn q = true /\ goes_on r (conf c [] s (toks L x)) = Done q
  | Exn RecursionError _ => True
  | Exn e _ => e = ValueError /\ exists q, goes_on r (conf c [] s (toks L x)) = Broken q
  end.
Proof.
  intros HL P H Ok_ W. pose proof (run_R G L [] HL depth c x s P H) as Q. unfold R in Q.
  assert (B : forall (X : Prop), (X /\ forall k, exists q, steps (conf c k s (toks L x)) (Breaks q)) -> X /\ exists q, goes_on r (conf c [] s (toks L x)) = Broken q).
  { intros X [HX K]. split; [exact HX|]. destruct (K []) as [q Kq]. exists q. apply (steps_play _ _ Kq); [reflexivity|exact W]. }
  destruct (run G depth c (st_of L [] x)) as [u s'|e s'].
  - destruct Q as (y & q & E & Hy & K). exists y, q. split; [exact E|]. split; [exact Hy|]. specialize (K []). split; [exact (okr_steps _ _ K Ok_)|].
    apply (steps_play _ _ K); [|exact W]. intros [|m]; reflexivity.
  - destruct e; try exact Q; apply B; exact Q.
Qed.
Lemma rel0 k : rel (cfg0 k) blank_notes.
Proof. repeat split. Qed.
Theorem parse_reads depth L0 c0 k : L0 <> [] -> as_read (parse_f15 G depth (mkSt (mkTokens L0 c0) new_ers k)) (reading (map assign_syntax L0)).
Proof.
  intro Hne. pose proof (assign_syntax_all L0) as HL. destruct (map assign_syntax L0) as [|t L1] eqn:E0; [destruct L0; [congruence|discriminate]|].
  rewrite (parse_eq G depth L0 c0 k t L1 E0). set (L := t :: L1) in *. set (N := patience L).
  assert (Tk : toks L (cfg0 k) = L1) by reflexivity.
  assert (Err : t_base t <> F15_SPEED_VFR -> t_base t <> F15_SPEED_ALTITUDE -> begin L = goes_on N (Goes [JSync] (report t [1%Z] blank_notes) L1) ->
    as_read (bind (run G depth (CErrSync t 1)) (fun _ => closing) (st_of L [] (cfg0 k))) (reading L)).
  { intros N1 N2 Bg. pose proof (run_ends depth L (CErrSync t 1) (cfg0 k) blank_notes N HL eq_refl (rel0 k) eq_refl) as Q. rewrite Tk in Q. cbn [conf] in Q.
    assert (W : work (Goes [JSync] (report t [1%Z] blank_notes) L1) <= N) by (unfold work, N, patience, L; cbn [length]; rewrite weights_cons; cbn; lia).
    specialize (Q W). unfold reading. rewrite Bg. unfold bind. destruct (run G depth (CErrSync t 1) (st_of L [] (cfg0 k))) as [u s'|e s'].
    - destruct Q as (y & q & -> & Hy & Oq & ->). destruct Hy as (H1 & H2 & H3). unfold conclude, L.
      assert (V : base_eqb (t_base t) F15_SPEED_VFR = false) by (destruct (base_eqb (t_base t) F15_SPEED_VFR) eqn:X; [apply base_eqb_eq in X; contradiction|reflexivity]).
      assert (A : base_eqb (t_base t) F15_SPEED_ALTITUDE = false) by (destruct (base_eqb (t_base t) F15_SPEED_ALTITUDE) eqn:X; [apply base_eqb_eq in X; contradiction|reflexivity]).
      rewrite V, A, H1, H2. change ([item_of (c_p y)]) with (map item_of [c_p y]). rewrite <- map_app.
      assert (Ei : match map item_of (c_l y ++ [c_p y]) with [] => map item_of (c_l y ++ [c_p y]) | _ :: _ => map item_of (c_l y ++ [c_p y]) end = map item_of (c_l y ++ [c_p y])) by apply match_same.
      rewrite Ei. assert (Ee : match L1 with [] => n_reports q | _ :: _ => n_reports q end = n_reports q) by (destruct L1; reflexivity). rewrite Ee.
      apply closing_read; [reflexivity|exact H3|exact Oq].
    - destruct e; try exact I; destruct Q as [Q1 [q ->]]; first [discriminate Q1 | split; reflexivity]. }
  destruct (t_base t) eqn:Eb; try (apply Err; [discriminate|discriminate|unfold begin, L; rewrite Eb; reflexivity]); clear Err.
  - (* speed/VFR first *)
    pose proof (run_ends depth L (CSpdVfr t) (cfg0 k) blank_notes N HL (conj (Forall_inv HL) Eb) (rel0 k)) as Q. rewrite Tk in Q. cbn [conf] in Q.
    specialize (Q (okr_start t [] blank_notes L1 eq_refl)).
    assert (W : work (start t [] blank_notes L1) <= N) by (apply work_start; unfold N, patience, L; change (weights []) with 0; cbn [length]; lia).
    specialize (Q W). unfold reading.
    assert (Bg : begin L = goes_on N (start t [] blank_notes L1)) by (unfold begin, L; rewrite Eb; reflexivity). rewrite Bg.
    rewrite bind_assoc. unfold bind at 1. destruct (run G depth (CSpdVfr t) (st_of L [] (cfg0 k))) as [u s'|e s'].
    + destruct Q as (y & q & -> & Hy & Oq & ->). destruct Hy as (H1 & H2 & H3). unfold st_of at 1. rewrite bind_assoc.
      bok (first_elem_eq L (Z.of_nat (c_cur y)) (c_l y) (c_p y) (c_errs y) [] (c_k y)). cbn [deref opt_or]. rewrite bind_assoc. bret.
      assert (U : exists l p, upd 0 (set_r_rules RULE_V) (stt L (Z.of_nat (c_cur y)) (c_l y) (c_p y) (c_errs y) [] (c_k y))
                  = Ok tt (stt L (Z.of_nat (c_cur y)) l p (c_errs y) [] (c_k y)) /\ l ++ [p] = list_upd 0 (set_r_rules RULE_V) (c_l y ++ [c_p y])).
      { unfold upd, stt. cbn [s_ers e_recs s_toks s_calls e_errs e_rules]. destruct (c_l y) as [|f l].
        - exists [], (set_r_rules RULE_V (c_p y)). split; reflexivity.
        - exists (set_r_rules RULE_V f :: l), (c_p y). split; reflexivity. }
      destruct U as (l & p & U & El). bok U. unfold conclude, L. rewrite Eb. change (base_eqb F15_SPEED_VFR F15_SPEED_VFR) with true. change (base_eqb F15_SPEED_VFR F15_SPEED_ALTITUDE) with false. cbv iota.
      rewrite H1, H2. change ([item_of (c_p y)]) with (map item_of [c_p y]). rewrite <- map_app.
      assert (Ee : match L1 with [] => n_reports q | _ :: _ => n_reports q end = n_reports q) by (destruct L1; reflexivity). rewrite Ee.
      assert (Ei : match map item_of (c_l y ++ [c_p y]) with [] => map item_of (c_l y ++ [c_p y]) | i :: r => n_last (rules ($"VFR") (mkNotes [] i [])) :: r end = map item_of (l ++ [p])).
      { rewrite El. destruct (c_l y ++ [c_p y]) as [|f r]; reflexivity. }
      rewrite Ei. apply closing_read; [reflexivity|exact H3|exact Oq].
    + destruct e; try exact I; destruct Q as [Q1 [q ->]]; first [discriminate Q1 | split; reflexivity].
  - (* speed/level first *)
    pose proof (run_ends depth L (CSpdAlt t) (cfg0 k) blank_notes N HL (conj (Forall_inv HL) Eb) (rel0 k)) as Q. rewrite Tk in Q. cbn [conf] in Q.
    specialize (Q (okr_start t [] blank_notes L1 eq_refl)).
    assert (W : work (start t [] blank_notes L1) <= N) by (apply work_start; unfold N, patience, L; change (weights []) with 0; cbn [length]; lia).
    specialize (Q W). unfold reading.
    assert (Bg : begin L = goes_on N (start t [] blank_notes L1)) by (unfold begin, L; rewrite Eb; reflexivity). rewrite Bg.
    rewrite bind_assoc. unfold bind at 1. destruct (run G depth (CSpdAlt t) (st_of L [] (cfg0 k))) as [u s'|e s'].
    + destruct Q as (y & q & -> & Hy & Oq & ->). pose proof Hy as (H1 & H2 & H3).
      rewrite bind_assoc. unfold bind at 1. unfold tok_count at 1. cbv beta iota. unfold conclude, L. rewrite Eb. fold L.
      change (base_eqb F15_SPEED_ALTITUDE F15_SPEED_VFR) with false. change (base_eqb F15_SPEED_ALTITUDE F15_SPEED_ALTITUDE) with true. cbv iota.
      assert (Ei : match n_before q ++ [n_last q] with [] => n_before q ++ [n_last q] | _ :: _ => n_before q ++ [n_last q] end = map item_of (c_l y ++ [c_p y])).
      { rewrite match_same, H1, H2, map_app. reflexivity. }
      rewrite Ei. destruct (_ =? 1)%Z eqn:E1.
      * assert (L1e : L1 = []).
        { unfold get_number_of_tokens, st_of, stt, zlen in E1. cbn [s_toks tk_list] in E1. unfold L in E1. cbn [length] in E1. destruct L1; [reflexivity|cbn [length] in E1; lia]. }
        assert (Ty : toks L y = []) by (unfold toks, L; rewrite L1e; apply skipn_all2; cbn [length]; lia).
        pose proof (R_last_error G L [] HL depth t 49 y q eq_refl Ty Hy) as R1. unfold R in R1. unfold bind. destruct (run G depth (CErrSync t 49) (st_of L [] y)) as [u' s'|e s'].
        -- destruct R1 as (z & q' & -> & Hz & K). specialize (K []). apply steps_nil in K. injection K as -> _. destruct Hz as (Z1 & Z2 & Z3). cbn [report n_before n_last] in Z1, Z2. rewrite H1 in Z1. rewrite H2 in Z2.
           rewrite map_app, Z1. cbn [map]. rewrite Z2. change [item_of (c_p z)] with (map item_of [c_p z]). rewrite <- map_app.
           replace (match L1 with [] => n_reports (report t [49%Z] q) | _ :: _ => n_reports q end) with (n_reports (report t [49%Z] q)) by (rewrite L1e; reflexivity).
           apply closing_read; [reflexivity|exact Z3|]. apply (okn_report t [49%Z] q Oq). reflexivity.
        -- destruct e; try exact I; destruct R1 as [R1 K]; try discriminate R1. destruct (K []) as [q' Kq]. inversion Kq.
      * assert (L1e : exists q r, L1 = q :: r).
        { destruct L1 as [|u' r]; [|eauto]. exfalso. unfold get_number_of_tokens, st_of, stt, zlen in E1. cbn [s_toks tk_list] in E1. unfold L in E1. discriminate. }
        destruct L1e as (u' & r & L1e). bret. replace (match L1 with [] => n_reports (report t [49%Z] q) | _ :: _ => n_reports q end) with (n_reports q) by (rewrite L1e; reflexivity). unfold st_of. apply closing_read; [reflexivity|exact H3|exact Oq].
    + destruct e; try exact I; destruct Q as [Q1 [q ->]]; first [discriminate Q1 | split; reflexivity].
Qed.

(** ** Fields *)
Lemma field_reads depth field : field_tokens field <> [] -> as_read (parse_field15 G depth field) (reading (field_tokens field)).
Proof.
  intro Hne. unfold parse_field15. destruct (field_start field) as (l & E & F & N). rewrite E. rewrite F in *. apply parse_reads. destruct l; [contradiction|discriminate].
Qed.
End G.

Lemma whole_result G depth field b s : field_tokens field <> [] -> parse_field15 G depth field = Ok b s ->
  exists l e, reading (field_tokens field) = Some (Gives l e) /\ map item_of (e_recs (s_ers s)) = l /\
    Forall2 (fun q x => reports (fst q) (snd q) x) e (e_errs (s_ers s)) /\ b = (match e with [] => true | _ => false end) /\ e_rules (s_ers s) = letter l.
Proof.
  intros Hne H. pose proof (field_reads G depth field Hne) as K. rewrite H in K. destruct K as (l & e & K1 & K2 & [K3 K4] & K5).
  exists l, e. split; [exact K1|]. split; [exact K2|]. split; [rewrite K3; now apply reports_all|exact K5].
Qed.
Lemma reading_stops ts : reading ts <> None.
Proof. unfold reading. pose proof (begin_stops ts) as H. destruct (begin ts); [destruct (conclude ts s); discriminate|discriminate|congruence]. Qed.
Lemma read_or_raise G depth field : field_tokens field <> [] -> 3 * n_tokens field <= depth + 1 ->
  match reading (field_tokens field) with
  | Some (Gives _ _) => exists b s, parse_field15 G depth field = Ok b s
  | Some Raises => exists s, parse_field15 G depth field = Exn ValueError s
  | None => False
  end.
Proof.
  intros Hne Hd. pose proof (field_reads G depth field Hne) as K. pose proof (parse_exn_cases G depth field Hd) as C. pose proof (reading_stops (field_tokens field)) as T.
  destruct (parse_field15 G depth field) as [b s|e s].
  - destruct K as (l & e & -> & _). eauto.
  - destruct C as [C|[C _]]; [destruct C|]. cbn [raises] in C. subst e. destruct K as [_ ->]. eauto.
Qed.
