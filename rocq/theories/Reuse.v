(** * Reuse: parse_f15 on a route sequence that has been used before is the machine of SpecReuse. *)
From Coq Require Import ZArith NArith List Bool String Lia.
From Coq Require Import ZifyBool ZifyNat ZifyN.
From Verif Require Import PyBase PyFloat Enums ErrorTable Tokenizer Ers Utils Parser.
From Verif Require Import TokenizerProofs ParserPrims PerfEq PointEq Trace ParseTrace SpecNum SpecParser ParserFacts SpecGrammar GrammarSem Grammar SpecAccept Accept SpecDiagnosis Diagnosis DiagFacts SpecReader Reader ReaderFacts ParserInv SpecLegs LegFacts SpecComplete CompleteFacts ErsFacts SpecReuse.
Import List ListNotations.
Local Open Scope list_scope.
Local Open Scope nat_scope.

Section G.
Variable G : geodesic.
Lemma closing_read_on ru L cur l p errs k items e : map item_of (l ++ [p]) = items ->
  errs = map (fun q => err (fst q) (snd q)) e -> forallb (fun q : token * Z => defined_error (snd q)) e = true ->
  as_read (closing (stt L cur l p errs ru k)) (Some (Gives (items ++ [n_last (rules (i_rules (last items (aero []))) (mkNotes [] (aero ($"ADES")) []))]) e)).
Proof.
  intros <- -> D. rewrite closing_eq. cbn [as_read s_ers e_recs e_errs e_rules]. set (rs := l ++ [p]).
  assert (E : map item_of rs ++ [n_last (rules (i_rules (last (map item_of rs) (aero []))) (mkNotes [] (aero ($"ADES")) []))] = map item_of (rs ++ [ades_rec rs])).
  { rewrite map_app. f_equal. cbn [map]. now rewrite item_ades. }
  rewrite E. eexists. exists e. split; [reflexivity|]. split; [reflexivity|]. split; [now split|]. split; [destruct e; reflexivity|].
  rewrite letter_eq; [reflexivity|]. destruct rs; discriminate.
Qed.
Lemma run_ends_on ru depth L c x s r : Forall wt L -> pre L c x -> rel x s -> okr (conf c [] s (toks L x)) = true -> work (conf c [] s (toks L x)) <= r ->
  match run G depth c (st_of L ru x) with
  | Ok _ s' => exists y q, s' = st_of L ru y /\ rel y q /\ okn q = true /\ goes_on r (conf c [] s (toks L x)) = Done q
  | Exn RecursionError _ => True
  | Exn e _ => e = ValueError /\ exists q, goes_on r (conf c [] s (toks L x)) = Broken q
  end.
Proof.
  intros HL P H Ok_ W. pose proof (run_R G L ru HL depth c x s P H) as Q. unfold R in Q.
  assert (B : forall (X : Prop), (X /\ forall k, exists q, steps (conf c k s (toks L x)) (Breaks q)) -> X /\ exists q, goes_on r (conf c [] s (toks L x)) = Broken q).
  { intros X [HX K]. split; [exact HX|]. destruct (K []) as [q Kq]. exists q. apply (steps_play _ _ Kq); [reflexivity|exact W]. }
  destruct (run G depth c (st_of L ru x)) as [u s'|e s'].
  - destruct Q as (y & q & E & Hy & K). exists y, q. split; [exact E|]. split; [exact Hy|]. specialize (K []). split; [exact (okr_steps _ _ K Ok_)|].
    apply (steps_play _ _ K); [|exact W]. intros [|m]; reflexivity.
  - destruct e; try exact Q; apply B; exact Q.
Qed.
Lemma parse_eq_on depth L0 c0 k t L1 l p es ru : map assign_syntax L0 = t :: L1 ->
  parse_f15 G depth (mkSt (mkTokens L0 c0) (mkErs (l ++ [p]) es ru) k)
  = bind (match t_base t with
      | F15_SPEED_VFR => run G depth (CSpdVfr t) ;;; (o <- first_elem ;; i <- deref o ;; upd i (set_r_rules RULE_V))
      | F15_SPEED_ALTITUDE => run G depth (CSpdAlt t) ;;; (n <- tok_count ;; if (n =? 1)%Z then run G depth (CErrSync t 49) else ret tt)
      | _ => run G depth (CErrSync t 1)
      end) (fun _ => closing) (st_of (t :: L1) ru (mkC 0 l p es [] k)).
Proof.
  intro H. unfold parse_f15, assign_syntax_descriptions. unfold bind at 1. cbn [s_toks tk_list tk_cur s_ers s_calls]. rewrite H.
  unfold tok_first, get_first_token. unfold bind at 1. cbn [s_toks tk_list tk_cur s_ers s_calls].
  unfold get_token_at. cbn [tk_list]. replace ((0 <? 0) || (zlen (t :: L1) <=? 0))%Z with false by (unfold zlen; cbn [length]; lia).
  change (nth_error (t :: L1) (Z.to_nat 0)) with (Some t). cbv iota. reflexivity.
Qed.
Definition ends_on (s0 : notes) (ts : list token) : option outcome :=
  match begin_on s0 ts with
  | Done s => let (l', e') := conclude ts s in Some (Gives l' e')
  | Broken _ => Some Raises
  | Unfinished => None
  end.
Theorem parse_reads_on depth L0 c0 k l0 p0 es0 ru s0 : L0 <> [] -> rel (mkC 0 l0 p0 es0 [] k) s0 -> okn s0 = true ->
  as_read (parse_f15 G depth (mkSt (mkTokens L0 c0) (mkErs (l0 ++ [p0]) es0 ru) k)) (ends_on s0 (map assign_syntax L0)).
Proof.
  intros Hne Hr0 Ho0. pose proof (assign_syntax_all L0) as HL. destruct (map assign_syntax L0) as [|t L1] eqn:E0; [destruct L0; [congruence|discriminate]|].
  rewrite (parse_eq_on depth L0 c0 k t L1 l0 p0 es0 ru E0). set (x0 := mkC 0 l0 p0 es0 [] k) in *. set (L := t :: L1) in *. set (N := patience L).
  assert (Tk : toks L x0 = L1) by reflexivity.
  assert (Err : t_base t <> F15_SPEED_VFR -> t_base t <> F15_SPEED_ALTITUDE -> begin_on s0 L = goes_on N (Goes [JSync] (report t [1%Z] s0) L1) ->
    as_read (bind (run G depth (CErrSync t 1)) (fun _ => closing) (st_of L ru x0)) (ends_on s0 L)).
  { intros N1 N2 Bg. pose proof (run_ends_on ru depth L (CErrSync t 1) x0 s0 N HL eq_refl Hr0) as Q. rewrite Tk in Q. cbn [conf okr] in Q.
    assert (W : work (Goes [JSync] (report t [1%Z] s0) L1) <= N) by (unfold work, N, patience, L; cbn [length]; rewrite weights_cons; cbn; lia).
    specialize (Q (okn_report t [1%Z] s0 Ho0 eq_refl) W). unfold ends_on. rewrite Bg. unfold bind. destruct (run G depth (CErrSync t 1) (st_of L ru x0)) as [u s'|e s'].
    - destruct Q as (y & q & -> & Hy & Oq & ->). destruct Hy as (H1 & H2 & H3). unfold conclude, L.
      assert (V : base_eqb (t_base t) F15_SPEED_VFR = false) by (destruct (base_eqb (t_base t) F15_SPEED_VFR) eqn:X; [apply base_eqb_eq in X; contradiction|reflexivity]).
      assert (A : base_eqb (t_base t) F15_SPEED_ALTITUDE = false) by (destruct (base_eqb (t_base t) F15_SPEED_ALTITUDE) eqn:X; [apply base_eqb_eq in X; contradiction|reflexivity]).
      rewrite V, A, H1, H2. change ([item_of (c_p y)]) with (map item_of [c_p y]). rewrite <- map_app.
      assert (Ei : match map item_of (c_l y ++ [c_p y]) with [] => map item_of (c_l y ++ [c_p y]) | _ :: _ => map item_of (c_l y ++ [c_p y]) end = map item_of (c_l y ++ [c_p y])) by apply match_same.
      rewrite Ei. assert (Ee : match L1 with [] => n_reports q | _ :: _ => n_reports q end = n_reports q) by (destruct L1; reflexivity). rewrite Ee.
      apply closing_read_on; [reflexivity|exact H3|exact Oq].
    - destruct e; try exact I; destruct Q as [Q1 [q ->]]; first [discriminate Q1 | split; reflexivity]. }
  destruct (t_base t) eqn:Eb; try (apply Err; [discriminate|discriminate|unfold begin_on, L; rewrite Eb; reflexivity]); clear Err.
  - (* speed/VFR first *)
    pose proof (run_ends_on ru depth L (CSpdVfr t) x0 s0 N HL (conj (Forall_inv HL) Eb) Hr0) as Q. rewrite Tk in Q. cbn [conf] in Q.
    specialize (Q (okr_start t [] s0 L1 Ho0)).
    assert (W : work (start t [] s0 L1) <= N) by (apply work_start; unfold N, patience, L; change (weights []) with 0; cbn [length]; lia).
    specialize (Q W). unfold ends_on.
    assert (Bg : begin_on s0 L = goes_on N (start t [] s0 L1)) by (unfold begin_on, L; rewrite Eb; reflexivity). rewrite Bg.
    rewrite bind_assoc. unfold bind at 1. destruct (run G depth (CSpdVfr t) (st_of L ru x0)) as [u s'|e s'].
    + destruct Q as (y & q & -> & Hy & Oq & ->). destruct Hy as (H1 & H2 & H3). unfold st_of at 1. rewrite bind_assoc.
      bok (first_elem_eq L (Z.of_nat (c_cur y)) (c_l y) (c_p y) (c_errs y) ru (c_k y)). cbn [deref opt_or]. rewrite bind_assoc. bret.
      assert (U : exists l p, upd 0 (set_r_rules RULE_V) (stt L (Z.of_nat (c_cur y)) (c_l y) (c_p y) (c_errs y) ru (c_k y))
                  = Ok tt (stt L (Z.of_nat (c_cur y)) l p (c_errs y) ru (c_k y)) /\ l ++ [p] = list_upd 0 (set_r_rules RULE_V) (c_l y ++ [c_p y])).
      { unfold upd, stt. cbn [s_ers e_recs s_toks s_calls e_errs e_rules]. destruct (c_l y) as [|f l].
        - exists [], (set_r_rules RULE_V (c_p y)). split; reflexivity.
        - exists (set_r_rules RULE_V f :: l), (c_p y). split; reflexivity. }
      destruct U as (l & p & U & El). bok U. unfold conclude, L. rewrite Eb. change (base_eqb F15_SPEED_VFR F15_SPEED_VFR) with true. change (base_eqb F15_SPEED_VFR F15_SPEED_ALTITUDE) with false. cbv iota.
      rewrite H1, H2. change ([item_of (c_p y)]) with (map item_of [c_p y]). rewrite <- map_app.
      assert (Ee : match L1 with [] => n_reports q | _ :: _ => n_reports q end = n_reports q) by (destruct L1; reflexivity). rewrite Ee.
      assert (Ei : match map item_of (c_l y ++ [c_p y]) with [] => map item_of (c_l y ++ [c_p y]) | i :: r => n_last (rules ($"VFR") (mkNotes [] i [])) :: r end = map item_of (l ++ [p])).
      { rewrite El. destruct (c_l y ++ [c_p y]) as [|f r]; reflexivity. }
      rewrite Ei. apply closing_read_on; [reflexivity|exact H3|exact Oq].
    + destruct e; try exact I; destruct Q as [Q1 [q ->]]; first [discriminate Q1 | split; reflexivity].
  - (* speed/level first *)
    pose proof (run_ends_on ru depth L (CSpdAlt t) x0 s0 N HL (conj (Forall_inv HL) Eb) Hr0) as Q. rewrite Tk in Q. cbn [conf] in Q.
    specialize (Q (okr_start t [] s0 L1 Ho0)).
    assert (W : work (start t [] s0 L1) <= N) by (apply work_start; unfold N, patience, L; change (weights []) with 0; cbn [length]; lia).
    specialize (Q W). unfold ends_on.
    assert (Bg : begin_on s0 L = goes_on N (start t [] s0 L1)) by (unfold begin_on, L; rewrite Eb; reflexivity). rewrite Bg.
    rewrite bind_assoc. unfold bind at 1. destruct (run G depth (CSpdAlt t) (st_of L ru x0)) as [u s'|e s'].
    + destruct Q as (y & q & -> & Hy & Oq & ->). pose proof Hy as (H1 & H2 & H3).
      rewrite bind_assoc. unfold bind at 1. unfold tok_count at 1. cbv beta iota. unfold conclude, L. rewrite Eb. fold L.
      change (base_eqb F15_SPEED_ALTITUDE F15_SPEED_VFR) with false. change (base_eqb F15_SPEED_ALTITUDE F15_SPEED_ALTITUDE) with true. cbv iota.
      assert (Ei : match n_before q ++ [n_last q] with [] => n_before q ++ [n_last q] | _ :: _ => n_before q ++ [n_last q] end = map item_of (c_l y ++ [c_p y])).
      { rewrite match_same, H1, H2, map_app. reflexivity. }
      rewrite Ei. destruct (_ =? 1)%Z eqn:E1.
      * assert (L1e : L1 = []).
        { unfold get_number_of_tokens, st_of, stt, zlen in E1. cbn [s_toks tk_list] in E1. unfold L in E1. cbn [length] in E1. destruct L1; [reflexivity|cbn [length] in E1; lia]. }
        assert (Ty : toks L y = []) by (unfold toks, L; rewrite L1e; apply skipn_all2; cbn [length]; lia).
        pose proof (R_last_error G L ru HL depth t 49 y q eq_refl Ty Hy) as R1. unfold R in R1. unfold bind. destruct (run G depth (CErrSync t 49) (st_of L ru y)) as [u' s'|e s'].
        -- destruct R1 as (z & q' & -> & Hz & K). specialize (K []). apply steps_nil in K. injection K as -> _. destruct Hz as (Z1 & Z2 & Z3). cbn [report n_before n_last] in Z1, Z2. rewrite H1 in Z1. rewrite H2 in Z2.
           rewrite map_app, Z1. cbn [map]. rewrite Z2. change [item_of (c_p z)] with (map item_of [c_p z]). rewrite <- map_app.
           replace (match L1 with [] => n_reports (report t [49%Z] q) | _ :: _ => n_reports q end) with (n_reports (report t [49%Z] q)) by (rewrite L1e; reflexivity).
           apply closing_read_on; [reflexivity|exact Z3|]. apply (okn_report t [49%Z] q Oq). reflexivity.
        -- destruct e; try exact I; destruct R1 as [R1 K]; try discriminate R1. destruct (K []) as [q' Kq]. inversion Kq.
      * assert (L1e : exists q r, L1 = q :: r).
        { destruct L1 as [|u' r]; [|eauto]. exfalso. unfold get_number_of_tokens, st_of, stt, zlen in E1. cbn [s_toks tk_list] in E1. unfold L in E1. discriminate. }
        destruct L1e as (u' & r & L1e). bret. replace (match L1 with [] => n_reports (report t [49%Z] q) | _ :: _ => n_reports q end) with (n_reports q) by (rewrite L1e; reflexivity). unfold st_of. apply closing_read_on; [reflexivity|exact H3|exact Oq].
    + destruct e; try exact I; destruct Q as [Q1 [q ->]]; first [discriminate Q1 | split; reflexivity].
Qed.
End G.

(** ** The trace *)
Section T.
Variable G : geodesic.
(** Outcome for a field with at least one token. *)
Definition outcome_on (ru : pstr) (depth : nat) (L : list token) (x0 : cfg) (o : out bool) : Prop :=
  let n := length L in
  match o with
  | Ok b s => exists y, reach G L x0 y /\
      s = mkSt (mkTokens L (Z.of_nat (c_cur y)))
               (mkErs (final_recs (is_vfr_first L) y) (c_errs y) (derived (final_recs (is_vfr_first L) y))) (c_k y) /\
      b = match c_errs y with [] => true | _ => false end /\ c_k y + 3 <= c_k x0 + 6 * n
  | Exn e s => exists y, reachx G L x0 y /\ s = st_of L ru y /\ c_k y + 3 <= c_k x0 + 6 * n /\
      ((e = RecursionError /\ depth + 1 < 3 * n) \/ (e = ValueError /\ has_na L))
  end.
Theorem parse_trace_on depth L0 c0 k l0 p0 es0 ru : L0 <> [] ->
  outcome_on ru depth (map assign_syntax L0) (mkC 0 l0 p0 es0 [] k) (parse_f15 G depth (mkSt (mkTokens L0 c0) (mkErs (l0 ++ [p0]) es0 ru) k)).
Proof.
  intro Hne. pose proof (assign_syntax_all L0) as HL. destruct (map assign_syntax L0) as [|t L1] eqn:E0; [destruct L0; [congruence|discriminate]|].
  rewrite (parse_eq_on G depth L0 c0 k t L1 l0 p0 es0 ru E0). set (x0 := mkC 0 l0 p0 es0 [] k) in *. set (L := t :: L1) in *. assert (X1 : c_cur x0 = 0) by reflexivity.
  assert (US : us_le x0) by (intros i []).
  assert (It : In t L) by now left.
  assert (Rem : rem L x0 = length L - 1) by (unfold rem, n; unfold L; cbn [length]; lia).
  assert (Len : 1 <= length L) by (unfold L; cbn [length]; lia).
  assert (C : forall m, sat G L ru m x0 (fun _ y => c_k y + 3 <= c_k x0 + 6 * length L)
             (fun e y => c_k y + 3 <= c_k x0 + 6 * length L /\ ((e = RecursionError /\ depth + 1 < 3 * length L) \/ (e = ValueError /\ has_na L))) ->
          is_vfr_first L = false ->
          outcome_on ru depth L x0 (bind m (fun _ : unit => closing) (st_of L ru x0))).
  { intros m S V. unfold sat in S. unfold bind. destruct (m (st_of L ru x0)) as [[] s|e s].
    - destruct S as (y & -> & R & B). unfold st_of. rewrite closing_eq. unfold outcome_on. exists y. rewrite V, zlen0. auto.
    - destruct S as (y & -> & R & B). unfold outcome_on. exists y. tauto. }
  assert (Err : forall m, defined_error m = true -> sat G L ru (run G depth (CErrSync t m)) x0 (fun _ y => c_k y + 3 <= c_k x0 + 6 * length L)
             (fun e y => c_k y + 3 <= c_k x0 + 6 * length L /\ ((e = RecursionError /\ depth + 1 < 3 * length L) \/ (e = ValueError /\ has_na L)))).
  { intros m D. eapply sat_conseq; [exact (run_sat G L ru HL depth (CErrSync t m) 0 x0 US (conj It D))| |].
    - intros [] y R [B _]. unfold budget in B. rewrite Rem in B. cbn [cost] in B. lia.
    - intros e y [B X]. unfold budget in B. rewrite Rem in *. cbn [cost height] in *. split; [lia|]. destruct X as [[-> X]|X]; [left; split; [reflexivity|lia]|now right]. }
  destruct (t_base t) eqn:Eb; try (apply C; [now apply Err|unfold is_vfr_first, L; rewrite Eb; reflexivity]).
  - (* speed/VFR first *)
    pose proof (run_sat G L ru HL depth (CSpdVfr t) 0 x0 US (conj eq_refl (conj (le_n 0) (conj (fun F => F) Eb)))) as S.
    rewrite bind_assoc. unfold sat in S. unfold bind at 1. destruct (run G depth (CSpdVfr t) (st_of L ru x0)) as [[] s|e s].
    + destruct S as (y & -> & R & [B _]). unfold st_of at 1. rewrite bind_assoc.
      bok (first_elem_eq L (Z.of_nat (c_cur y)) (c_l y) (c_p y) (c_errs y) ru (c_k y)). cbn [deref opt_or]. rewrite bind_assoc. bret.
      assert (U : exists l p, upd 0 (set_r_rules RULE_V) (stt L (Z.of_nat (c_cur y)) (c_l y) (c_p y) (c_errs y) ru (c_k y))
                  = Ok tt (stt L (Z.of_nat (c_cur y)) l p (c_errs y) ru (c_k y)) /\ l ++ [p] = list_upd 0 (set_r_rules RULE_V) (c_l y ++ [c_p y])).
      { unfold upd, stt. cbn [s_ers e_recs s_toks s_calls e_errs e_rules]. destruct (c_l y) as [|f l].
        - exists [], (set_r_rules RULE_V (c_p y)). split; reflexivity.
        - exists (set_r_rules RULE_V f :: l), (c_p y). split; reflexivity. }
      destruct U as (l & p & U & El). bok U. rewrite closing_eq. unfold outcome_on. exists y.
      split; [exact R|]. unfold is_vfr_first, L, final_recs, field_recs. rewrite Eb. cbn [base_eqb base_code Z.eqb Pos.eqb]. rewrite <- El, zlen0.
      split; [reflexivity|]. split; [reflexivity|]. unfold budget in B. rewrite Rem in B. cbn [cost] in B. fold L. lia.
    + destruct S as (y & -> & R & [B X]). unfold outcome_on. exists y. unfold budget in B. rewrite Rem in *. cbn [cost height] in *.
      split; [exact R|]. split; [reflexivity|]. split; [lia|]. destruct X as [[-> X]|X]; [left; split; [reflexivity|lia]|now right].
  - (* speed/level first *)
    apply C; [|unfold is_vfr_first, L; rewrite Eb; reflexivity].
    pose proof (run_sat G L ru HL depth (CSpdAlt t) 0 x0 US (conj It Eb)) as S.
    eapply sat_bind; [exact S| |].
    + intros [] y R [B _]. pose proof (reach_us_le G L _ _ R US) as Uy. pose proof (reach_cur G L _ _ R) as Cy.
      eapply (sat_step _ _ _ _ _ y _ y); [reflexivity|constructor|].
      unfold budget in B. rewrite Rem in B. cbn [cost] in *.
      destruct (_ =? 1)%Z eqn:E1; [|apply sat_ret; lia].
      assert (L1e : length L = 1) by (unfold get_number_of_tokens, st_of, stt, zlen in E1; cbn [s_toks tk_list] in E1; lia).
      assert (Ry : rem L y = 0) by (unfold rem, n; lia).
      eapply sat_conseq; [exact (run_sat G L ru HL depth (CErrSync t 49) 0 y Uy (conj It eq_refl))| |].
      * intros [] z Rz [Bz _]. unfold budget in Bz. cbn [cost] in Bz. lia.
      * intros e z [Bz X]. unfold budget in Bz. cbn [cost height] in *. split; [lia|]. destruct X as [[-> X]|X]; [left; split; [reflexivity|lia]|now right].
    + intros e y [B X]. unfold budget in B. rewrite Rem in *. cbn [cost height] in *. split; [lia|]. destruct X as [[-> X]|X]; [left; split; [reflexivity|lia]|now right].
Qed.
End T.

(** ** Every attribute *)
Section N.
Variable G : geodesic.
Variable L : list token.
Hypothesis HL : Forall wt L.
(** The last record has the name of its token. *)
Definition named (x : cfg) : Prop := forall t, last_tok L x t -> r_name (c_p x) = t_text t \/ t_base t = F15_SPEED_VFR.
Lemma last_tok_snoc us j t u : nth_error L j = Some t -> (exists us' j', us ++ [j] = us' ++ [j'] /\ nth_error L j' = Some u) -> u = t.
Proof. intros H (us' & j' & E & K). apply app_inj_tail in E as [_ <-]. congruence. Qed.
Lemma ev_named x y : named x -> ev G L x y -> named y.
Proof.
  intros N E. destruct E; try exact N; intros u Hu; unfold last_tok in Hu; cbn [recc with_p with_p_errs ptc vfrc c_us c_p] in *.
  - left. apply (last_tok_snoc _ _ _ _ H) in Hu. subst. reflexivity.
  - right. apply (last_tok_snoc _ _ _ _ H) in Hu. subst. assumption.
  - specialize (N u Hu). unfold append_break_text. destruct (pstr_eqb _ _); exact N.
  - specialize (N u Hu). destruct N as [N|N]; [left|now right]. rewrite <- N. unfold pt_rec. destruct (t_sub t); reflexivity.
Qed.
Definition einv_on (x : cfg) : Prop := named x /\ Forall (exact_pos G) (recs x).
Lemma ev_exact_on x y : einv_on x -> ev G L x y -> einv_on y.
Proof.
  intros [O H] E. split; [exact (ev_named x y O E)|]. destruct E; try exact H; unfold recs in *; cbn [recc with_p with_p_errs ptc vfrc c_l c_p] in *;
    try (revert H; apply exact_list; rewrite !map_app; cbn [map]; first [reflexivity|now rewrite pe_break]).
  - apply Forall_app. split; [exact H|]. constructor; [split; reflexivity|constructor].
  - apply Forall_app. split; [|constructor; [split; reflexivity|constructor]]. revert H. apply exact_list. rewrite !map_app. reflexivity.
  - rename H0 into It, H1 into Lt. apply Forall_app in H as [H1 H2]. apply Forall_app. split.
    + revert H1. apply exact_list. symmetry. apply pe_prev.
    + constructor; [|constructor]. inversion H2; subst. rewrite Forall_forall in HL. destruct (O t Lt) as [N|B].
      * apply pt_exact; auto.
      * rewrite ll_base; auto.
Qed.
End N.

Section Seq.
Variable G : geodesic.
(** A sequence whose records and errors are what their texts say. *)
Definition made (x : ers) (e : list (token * Z)) : Prop :=
  e_recs x <> [] /\ Forall (exact_pos G) (e_recs x) /\ Forall (fun r => perf_ok (perf r)) (e_recs x) /\ legs G (e_recs x) /\
  e_errs x = map (fun q => err (fst q) (snd q)) e /\ forallb (fun q : token * Z => defined_error (snd q)) e = true.
Lemma made_new : made new_ers [].
Proof.
  split; [discriminate|]. split; [constructor; [split; reflexivity|constructor]|]. split; [constructor; [now left|constructor]|].
  split; [|split; reflexivity]. cbn. unfold leg. cbn. split; [split; reflexivity|exact I].
Qed.
Lemma split_last {A} (l : list A) : l <> [] -> exists m p, l = m ++ [p].
Proof. intro H. destruct (exists_last H) as (m & p & ->). eauto. Qed.
Lemma removelast_map {A B} (f : A -> B) l : removelast (map f l) = map f (removelast l).
Proof. induction l as [|a [|b l] IH]; try reflexivity. cbn [map removelast] in *. now rewrite <- IH. Qed.
Lemma notes_rel l p es e k : es = map (fun q => err (fst q) (snd q)) e -> rel (mkC 0 l p es [] k) (notes_of (map item_of (l ++ [p])) e).
Proof.
  intros ->. unfold rel, notes_of. cbn [c_l c_p c_errs n_before n_last n_reports]. rewrite removelast_map, removelast_last, map_app. cbn [map]. rewrite last_last. auto.
Qed.
Lemma all_error e : forallb (fun q : token * Z => defined_error (snd q)) e = true -> map (fun q => err (fst q) (snd q)) e = map error_of e.
Proof. intro H. apply map_ext_in. intros q Hq. apply error_eq. rewrite forallb_forall in H. exact (H q Hq). Qed.

(** The field [f] is read into [x]. *)
Lemma reparse_tokens depth f x k : exists l, reparse G depth f x k = parse_f15 G depth (mkSt (mkTokens l 0) x k) /\ field_tokens f = map assign_syntax l /\ n_tokens f = length l.
Proof. unfold reparse. destruct (field_start f) as (l & E & F & N). rewrite E. eauto. Qed.
Lemma reparse_complete depth f x k e0 b s : made x e0 -> field_tokens f <> [] -> reparse G depth f x k = Ok b s ->
  exists l e, reading_on (map item_of (e_recs x)) e0 (field_tokens f) = Some (Gives l e) /\ b = (match e with [] => true | _ => false end) /\ s_ers s = ers_of G l e /\ made (s_ers s) e /\ map item_of (e_recs (s_ers s)) = l.
Proof.
  intros (M1 & M2 & M3 & M4 & M5 & M6) Hne H. destruct (reparse_tokens depth f x k) as (l0 & E & F & _). rewrite E in H. rewrite F in *.
  assert (L0 : l0 <> []) by (intros ->; now apply Hne). destruct x as [rs es ru]. cbn [e_recs e_errs] in *. destruct (split_last rs M1) as (l & p & ->).
  pose proof (parse_reads_on G depth l0 0 k l p es ru _ L0 (notes_rel l p es e0 k M5) M6) as A. rewrite H in A. destruct A as (l' & e & A1 & A2 & [A3 A4] & A5 & A6).
  pose proof (parse_trace_on G depth l0 0 k l p es ru L0) as T. rewrite H in T. destruct T as (y & R & -> & _). cbn [s_ers e_recs e_errs e_rules] in *.
  pose proof (assign_syntax_all l0) as HL. set (L := map assign_syntax l0) in *. set (v := is_vfr_first L) in *. set (x0 := mkC 0 l p es [] k) in *.
  assert (X1 : Forall (exact_pos G) (recs y)).
  { apply (reach_ind_inv G L (einv_on G L) (ev_exact_on G L HL) _ _ R). split; [intros t (us & j & U & _); destruct us; discriminate U|exact M2]. }
  assert (X2 : Forall (fun r => perf_ok (perf r)) (recs y)).
  { apply all_recs_recs. apply (reach_ind_inv G L (all_recs (fun r => perf_ok (perf r))) (ev_perf G L HL) _ _ R). apply all_recs_recs. exact M3. }
  assert (X3 : legs G (recs y)).
  { apply (reach_ind_inv G L (fun x => legs G (recs x)) (ev_legs G L) _ _ R). exact M4. }
  assert (Y1 : Forall (exact_pos G) (final_recs v y)).
  { unfold final_recs. apply Forall_app. split; [|constructor; [split; reflexivity|constructor]]. apply (exact_list G (recs y)); [symmetry; apply field_recs_map; reflexivity|exact X1]. }
  assert (Y2 : Forall (fun r => perf_ok (perf r)) (final_recs v y)).
  { unfold final_recs. apply Forall_app. split; [|constructor; [now left|constructor]]. eapply Forall_perf_map; [symmetry; apply (field_recs_map perf); reflexivity|exact X2]. }
  assert (Y3 : legs G (final_recs v y)).
  { unfold final_recs. apply legs_snoc; [|reflexivity|split; reflexivity]. apply (legs_map G (recs y)); [|exact X3]. symmetry. apply field_recs_map. reflexivity. }
  exists l', e. split; [exact A1|]. split; [exact A5|]. assert (Y4 : Forall exact_perf (final_recs v y)) by (eapply Forall_impl; [exact perf_exact|exact Y2]). split.
  - unfold ers_of. rewrite <- A2 in *. rewrite <- (route_eq G _ Y1 Y4 Y3), <- A6, A3. f_equal. apply all_error. exact A4.
  - split; [|exact A2]. split; [unfold final_recs; destruct (field_recs v y); discriminate|]. auto.
Qed.
Lemma reparse_empty depth f x k b s : e_recs x <> [] -> field_tokens f = [] -> reparse G depth f x k = Ok b s ->
  b = false /\ s_ers s = mkErs (e_recs x ++ [dummy ($"ADES")]) (e_errs x ++ [empty_err]) (e_rules x).
Proof.
  intros Hr Hn H. destruct (reparse_tokens depth f x k) as (l & E & F & _). rewrite E in H. rewrite F in Hn. apply map_eq_nil in Hn. subst l.
  assert (X : parse_f15 G depth (mkSt (mkTokens [] 0) x k) = Ok false (mkSt (mkTokens [] 0) (mkErs (e_recs x ++ [dummy ($"ADES")]) (e_errs x ++ [empty_err]) (e_rules x)) k)).
  { destruct x as [rs es ru]. cbn [e_recs e_errs e_rules] in *. destruct (split_last rs Hr) as (m & p & ->).
    unfold parse_f15. bok (eq_refl : assign_syntax_descriptions (mkSt (mkTokens [] 0) (mkErs (m ++ [p]) es ru) k) = Ok tt (stt [] 0 m p es ru k)).
    bok (eq_refl : tok_first (stt [] 0 m p es ru k) = Ok None (stt [] 0 m p es ru k)).
    bok (eq_refl : opt_or KeyError (error_message 41) (stt [] 0 m p es ru k) = Ok ($"Field 15 is empty") (stt [] 0 m p es ru k)).
    bok (eq_refl : ers_mod (add_error ($"NULL") 0 0 F15_UNKNOWN F15_SB_UNKNOWN ($"Field 15 is empty")) (stt [] 0 m p es ru k) = Ok tt (stt [] 0 m p (es ++ [empty_err]) ru k)).
    bok (append_rec_eq [] 0 m p (es ++ [empty_err]) ru k (dummy ($"ADES"))). reflexivity. }
  rewrite X in H. injection H as <- <-. split; reflexivity.
Qed.
Definition no_token : token * Z := (mkToken ($"NULL") 0 0 F15_UNKNOWN F15_SB_UNKNOWN, 41%Z).
Lemma empty_error : empty_err = err (fst no_token) (snd no_token).
Proof. vm_compute. reflexivity. Qed.
Lemma reparse_made depth f x k e0 b s : made x e0 -> reparse G depth f x k = Ok b s -> exists e, made (s_ers s) e.
Proof.
  intros M H. destruct (empty_or f) as [F|F].
  - pose proof (reparse_empty depth f x k b s (proj1 M) F H) as [_ ->]. destruct M as (M1 & M2 & M3 & M4 & M5 & M6). exists (e0 ++ [no_token]). unfold made. cbn [e_recs e_errs].
    split; [destruct (e_recs x); discriminate|]. split; [apply Forall_app; split; [exact M2|constructor; [split; reflexivity|constructor]]|].
    split; [apply Forall_app; split; [exact M3|constructor; [now left|constructor]]|]. split; [apply legs_snoc; [exact M4|reflexivity|split; reflexivity]|].
    split; [rewrite map_app, M5, empty_error; reflexivity|rewrite forallb_app, M6; reflexivity].
  - destruct (reparse_complete depth f x k e0 b s M F H) as (l & e & _ & _ & _ & K & _). eauto.
Qed.
(** Sequences left by any number of parses. *)
Inductive used : ers -> Prop :=
| used_new : used new_ers
| used_again depth f x k b s : used x -> reparse G depth f x k = Ok b s -> used (s_ers s).
Lemma used_made x : used x -> exists e, made x e.
Proof. induction 1 as [|depth f x k b s _ [e IH] H]; [exists []; exact made_new|exact (reparse_made _ _ _ _ _ _ _ IH H)]. Qed.
Lemma made_errors x e : made x e -> e_errs x = map error_of e.
Proof. intros (_ & _ & _ & _ & M5 & M6). rewrite M5. now apply all_error. Qed.
Lemma used_complete depth f x k b s : used x -> field_tokens f <> [] -> reparse G depth f x k = Ok b s ->
  exists e0 l e, e_errs x = map error_of e0 /\ reading_on (map item_of (e_recs x)) e0 (field_tokens f) = Some (Gives l e) /\ b = (match e with [] => true | _ => false end) /\ s_ers s = ers_of G l e.
Proof.
  intros U F H. destruct (used_made x U) as [e0 M]. destruct (reparse_complete depth f x k e0 b s M F H) as (l & e & K1 & K2 & K3 & _).
  exists e0, l, e. split; [now apply made_errors|auto].
Qed.
(** With a recursion limit that suffices. *)
Lemma used_total depth f x k : used x -> field_tokens f <> [] -> (3 * n_tokens f <= depth + 1)%nat -> exists e0, e_errs x = map error_of e0 /\
  match reading_on (map item_of (e_recs x)) e0 (field_tokens f) with
  | Some (Gives l e) => exists s, reparse G depth f x k = Ok (match e with [] => true | _ => false end) s /\ s_ers s = ers_of G l e
  | Some Raises => exists s, reparse G depth f x k = Exn ValueError s
  | None => False
  end.
Proof.
  intros U Hne Hd. destruct (used_made x U) as [e0 M]. exists e0. split; [now apply made_errors|].
  pose proof (reparse_complete depth f x k e0) as C. destruct M as (M1 & M2 & M3 & M4 & M5 & M6). specialize (fun b s => C b s (conj M1 (conj M2 (conj M3 (conj M4 (conj M5 M6))))) Hne).
  destruct (reparse_tokens depth f x k) as (l0 & E & F & N). rewrite E in *. rewrite F in *. rewrite N in Hd.
  assert (L0 : l0 <> []) by (intros ->; now apply Hne). destruct x as [rs es ru]. cbn [e_recs e_errs] in *. destruct (split_last rs M1) as (l & p & ->).
  pose proof (parse_reads_on G depth l0 0 k l p es ru _ L0 (notes_rel l p es e0 k M5) M6) as A. pose proof (parse_trace_on G depth l0 0 k l p es ru L0) as T.
  destruct (parse_f15 G depth (mkSt (mkTokens l0 0) (mkErs (l ++ [p]) es ru) k)) as [b s|e s].
  - destruct (C b s eq_refl) as (l' & e & C1 & -> & C3 & _). rewrite C1. eauto.
  - destruct T as (y & _ & _ & _ & [[-> T]|[-> _]]); [rewrite map_length in T; lia|]. destruct A as [_ A]. change (reading_on (map item_of (l ++ [p])) e0 (map assign_syntax l0) = Some Raises) in A. rewrite A. eauto.
Qed.
End Seq.
