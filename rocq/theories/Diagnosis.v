(** * Diagnosis: the first error a run of the parser methods adds is the one SpecDiagnosis names. *)
From Coq Require Import ZArith NArith List Bool String Lia.
From Coq Require Import ZifyBool ZifyNat ZifyN.
From Verif Require Import PyBase PyFloat Enums ErrorTable Regex SyntaxTable Syntax Tokenizer Ers Utils Parser.
From Verif Require Import TokenizerProofs RegexProofs SyntaxProofs SpecNum NumTables NumProofs ParserPrims PerfEq PointEq Trace ErrMono SpecParser ParserInv SpecGrammar GrammarSem Grammar SpecDiagnosis.
Import List ListNotations.
Local Open Scope list_scope.
Local Open Scope nat_scope.

(** ** Faulty values *)
(** The errors [es] begin as [v] says. *)
Definition shows (es : list rrec) (v : verdict) : Prop :=
  match v with Fine => es = [] | Report t n => exists r, es = err t n :: r | Fails => False end.
Lemma shows_app t es fs f g : shows es (match f with Some m => Report t m | None => Fine end) -> shows fs (match g with Some m => Report t m | None => Fine end) ->
  shows (es ++ fs) (match or_else f g with Some m => Report t m | None => Fine end).
Proof. destruct f as [m|]; cbn [shows or_else]; [intros [r ->] _; exists (r ++ fs); reflexivity|]. intros -> H. exact H. Qed.
Lemma shows_if t (b : bool) m : shows (if b then [] else [err t m]) (match (if negb b then Some m else None) with Some m => Report t m | None => Fine end).
Proof. destruct b; cbn; [reflexivity|]. exists []. reflexivity. Qed.
Lemma over_neg s mx : over s mx = negb (decimal s <=? mx)%Z. Proof. unfold over. lia. Qed.
Lemma or_if (a b : bool) (x y : Z) : (if a then Some x else if b then Some y else None) = or_else (if a then Some x else None) (if b then Some y else None).
Proof. destruct a; reflexivity. Qed.
Lemma brg_shows t : wt t -> In (t_sub t) [F15_SB_PRP_BD; F15_SB_LLBD_DEG; F15_SB_LLBD_MIN] ->
  shows (errs_brg t) (match brg_fault (t_text t) with Some m => Report t m | None => Fine end).
Proof.
  intros H Hs. pose proof (brg_part t H Hs) as B. unfold errs_brg in *. unfold brg_fault, over. unfold deg_ok in B.
  destruct (decimal (brg_text (t_text t)) <=? 360)%Z; destruct (360 <? decimal (bearing_part (t_text t)))%Z eqn:E; cbn.
  - exfalso. assert (K : (decimal (bearing_part (t_text t)) <= 360)%Z) by now apply B. lia.
  - reflexivity.
  - exists []. reflexivity.
  - exfalso. assert (K : [err t 46] = []) by (apply B; lia). discriminate.
Qed.
Lemma deg_shows t r : deg_text (t_text t) r -> shows (errs_deg t) (match deg_fault (t_text t) with Some m => Report t m | None => Fine end).
Proof.
  intros (d1 & d2 & h & g1 & g2 & g3 & e & E & _). unfold errs_deg, deg_fault. rewrite E. unfold sub_str. cbn [skipn firstn]. rewrite !over_neg, or_if.
  apply shows_app; apply shows_if.
Qed.
Lemma min_shows t r : min_text (t_text t) r -> shows (errs_min t) (match min_fault (t_text t) with Some m => Report t m | None => Fine end).
Proof.
  intros (d1 & d2 & m1 & m2 & h & g1 & g2 & g3 & n1 & n2 & e & E & D & _). unfold errs_min, min_fault. rewrite E. unfold sub_str. cbn [skipn firstn].
  cbn [forallb] in D. repeat (apply andb_true_iff in D; let X := fresh "X" in destruct D as [X D]).
  assert (P1 : (0 <= decimal [m1; m2])%Z) by (apply decimal_bound; cbn [forallb]; now rewrite X1, X2).
  assert (P2 : (0 <= decimal [n1; n2])%Z) by (apply decimal_bound; cbn [forallb]; now rewrite X6, X7).
  assert (Ov : forall d m mx, (0 <= decimal m)%Z -> over_min d m mx = negb (dm_ok (decimal d) (decimal m) mx)) by (intros; unfold over_min, dm_ok; lia).
  rewrite !Ov, or_if by assumption. apply shows_app; apply shows_if.
Qed.
Lemma pt_shows t : wt t -> shows (pt_errs t) (angles t).
Proof.
  intro H. unfold pt_errs, angles, angle_fault. cbv zeta. destruct (t_sub t) eqn:Es; try reflexivity.
  - apply (brg_shows t H). rewrite Es. cbn. tauto.
  - apply (deg_shows t []). now apply ll_deg_text.
  - apply (min_shows t []). now apply ll_min_text.
  - destruct (llbd_deg_text t H Es) as (r & Hr & _). apply shows_app; [exact (deg_shows t r Hr)|]. apply (brg_shows t H). rewrite Es. cbn. tauto.
  - destruct (llbd_min_text t H Es) as (r & Hr & _). apply shows_app; [exact (min_shows t r Hr)|]. apply (brg_shows t H). rewrite Es. cbn. tauto.
Qed.

Lemma bad_level_iff l : bad_level l = false <-> fl_ok l.
Proof.
  unfold bad_level, fl_ok. destruct l as [|c ds]; [tauto|]. destruct (N.eqb c 70) eqn:E; cbn [andb].
  - apply N.eqb_eq in E. destruct (decimal ds mod 5 =? 0)%Z eqn:E5; cbn [negb]; lia.
  - split; [|reflexivity]. intros _ K. apply N.eqb_neq in E. contradiction.
Qed.
Lemma target_seen_iff s : target_seen s = true <-> target_checked s.
Proof.
  unfold target_seen, target_checked. destruct s as [|c r]; [split; [discriminate|contradiction]|]. destruct (after_speed (c :: r)) as [|d r']; [split; [discriminate|contradiction]|].
  rewrite andb_true_iff, negb_true_iff, N.eqb_neq. tauto.
Qed.
Lemma lvl_all t s : forall e, In e (lvl_errs t s) -> e = err t 40.
Proof. intro e. unfold lvl_errs. destruct s as [|c ds]; [intros []|]. destruct (_ && _); [intros [<-|[]]; reflexivity|intros []]. Qed.
Lemma shows_40 t es : unconvertible t = false -> (forall e, In e es -> e = err t 40) -> (es = [] <-> level_fault t = false) -> shows es (levels t).
Proof.
  intros Hu Ha Hn. unfold levels. rewrite Hu. destruct (level_fault t) eqn:E; cbn [shows].
  - destruct es as [|e r]; [destruct Hn as [Hn _]; specialize (Hn eq_refl); discriminate|]. exists r. now rewrite (Ha e (or_introl eq_refl)).
  - now apply Hn.
Qed.
Lemma level_fault_iff t : wt t -> (t_base t = F15_SPEED_ALTITUDE_ALTITUDE -> is_na_sm (t_sub t) = false) -> (level_fault t = false <-> levels_ok t).
Proof.
  intros W Na. unfold level_fault, levels_ok. destruct (t_base t) eqn:Eb; try tauto; try apply bad_level_iff.
  rewrite orb_false_iff, andb_false_iff, !bad_level_iff.
  assert (NR : ~ raising_text (t_text t)) by (intro R; apply (na_iff t W Eb) in R; specialize (Na eq_refl); congruence).
  destruct (target_seen (t_text t)) eqn:E.
  - apply target_seen_iff in E. split; [intros [H1 [H2|H2]]; [discriminate|tauto]|intros (H1 & H2 & _); split; [exact H1|right; auto]].
  - assert (K : ~ target_checked (t_text t)) by (intro K; apply target_seen_iff in K; congruence). split; [tauto|intros (H1 & _); auto].
Qed.
Lemma unconv_na t : t_base t = F15_SPEED_ALTITUDE_ALTITUDE -> unconvertible t = is_na_sm (t_sub t).
Proof. intro E. unfold unconvertible, is_na_sm. rewrite E. destruct (t_sub t); reflexivity. Qed.
Lemma sa_shows t a : wt t -> t_base t = F15_SPEED_ALTITUDE -> sa_cut (t_sub t) = Some a -> shows (lvl_errs t (text_from a t)) (levels t).
Proof.
  intros W B Ha. apply shows_40; [unfold unconvertible; now rewrite B|apply lvl_all|]. rewrite (sa_levels t a W B Ha). symmetry. apply level_fault_iff; [exact W|congruence].
Qed.
Lemma sap_shows t a b : wt t -> t_base t = F15_SPEED_ALTITUDE_PLUS -> sap_cut (t_sub t) = Some (a, b) -> shows (lvl_errs t (text_mid a b t)) (levels t).
Proof.
  intros W B Ha. apply shows_40; [unfold unconvertible; now rewrite B|apply lvl_all|]. rewrite (sap_levels t a b W B Ha). symmetry. apply level_fault_iff; [exact W|congruence].
Qed.
Lemma saa_shows t a b c : wt t -> t_base t = F15_SPEED_ALTITUDE_ALTITUDE -> saa_cut (t_sub t) = Some (a, b, c) -> is_na_sm (t_sub t) = false ->
  shows (lvl_errs t (text_mid a b t) ++ lvl_errs t (text_from c t)) (levels t).
Proof.
  intros W B Ha Na. apply shows_40; [now rewrite unconv_na| |].
  - intros e He. apply in_app_or in He as [He|He]; exact (lvl_all _ _ _ He).
  - rewrite (saa_levels t a b c W B Ha Na). symmetry. apply level_fault_iff; auto.
Qed.

(** ** Judgement *)
Section G.
Variable G : geodesic.
Section L.
Variable L : list token.
Variable ru : pstr.
Hypothesis HL : Forall wt L.

(** Run [m] in [x]: unless the recursion limit is hit, it ends as [v] says. *)
Definition D (m : M unit) (x : cfg) (v : verdict) : Prop :=
  match m (st_of L ru x) with
  | Exn RecursionError _ => True
  | o =>
      match v with
      | Fine => exists s, o = Ok tt s /\ errs_of s = c_errs x
      | Report t n => exists r, errs_of (st_out o) = c_errs x ++ err t n :: r
      | Fails => exists s, o = Exn ValueError s
      end
  end.
Lemma D_ret x : D (ret tt) x Fine.
Proof. unfold D, ret. eexists. split; reflexivity. Qed.
Lemma D_end m x y : m (st_of L ru x) = Ok tt (st_of L ru y) -> c_errs y = c_errs x -> D m x Fine.
Proof. intros H E. unfold D. rewrite H. eexists. split; [reflexivity|exact E]. Qed.
Lemma D_step {A} (m : M A) f x a y v : m (st_of L ru x) = Ok a (st_of L ru y) -> c_errs y = c_errs x -> D (f a) y v -> D (bind m f) x v.
Proof. intros H E K. unfold D in *. rewrite (bind_ok _ _ _ _ _ H). now rewrite E in K. Qed.
Lemma D_report m x t n : (exists r, errs_of (st_out (m (st_of L ru x))) = c_errs x ++ err t n :: r) -> D m x (Report t n).
Proof. unfold D. intro H. destruct (m _) as [a s|[] s]; try exact H. exact I. Qed.
Lemma D_rw (m m' : M unit) x cur l p us k es f v :
  m (st_of L ru x) = m' (st_of L ru (mkC cur l p (c_errs x ++ es) us k)) -> mono m' -> shows es f ->
  (es = [] -> D m' (mkC cur l p (c_errs x) us k) v) -> D m x (then_ f v).
Proof.
  intros H Mo Hs K. destruct f as [|t n|]; cbn [shows then_] in *; [| |contradiction].
  - subst es. specialize (K eq_refl). unfold D in *. rewrite H, app_nil_r. exact K.
  - destruct Hs as [r ->]. apply D_report. rewrite H. pose proof (Mo (st_of L ru (mkC cur l p (c_errs x ++ err t n :: r) us k))) as [g Eg].
    rewrite Eg. unfold errs_of, st_of, stt. cbn [s_ers e_errs c_errs]. rewrite <- app_assoc. exists (r ++ g). reflexivity.
Qed.
Lemma D_bind_errs {A} (m : M A) (f : A -> M unit) x a cur l p us k es fl v :
  m (st_of L ru x) = Ok a (st_of L ru (mkC cur l p (c_errs x ++ es) us k)) -> mono (f a) -> shows es fl ->
  (es = [] -> D (f a) (mkC cur l p (c_errs x) us k) v) -> D (bind m f) x (then_ fl v).
Proof. intros H Mo Hs K. eapply (D_rw _ (f a)); eauto. apply bind_ok. exact H. Qed.

(** An error message. *)
Lemma D_err d t m x : defined_error m = true -> D (run G d (CErrSync t m)) x (Report t m).
Proof.
  intro Df. destruct d as [|d]; [exact I|]. apply D_report. cbn [run]. unfold bind at 1. cbn [tick]. cbn [body]. unfold b_add_error_and_re_sync.
  unfold st_of, stt. cbn [s_toks s_ers s_calls]. unfold bind at 1.
  pose proof (add_err_eq t m L (Z.of_nat (c_cur x)) (c_l x) (c_p x) (c_errs x) ru (S (c_k x)) Df) as E. unfold stt in E. rewrite E.
  match goal with |- context [run G d CReSync ?z] => pose proof (mono_run G d CReSync z) as [f Ef] end.
  rewrite Ef. unfold errs_of. cbn [s_ers e_errs]. rewrite <- app_assoc. exists f. reflexivity.
Qed.
Lemma D_then (m : M unit) (f : unit -> M unit) x t n : D m x (Report t n) -> (forall a, mono (f a)) -> D (bind m f) x (Report t n).
Proof.
  intros H Mo. unfold D in *. unfold bind. destruct (m (st_of L ru x)) as [a s|e s]; [|exact H]. cbn [st_out] in H. destruct H as [r E].
  specialize (Mo a s). destruct Mo as [g Eg].
  assert (Q : exists r', errs_of (st_out (f a s)) = c_errs x ++ err t n :: r') by (rewrite Eg, E, <- app_assoc; exists (r ++ g); reflexivity).
  destruct (f a s) as [b s'|[] s']; try exact Q. exact I.
Qed.
Lemma D_err_then d t m (f : unit -> M unit) x : defined_error m = true -> (forall a, mono (f a)) -> D (bind (run G d (CErrSync t m)) f) x (Report t m).
Proof. intros Df Mo. apply D_then; [now apply D_err|exact Mo]. Qed.
Lemma D_call (m : M unit) (f : unit -> M unit) x v1 v Can (Good : st -> Prop) :
  D m x v1 -> J L ru m x Can Good -> (forall a, mono (f a)) -> (v1 <> Fine -> v = v1) ->
  (v1 = Fine -> forall s, Good s -> exists y, s = st_of L ru y /\ c_errs y = c_errs x /\ D (f tt) y v) -> D (bind m f) x v.
Proof.
  intros H Hj Mo H1 H2. destruct v1 as [|t n|].
  - unfold D in H. unfold J in Hj. unfold D, bind. destruct (m (st_of L ru x)) as [a s|[] s]; try (destruct H as (s' & K & _); discriminate); [|exact I].
    destruct H as (s' & K & E). injection K as -> ->. destruct Hj as [Hj _]. destruct (H2 eq_refl s' (Hj E)) as (y & -> & Ey & Hy).
    unfold D in Hy. rewrite Ey in Hy. exact Hy.
  - rewrite (H1 ltac:(discriminate)). now apply D_then.
  - rewrite (H1 ltac:(discriminate)). unfold D in *. unfold bind. destruct (m (st_of L ru x)) as [a s|[] s]; try exact H; try (destruct H as (s' & K); discriminate).
Qed.
Lemma D_next (f : option token -> M unit) x v :
  (forall t, nth_error L (S (c_cur x)) = Some t -> D (f (Some t)) (nextc x) v) ->
  (length L <= S (c_cur x) -> D (f None) (nextc x) v) -> D (bind tok_next f) x v.
Proof.
  intros H1 H2. eapply D_step; [apply tok_next_st|reflexivity|].
  destruct (nth_error L (S (c_cur x))) as [t|] eqn:En; [now apply H1|]. apply H2. now apply nth_error_None in En.
Qed.
Lemma D_rec (f : option nat -> M unit) x j t v :
  D (f (Some (length (c_l (recc x j t))))) (recc x j t) v -> D (bind (add_record t) f) x v.
Proof. intro K. eapply (D_step _ _ x _ (recc x j t)); [apply add_record_eq|reflexivity|exact K]. Qed.
Lemma D_last (f : option nat -> M unit) x v : D (f (Some (length (c_l x)))) x v -> D (bind last_elem f) x v.
Proof. intro K. eapply (D_step _ _ x _ x); [apply last_elem_eq|reflexivity|exact K]. Qed.
Lemma D_deref {C} (f : C -> M unit) x a v : D (f a) x v -> D (bind (deref (Some a)) f) x v.
Proof. intro K. eapply (D_step _ _ x _ x); [reflexivity|reflexivity|exact K]. Qed.
Lemma D_retb {C} (f : C -> M unit) x a v : D (f a) x v -> D (bind (ret a) f) x v.
Proof. intro K. eapply (D_step _ _ x _ x); [reflexivity|reflexivity|exact K]. Qed.
Lemma D_rdl (f : rrec -> M unit) x i v : i = length (c_l x) -> D (f (c_p x)) x v -> D (bind (rd i) f) x v.
Proof. intros -> K. eapply (D_step _ _ x _ x); [apply rd_last_eq|reflexivity|exact K]. Qed.
Lemma D_updl (f : unit -> M unit) x i g v : i = length (c_l x) -> D (f tt) (with_p x (g (c_p x))) v -> D (bind (upd i g) f) x v.
Proof. intros -> K. eapply (D_step _ _ x _ (with_p x (g (c_p x)))); [apply upd_last_eq|reflexivity|exact K]. Qed.
Lemma D_updl_end x i g : i = length (c_l x) -> D (upd i g) x Fine.
Proof. intros ->. eapply (D_end _ x (with_p x (g (c_p x)))); [apply upd_last_eq|reflexivity]. Qed.
Lemma D_nel (f : Z -> M unit) x v : D (f (Z.of_nat (length (c_l x)) + 1)%Z) x v -> D (bind n_elems f) x v.
Proof. intro K. eapply (D_step _ _ x _ x); [apply n_elems_eq|reflexivity|exact K]. Qed.
Lemma D_peek (f : option token -> M unit) x k v : D (f (nth_error L (c_cur x + k))) x v -> D (bind (tok_peek (Z.of_nat k)) f) x v.
Proof. intro K. eapply (D_step _ _ x _ x); [apply tok_peek_st|reflexivity|exact K]. Qed.

(** ** What each method does *)
Definition at_ (p : place) (i : nat) : verdict := diag p (skipn i L).
Definition dvc (c : call) (x : cfg) : verdict :=
  let i := c_cur x in
  match c with
  | CErrSync t m => Report t m
  | CReSync => Fine
  | CBreakEndError t => Report t (stray_end t)
  | CSpdAlt t => then_ (levels t) (at_ (match c_l x with [] => PAdep | _ => PPoint (ll_p (c_p x)) end) (S i))
  | CSpdAltAlt t | CSpdAltPlus t => then_ (levels t) (at_ (PPoint (ll_p (c_p x))) (S i))
  | CSpdVfr t => at_ (PText KVfr) (S i)
  | CBreakStart t => at_ (PText (kindof (break_rule (t_sub t)))) (S i)
  | CBreakText t => at_ (PText (kindof (r_rules (c_p x)))) i
  | CBreakEnd t =>
      let k := kindof (r_rules (c_p x)) in
      match resume k (skipn (S i) L) with
      | Inside => Fine
      | Resumes => at_ (PJoin k) (S i)
      | Wrong => match skipn (S i) L with q :: _ => Report q 22 | [] => Fine end
      end
  | CCruiseC t => at_ PC (S i)
  | CCruisePoint t => then_ (angles t) (at_ (PClimbPt t) (S i))
  | CDct t => at_ PDct (S i)
  | CSlash t => at_ (PSlash t (ll_p (c_p x))) (S i)
  | CPostAdep t => at_ PAdep i
  | CPostPoint t => at_ (PPoint (ll_p (c_p x))) i
  | CPostSid => at_ PSid (S i)
  | CPoint t => then_ (angles t) (at_ (PPoint (computed_point (t_sub t))) (S i))
  | CRoute t => at_ PRoute (S i)
  | CSid t => match c_l x with [] => at_ PSid (S i) | _ => Report t 30 end
  | CSidStar t => at_ (match c_l x with [] => PSid | _ => PLast 34 end) (S i)
  | CStar t => at_ (PLast 34) (S i)
  | CStay t => at_ (PStayTok t) (S i)
  | CStayTime t => at_ PStay (S i)
  | CTruncate => at_ (PLast 19) (S i)
  | CVtoI | CVtoItoV => at_ (PJoin KVfr) (S i)
  end.

Definition is_text (p : place) : bool := match p with PText _ => true | _ => false end.
Lemma at_end p i : length L <= i -> at_ p i = stop p.
Proof. intro H. unfold at_. now rewrite (skipn_end L i H). Qed.
Lemma at_step p i t : is_text p = false -> nth_error L i = Some t ->
  at_ p i = if fits p t then then_ (value_fault p t (skipn (S i) L)) (at_ (place_after p t) (S i)) else Report t (misplaced p t).
Proof. intros Hp N. unfold at_. rewrite (skipn_nth L i t N). destruct p; try discriminate Hp; reflexivity. Qed.
Lemma at_text k i t : nth_error L i = Some t -> at_ (PText k) i =
  if base_eqb (t_base t) F15_TOO_LONG then Report t 4
  else if ends k (t_sub t) then
    match resume k (skipn (S i) L) with
    | Inside => at_ (PText k) (S i)
    | Resumes => at_ (PJoin k) (S i)
    | Wrong => match skipn (S i) L with q :: _ => Report q 22 | [] => Fine end
    end
  else at_ (PText k) (S i).
Proof. intro N. unfold at_. rewrite (skipn_nth L i t N). reflexivity. Qed.
Lemma D_nor (k : token -> M unit) x p :
  stop p = Fine -> (forall t, nth_error L (S (c_cur x)) = Some t -> D (k t) (nextc x) (at_ p (S (c_cur x)))) -> D (next_or_return k) x (at_ p (S (c_cur x))).
Proof. intros Hp H. unfold next_or_return. apply D_next; [exact H|]. intro K. rewrite (at_end p _ K), Hp. apply D_ret. Qed.

Section Step.
Variable d : nat.
Hypothesis IH : forall c x, prec L c x -> D (run G d c) x (dvc c x).

Lemma D_bee t x : wt t -> t_base t = F15_BREAK_END -> D (run G d (CBreakEndError t)) x (Report t (stray_end t)).
Proof.
  intros W B. pose proof (be_sub t W B) as Hs. destruct d as [|d']; [exact I|]. cbn [run].
  eapply (D_step _ _ x tt (tickc x)); [apply tick_eq|reflexivity|]. cbn [body]. unfold b_break_end_error, stray_end.
  destruct Hs as [<-|[<-|[<-|[]]]]; cbn [sub_eqb]; (apply D_err; reflexivity).
Qed.
(** Places after which the usual methods are called. *)
Definition usual (p : place) : bool := match p with PAdep | PDct | PRoute | PSid | PStay | PPoint _ | PC => true | _ => false end.
Lemma D_disp p t c' x : usual p = true -> nth_error L (c_cur x) = Some t -> (p = PAdep <-> c_l x = []) -> (forall b, p = PPoint b -> b = ll_p (c_p x)) ->
  disp t = Some c' -> (fits p t = true \/ (t_base t = F15_SID /\ p <> PDct /\ p <> PRoute /\ p <> PSid)) -> (p = PC -> t_base t <> F15_SLASH) ->
  D (run G d c') x (at_ p (c_cur x)).
Proof.
  intros Hp N Hl Hb Hd Hf Hc. rewrite (at_step p _ t ltac:(destruct p; try discriminate; reflexivity) N).
  assert (Hpr : prec L c' x).
  { unfold disp in Hd. destruct (t_base t) eqn:Eb; try discriminate Hd; injection Hd as <-; cbn [prec]; auto.
    - split; [auto|]. split; [auto|]. intro K. apply Hl in K. subst p. unfold fits in Hf. rewrite Eb in Hf. destruct Hf as [Hf|[Hf _]]; discriminate.
    - split; [auto|]. split; [auto|]. intro K. apply Hl in K. subst p. unfold fits in Hf. rewrite Eb in Hf. destruct Hf as [Hf|[Hf _]]; discriminate. }
  replace (if fits p t then _ else _) with (dvc c' x); [exact (IH c' x Hpr)|]. clear IH Hpr.
  destruct (fits p t) eqn:F.
  - clear Hf. unfold disp in Hd. unfold fits in F. unfold value_fault, place_after.
    destruct (t_base t) eqn:Eb; try discriminate Hd; injection Hd as <-; cbn [dvc]; destruct p; try discriminate Hp; try discriminate F; cbn [then_];
      try reflexivity; try (exfalso; apply (Hc eq_refl); reflexivity); try (now rewrite (Hb _ eq_refl));
      try (match goal with |- context [begins ?z] => unfold break_rule; destruct (bs_begins t (nth_wt L HL _ _ N) Eb) as [k Hk]; rewrite Hk, kindof_rule; reflexivity end);
      try (destruct Hl as [Hl _]; rewrite (Hl eq_refl); reflexivity);
      (destruct (c_l x) eqn:El; [destruct Hl as [_ Hl]; specialize (Hl eq_refl); discriminate|reflexivity]).
  - destruct Hf as [Hf|(Hs & H1 & H2 & H3)]; [discriminate|]. unfold disp in Hd. rewrite Hs in Hd. injection Hd as <-. cbn [dvc]. unfold fits in F. rewrite Hs in F. unfold misplaced. rewrite Hs.
    destruct p; try discriminate Hp; try discriminate F; try congruence; (destruct (c_l x) eqn:El; [destruct Hl as [_ Hl]; specialize (Hl eq_refl); discriminate|reflexivity]).
Qed.

Ltac dj := match goal with |- D (run G d ?c') ?z (at_ ?p _) => refine (D_disp p _ c' z _ _ _ _ _ _ _) end.
Ltac lead := first
  [ split; [discriminate|intro; exfalso; congruence]
  | split; [reflexivity|intros _; assumption] | split; [intros _; assumption|reflexivity]
  | let K := fresh in split; [discriminate|intro K; exfalso; revert K; first [assumption | exact (app_ne _ _) | refine (pt_prev_ne G _ _ _ _); first [assumption | exact (app_ne _ _)]]] ].
Ltac pb := let K := fresh in intros ? K; first [discriminate K | injection K as <-; first [reflexivity | rewrite ll_pt; symmetry; exact (ll_eq _)]].
Ltac bad N Eb m := match goal with |- D _ _ (at_ ?p ?i) =>
  replace (at_ p i) with (Report m (misplaced p m)) by (rewrite (at_step p i m eq_refl N); unfold fits; rewrite Eb; reflexivity); unfold misplaced; try rewrite Eb end.
Ltac leaf N Eb := first
  [ match type of Eb with t_base ?m = _ => bad N Eb m end; first [apply D_err; reflexivity | apply D_bee; [exact (nth_wt L HL _ _ N)|exact Eb]]
  | dj; [reflexivity|exact N|lead|pb|unfold disp; rewrite Eb; reflexivity
        |first [left; unfold fits; rewrite Eb; first [reflexivity|assumption] | right; split; [exact Eb|repeat split; discriminate]]
        |first [discriminate | intros _; congruence] ] ].

Lemma d_postadep t x : prec L (CPostAdep t) x -> D (b_post_adep (run G d) t) (tickc x) (dvc (CPostAdep t) x).
Proof. intros [N Hl]. cbn [dvc]. unfold b_post_adep. destruct (t_base t) eqn:Eb; leaf N Eb. Qed.
Lemma d_postpoint t x : prec L (CPostPoint t) x -> D (b_post_point (run G d) t) (tickc x) (dvc (CPostPoint t) x).
Proof.
  intros [N Hl]. cbn [dvc]. unfold b_post_point. destruct (t_base t) eqn:Eb; try leaf N Eb.
  apply D_last, D_deref, D_rdl; [reflexivity|]. cbn [c_p tickc]. change (is_ll_or_bd (r_sub (c_p x))) with (ll_p (c_p x)). destruct (ll_p (c_p x)) eqn:El.
  - leaf N Eb.
  - rewrite <- El. dj; [reflexivity|exact N|lead|pb|unfold disp; rewrite Eb; reflexivity|left; unfold fits; rewrite Eb, El; reflexivity|discriminate].
Qed.
Lemma d_postsid x : prec L CPostSid x -> D (b_post_sid (run G d)) (tickc x) (dvc CPostSid x).
Proof.
  intros Hl. cbn [prec] in Hl. cbn [dvc]. unfold b_post_sid. refine (D_nor _ (tickc x) PSid eq_refl _). intros nt N. destruct (t_base nt) eqn:Eb; leaf N Eb.
Qed.
Lemma d_truncate x : D (b_truncate (run G d)) (tickc x) (dvc CTruncate x).
Proof.
  cbn [dvc]. unfold b_truncate. refine (D_nor _ (tickc x) (PLast 19) eq_refl _). intros nt N. 
  cbn [c_cur tickc] in *. rewrite (at_step (PLast 19) _ _ eq_refl N). cbn [fits misplaced]. apply D_err. reflexivity.
Qed.
Lemma d_dct t x : prec L (CDct t) x -> D (b_dct (run G d) t) (tickc x) (dvc (CDct t) x).
Proof.
  intros [N Eb]. cbn [dvc]. unfold b_dct. apply (D_rec _ _ (c_cur x)).
  refine (D_nor _ (recc (tickc x) (c_cur x) t) PDct eq_refl _). intros nt Nn. destruct (t_base nt) eqn:En; leaf Nn En.
Qed.
Lemma d_stay t x : prec L (CStay t) x -> D (b_stay (run G d) t) (tickc x) (dvc (CStay t) x).
Proof.
  intros (N & Eb & Hl). cbn [dvc]. unfold b_stay. apply D_next; cbn [c_cur tickc].
  - intros nt Nn. rewrite (at_step (PStayTok t) _ nt eq_refl Nn). cbn [fits value_fault place_after misplaced].
    destruct (base_eqb (t_base nt) F15_SLASH) eqn:B1; cbn [negb].
    + apply base_eqb_eq in B1. rewrite B1. cbn [then_]. apply D_next; cbn [c_cur tickc nextc].
      * intros nt2 N2. rewrite (at_step (PStaySl nt) _ nt2 eq_refl N2). cbn [fits value_fault place_after misplaced].
        destruct (base_eqb (t_base nt2) F15_STAY_TIME) eqn:B2; cbn [negb].
        -- apply base_eqb_eq in B2. rewrite B2. cbn [then_]. refine (IH (CStayTime nt2) (nextc (nextc (tickc x))) _). cbn [prec c_cur tickc nextc c_l]. auto.
        -- destruct (t_base nt2); try discriminate B2; (apply D_err; reflexivity).
      * intro K. rewrite (at_end _ _ K). apply D_err. reflexivity.
    + destruct (t_base nt); try discriminate B1; (apply D_err; reflexivity).
  - intro K. rewrite (at_end _ _ K). apply D_err. reflexivity.
Qed.
Lemma d_staytime t x : prec L (CStayTime t) x -> D (b_stay_time (run G d) t) (tickc x) (dvc (CStayTime t) x).
Proof.
  intros (N & Eb & Hl). cbn [dvc]. unfold b_stay_time.
  apply D_last, D_deref, D_rdl; [reflexivity|]. rewrite (set_stay_eq t _ (nth_wt L HL _ _ N) Eb). cbn [lift]. apply D_retb.
  apply D_updl; [reflexivity|].
  refine (D_nor _ (with_p (tickc x) (set_r_stay (stay_min (t_text t)) (c_p x))) PStay eq_refl _). intros nt Nn. destruct (t_base nt) eqn:En; leaf Nn En.
Qed.
Lemma d_route t x : prec L (CRoute t) x -> D (b_route (run G d) t) (tickc x) (dvc (CRoute t) x).
Proof.
  intros (N & Eb). cbn [dvc]. unfold b_route. apply (D_rec _ _ (c_cur x)). apply D_last, D_deref, D_updl; [reflexivity|].
  set (x1 := with_p _ _). assert (Hl : c_l x1 <> []) by exact (app_ne _ _). change (c_cur x) with (c_cur x1). clearbody x1.
  refine (D_nor _ x1 PRoute eq_refl _). intros nt Nn. destruct (t_base nt) eqn:En; try leaf Nn En.
  rewrite ll_eq. destruct (computed_point (t_sub nt)) eqn:Ec.
  - match goal with |- D _ _ (at_ ?p ?i) => replace (at_ p i) with (Report nt 48) by (rewrite (at_step p i nt eq_refl Nn); unfold fits, misplaced; rewrite En, Ec; reflexivity) end.
    apply D_err_then; [reflexivity|intro; apply mono_run].
  - apply D_retb. dj; [reflexivity|exact Nn|lead|pb|unfold disp; rewrite En; reflexivity|left; unfold fits; now rewrite En, Ec|discriminate].
Qed.
Lemma d_post_next x1 : c_l x1 <> [] -> D (next_or_return (fun nt => run G d (CPostPoint nt))) x1 (at_ (PPoint (ll_p (c_p x1))) (S (c_cur x1))).
Proof. intro Hl. apply D_nor; [reflexivity|]. intros nt Nn. exact (IH (CPostPoint nt) (nextc x1) (conj Nn Hl)). Qed.
Lemma d_point t x : prec L (CPoint t) x -> D (b_point G (run G d) t) (tickc x) (dvc (CPoint t) x).
Proof.
  intros (N & Eb). cbn [dvc]. unfold b_point. apply (D_rec _ _ (c_cur x)). apply D_last, D_deref, D_updl; [reflexivity|].
  set (x1 := with_p _ _).
  eapply (D_bind_errs _ _ x1 _ (c_cur x) (pt_prev G t (c_l x1) (c_p x1)) (pt_rec G t (c_p x1)) (c_us x1) (c_k x1) (pt_errs t)); [exact (check_sem_eq G L _ t (c_l x1) (c_p x1) (c_errs x1) ru (c_k x1) (nth_wt L HL _ _ N))| | |].
  - apply mono_nor. intro. apply mono_run.
  - exact (pt_shows t (nth_wt L HL _ _ N)).
  - intros _. set (x2 := mkC _ _ _ _ _ _). assert (El : ll_p (c_p x2) = computed_point (t_sub t)) by (cbn [c_p x2]; rewrite ll_pt; exact (ll_eq _)).
    rewrite <- El. change (c_cur x) with (c_cur x2). apply d_post_next. refine (pt_prev_ne G _ _ _ _). exact (app_ne _ _).
Qed.
Lemma d_spdalt t x : prec L (CSpdAlt t) x -> D (b_assign_speed_altitude (run G d) t) (tickc x) (dvc (CSpdAlt t) x).
Proof.
  intros (N & Eb). pose proof (nth_wt L HL _ _ N) as W. destruct (sa_fields t W Eb) as (a & Ha & Hs & Hl). cbn [dvc].
  eapply (D_rw _ _ _ (c_cur x) (c_l x) (sa_rec a t (c_p x)) (c_us x) (S (c_k x)) (lvl_errs t (text_from a t))).
  - exact (b_sa_eq (run G d) L _ _ _ _ ru _ t a Ha Hs Hl).
  - apply mono_nor. intro. apply mono_bind; [auto with mono|]. intro. destruct (_ =? _)%Z; apply mono_run.
  - exact (sa_shows t a W Eb Ha).
  - intros _. set (x1 := mkC _ _ _ _ _ _). change (ll_p (c_p x)) with (ll_p (c_p x1)). change (c_l x) with (c_l x1). change (c_cur x) with (c_cur x1). clearbody x1.
    apply D_nor; [destruct (c_l x1); reflexivity|]. intros nt Nn. apply D_nel. change (c_l (nextc x1)) with (c_l x1).
    destruct (c_l x1) as [|q l] eqn:El.
    + cbn [length]. change (Z.of_nat 0 + 1 =? 1)%Z with true. cbv iota. exact (IH (CPostAdep nt) (nextc x1) (conj Nn El)).
    + replace (Z.of_nat (length (q :: l)) + 1 =? 1)%Z with false by (cbn [length]; lia). refine (IH (CPostPoint nt) (nextc x1) (conj Nn _)). cbn [c_l nextc]. congruence.
Qed.
Lemma d_spdaltplus t x : prec L (CSpdAltPlus t) x -> D (b_assign_speed_altitude_plus (run G d) t) (tickc x) (dvc (CSpdAltPlus t) x).
Proof.
  intros (N & Eb & Hne). pose proof (nth_wt L HL _ _ N) as W. destruct (sap_fields t W Eb) as (a & b & Ha & Hs & Hl & _). cbn [dvc].
  eapply (D_rw _ _ _ (c_cur x) (c_l x) (sap_rec a b t (c_p x)) (c_us x) (S (c_k x)) (lvl_errs t (text_mid a b t))).
  - exact (b_sap_eq (run G d) L _ _ _ _ ru _ t a b Ha Hs Hl).
  - apply mono_nor. intro. apply mono_run.
  - exact (sap_shows t a b W Eb Ha).
  - intros _. set (x1 := mkC _ _ _ _ _ _). change (ll_p (c_p x)) with (ll_p (c_p x1)). change (c_cur x) with (c_cur x1). apply d_post_next. exact Hne.
Qed.
Lemma d_spdaltalt t x : prec L (CSpdAltAlt t) x -> D (b_assign_speed_altitude_altitude (run G d) t) (tickc x) (dvc (CSpdAltAlt t) x).
Proof.
  intros (N & Eb & Hne). pose proof (nth_wt L HL _ _ N) as W. destruct (saa_fields t W Eb) as (a & b & c & Ha & Hs & Hl & Hc). cbn [dvc].
  destruct (is_na_sm (t_sub t)) eqn:Ena.
  - unfold levels. rewrite (unconv_na t Eb), Ena. cbn [then_]. unfold D.
    rewrite (b_saa_exn (run G d) L _ _ _ _ ru _ t W Eb Ena : b_assign_speed_altitude_altitude (run G d) t (st_of L ru (tickc x)) = _).
    eexists. reflexivity.
  - specialize (Hc eq_refl).
    pose proof (b_saa_eq (run G d) L (Z.of_nat (c_cur x)) (c_l x) (c_p x) (c_errs x) ru (S (c_k x)) t a b c Ha Hs Hl Hc) as Eq. rewrite <- app_assoc in Eq.
    eapply (D_rw _ _ _ (c_cur x) (c_l x) (saa_rec a b c t (c_p x)) (c_us x) (S (c_k x)) (lvl_errs t (text_mid a b t) ++ lvl_errs t (text_from c t))).
    + exact Eq.
    + apply mono_nor. intro. apply mono_run.
    + exact (saa_shows t a b c W Eb Ha Ena).
    + intros _. set (x1 := mkC _ _ _ _ _ _). change (ll_p (c_p x)) with (ll_p (c_p x1)). change (c_cur x) with (c_cur x1). apply d_post_next. exact Hne.
Qed.
Lemma d_text_next x1 k : r_rules (c_p x1) = kind_rule k -> D (next_or_return (fun nt => run G d (CBreakText nt))) x1 (at_ (PText k) (S (c_cur x1))).
Proof.
  intros Hr. apply D_nor; [reflexivity|]. intros nt Nn. assert (P : prec L (CBreakText nt) (nextc x1)) by (split; [exact Nn|exists k; exact Hr]).
  pose proof (IH _ _ P) as K. cbn [dvc] in K. change (c_p (nextc x1)) with (c_p x1) in K. rewrite Hr, kindof_rule in K. exact K.
Qed.
Lemma d_spdvfr t x : prec L (CSpdVfr t) x -> D (b_assign_speed_vfr (run G d) t) (tickc x) (dvc (CSpdVfr t) x).
Proof.
  intros (N & Eb). pose proof (nth_wt L HL _ _ N) as W. destruct (vfr_fields t W Eb) as (a & Ha & Hs & _ & Hv). cbn [dvc].
  change (at_ (PText KVfr) (S (c_cur x))) with (then_ Fine (at_ (PText KVfr) (S (c_cur x)))).
  eapply (D_rw _ _ _ (c_cur x) (c_l x ++ [copy_perf (vfr_rec a t (c_p x)) (c_p x)]) (vfr_rec a t (c_p x)) (c_us x ++ [c_cur x]) (S (c_k x)) []).
  - rewrite app_nil_r. exact (b_vfr_eq (run G d) L _ _ _ _ ru _ t a Ha Hs Hv).
  - apply mono_nor. intro. apply mono_run.
  - reflexivity.
  - intros _. set (x1 := mkC _ _ _ _ _ _). change (c_cur x) with (c_cur x1). apply d_text_next. reflexivity.
Qed.
Lemma d_slash t x : prec L (CSlash t) x -> D (b_forward_slash (run G d) t) (tickc x) (dvc (CSlash t) x).
Proof.
  intros (N & Eb & Hl). cbn [dvc]. unfold b_forward_slash. apply D_next; cbn [c_cur tickc].
  - intros nt Nn. set (p := PSlash t (ll_p (c_p x))). rewrite (at_step p _ nt eq_refl Nn). unfold fits, misplaced, value_fault, place_after, p.
    destruct (t_base nt) eqn:En; try (apply D_err; reflexivity).
    + unfold levels, unconvertible, level_fault. rewrite En. cbn [then_]. exact (IH (CSpdVfr nt) (nextc (tickc x)) (conj Nn En)).
    + pose proof (IH (CSpdAlt nt) (nextc (tickc x)) (conj Nn En)) as K. cbn [dvc c_cur tickc nextc c_l c_p] in K. destruct (c_l x); [contradiction|exact K].
  - intro K. rewrite (at_end _ _ K). apply D_err. reflexivity.
Qed.
Lemma d_sid t x : prec L (CSid t) x -> D (b_sid (run G d) t) (tickc x) (dvc (CSid t) x).
Proof.
  intros (N & Eb). unfold b_sid. apply (D_rec _ _ (c_cur x)). apply D_nel. cbn [c_l recc tickc c_p dvc]. rewrite sid_len.
  destruct (c_l x) as [|q l] eqn:El.
  - set (x1 := recc _ _ _). assert (Ln : length (c_l x1) = 1) by (cbn [c_l recc tickc x1]; now rewrite El).
    eapply (D_step _ _ x1 _ x1); [apply (elem_at_eq L _ _ _ _ _ _ 1); exact (Nat.eq_le_incl _ _ (eq_sym Ln))|reflexivity|].
    apply D_deref. apply D_rdl; [now rewrite Ln|]. apply D_updl; [now rewrite Ln|].
    set (x2 := with_p _ _). refine (IH CPostSid x2 _). exact (app_ne _ _).
  - apply D_err. reflexivity.
Qed.
Lemma d_star_end t x (x1 := recc (tickc x) (c_cur x) t) :
  D (pk <- tok_peek 1 ;; match pk with
    | None => i <- deref (Some (length (c_l x1))) ;; upd i (retype F15_STAR (if pstr_eqb (t_text t) ($"STAR") then F15_SB_STAR_LITERAL else F15_SB_STAR))
    | Some nt => run G d (CErrSync nt 34) end) x1 (at_ (PLast 34) (S (c_cur x))).
Proof.
  apply (D_peek _ _ 1). change (c_cur x1) with (c_cur x). rewrite Nat.add_1_r. destruct (nth_error L (S (c_cur x))) as [nt|] eqn:E1.
  - rewrite (at_step (PLast 34) _ nt eq_refl E1). cbn [fits misplaced]. apply D_err. reflexivity.
  - apply nth_error_None in E1. rewrite (at_end _ _ E1). apply D_deref. apply D_updl_end. reflexivity.
Qed.
Lemma d_star t x : D (b_star (run G d) t) (tickc x) (dvc (CStar t) x).
Proof. cbn [dvc]. unfold b_star. apply (D_rec _ _ (c_cur x)). apply d_star_end. Qed.
Lemma d_sidstar t x : prec L (CSidStar t) x -> D (b_sid_star (run G d) t) (tickc x) (dvc (CSidStar t) x).
Proof.
  intros (N & Eb). unfold b_sid_star. apply (D_rec _ _ (c_cur x)). apply D_nel. cbn [c_l recc tickc c_p dvc]. rewrite sid_len.
  destruct (c_l x) as [|q l] eqn:El.
  - set (x1 := recc _ _ _). apply D_deref. apply D_updl; [cbn [c_l recc tickc x1]; now rewrite El|].
    set (x2 := with_p _ _). refine (IH CPostSid x2 _). exact (app_ne _ _).
  - rewrite <- El. apply d_star_end.
Qed.
Lemma d_cruisec t x : prec L (CCruiseC t) x -> D (b_cruise_climb_c (run G d) t) (tickc x) (dvc (CCruiseC t) x).
Proof.
  intros (N & Eb). cbn [dvc]. unfold b_cruise_climb_c. apply D_next; cbn [c_cur tickc].
  - intros nt Nn.
    assert (Hgo : forall c', disp nt = Some c' -> (fits PC nt = true \/ t_base nt = F15_SID) -> t_base nt <> F15_SLASH ->
       D (add_record t ;;; run G d c') (nextc (tickc x)) (at_ PC (S (c_cur x)))).
    { intros c' Hd Ha Hs. apply (D_rec _ _ (c_cur x)). dj; [reflexivity|exact Nn|lead|pb|exact Hd| |intros _; exact Hs].
      destruct Ha as [Ha|Ha]; [left; exact Ha|right]. split; [exact Ha|]. repeat split; discriminate. }
    destruct (t_base nt) eqn:En; try leaf Nn En;
      try (apply Hgo; [unfold disp; rewrite En; reflexivity|first [right; reflexivity|left; unfold fits; rewrite En; reflexivity]|discriminate]).
    rewrite (at_step PC _ nt eq_refl Nn). unfold fits, value_fault, place_after. rewrite En. cbn [then_].
    apply D_next; cbn [c_cur tickc nextc].
    + intros nt2 N2. rewrite (at_step (PClimb nt) _ nt2 eq_refl N2). cbn [fits value_fault place_after]. exact (IH (CCruisePoint nt2) (nextc (nextc (tickc x))) N2).
    + intro K. rewrite (at_end _ _ K). cbn [stop]. apply (D_rec _ _ (c_cur x)). apply D_err. reflexivity.
  - intro K. rewrite (at_end _ _ K). apply (D_rec _ _ (c_cur x)). apply D_ret.
Qed.
Lemma done_D k e z (f : token -> M unit) : done L ru k e z -> exists y, z = st_of L ru y /\ c_errs y = e /\ D (next_or_return f) y Fine.
Proof.
  intros (cur & calls & Hc & ->). eexists. split; [reflexivity|]. split; [reflexivity|]. unfold next_or_return. apply D_next.
  - intros t Nt. exfalso. cbn [c_cur] in Nt. apply nth_error_None in Hc. congruence.
  - intros _. apply D_ret.
Qed.
Ltac mo := repeat first [apply mono_bind; [|intro] | apply mono_nor; intro | apply mono_run | match goal with |- mono (match ?z with _ => _ end) => destruct z end | solve [auto with mono]].
Lemma d_cruisepoint t x : prec L (CCruisePoint t) x -> D (b_cruise_climb_point G (run G d) t) (tickc x) (dvc (CCruisePoint t) x).
Proof.
  intros N. cbn [prec dvc] in *. unfold b_cruise_climb_point. apply (D_rec _ _ (c_cur x)). set (x1 := recc _ _ _).
  eapply (D_bind_errs _ _ x1 _ (c_cur x) (pt_prev G t (c_l x1) (c_p x1)) (pt_rec G t (c_p x1)) (c_us x1) (c_k x1) (pt_errs t)); [exact (assign_ll_eq G L _ t (c_l x1) (c_p x1) (c_errs x1) ru (c_k x1) (nth_wt L HL _ _ N))| | |].
  - mo.
  - exact (pt_shows t (nth_wt L HL _ _ N)).
  - intros _. set (x2 := mkC _ _ _ _ _ _). assert (Hl : c_l x2 <> []) by exact (pt_prev_ne G _ _ _ (app_ne _ _)).
    assert (Hb : ll_p (c_p x2) = computed_point (t_sub t)) by (cbn [c_p x2]; rewrite ll_pt; exact (ll_eq _)).
    change (c_cur x) with (c_cur x2). clearbody x2. clear N x1.
    apply D_next.
    + intros nt Nn. rewrite (at_step (PClimbPt t) _ nt eq_refl Nn). cbn [fits value_fault place_after misplaced].
      destruct (base_eqb (t_base nt) F15_SLASH) eqn:B1; cbn [negb].
      * apply base_eqb_eq in B1. rewrite B1. cbn [then_]. apply D_retb. apply D_next; cbn [c_cur nextc].
        -- intros nt2 N2. rewrite (at_step (PClimbSl t) _ nt2 eq_refl N2). unfold fits, value_fault, place_after, misplaced.
           assert (Hc : forall c', (c' = CSpdAltAlt nt2 /\ t_base nt2 = F15_SPEED_ALTITUDE_ALTITUDE) \/ (c' = CSpdAltPlus nt2 /\ t_base nt2 = F15_SPEED_ALTITUDE_PLUS) ->
             D (run G d c' ;;; next_or_return (fun nt3 => run G d (CPoint nt3))) (nextc (nextc x2)) (then_ (levels nt2) (at_ (PPoint (computed_point (t_sub t))) (S (S (S (c_cur x2))))))).
           { intros c' Hc'. assert (Hp : prec L c' (nextc (nextc x2))) by (destruct Hc' as [[-> B]|[-> B]]; cbn [prec c_cur nextc c_l]; auto).
             pose proof (IH c' _ Hp) as K. pose proof (run_J G L ru HL d c' _ Hp) as Kj.
             assert (Ev : dvc c' (nextc (nextc x2)) = then_ (levels nt2) (at_ (PPoint (computed_point (t_sub t))) (S (S (S (c_cur x2)))))) by
               (destruct Hc' as [[-> _]|[-> _]]; cbn [dvc c_p nextc c_cur]; rewrite Hb; reflexivity).
             eapply D_call; [exact K|exact Kj|intro; mo|intros _; symmetry; exact Ev|].
             intros Ef s Gs. rewrite Ev in Ef. rewrite Ef.
             assert (Dn : exists k, done L ru k (c_errs (nextc (nextc x2))) s) by
               (destruct Hc' as [[-> _]|[-> _]]; cbn [good good_t tgt] in Gs; destruct Gs as [_ (r & _ & _ & Dn)]; eexists; exact Dn).
             destruct Dn as [k Dn]. exact (done_D _ _ _ _ Dn). }
           destruct (t_base nt2) eqn:E2; try (apply Hc; tauto); (apply D_err_then; [reflexivity|intro; mo]).
        -- intro K. rewrite (at_end _ _ K). apply D_err. reflexivity.
      * destruct (t_base nt); try discriminate B1; (apply D_err_then; [reflexivity|intro; mo]).
    + intro K. rewrite (at_end _ _ K). apply D_err. reflexivity.
Qed.
Lemma d_breakstart t x : prec L (CBreakStart t) x -> D (b_break_start (run G d) t) (tickc x) (dvc (CBreakStart t) x).
Proof.
  intros (N & Eb). destruct (bs_begins t (nth_wt L HL _ _ N) Eb) as [k Hk]. cbn [dvc].
  unfold break_rule. rewrite Hk, kindof_rule. unfold b_break_start. apply (D_rec _ _ (c_cur x)). apply D_last.
  set (x1 := recc _ _ _). set (x2 := with_p x1 (set_r_rules (kind_rule k) (c_p x1))).
  eapply (D_step _ _ x1 tt x2); [|reflexivity|].
  - clear - Hk. clearbody x1. subst x2. destruct x1 as [a b c e u q]. unfold begins in Hk. destruct (t_sub t); try discriminate Hk; injection Hk as <-; exact (upd_last_eq L (Z.of_nat a) b c e ru q (set_r_rules _)).
  - change (c_cur x) with (c_cur x2). apply D_nor; [reflexivity|]. intros nt Nn. destruct (base_eqb (t_base nt) F15_TOO_LONG) eqn:B.
    + rewrite (at_text k _ nt Nn), B. apply D_err. reflexivity.
    + assert (P : prec L (CBreakText nt) (nextc x2)) by (split; [exact Nn|exists k; reflexivity]).
      pose proof (IH _ _ P) as K. cbn [dvc] in K. assert (Hr : r_rules (c_p (nextc x2)) = kind_rule k) by reflexivity. rewrite Hr, kindof_rule in K. exact K.
Qed.
Lemma d_breaktext t x : prec L (CBreakText t) x -> D (b_break_text_save (run G d) t) (tickc x) (dvc (CBreakText t) x).
Proof.
  intros (N & k & Hk). cbn [dvc]. rewrite Hk, kindof_rule, (at_text k _ t N). unfold b_break_text_save.
  destruct (base_eqb (t_base t) F15_TOO_LONG) eqn:B.
  - apply D_err_then; [reflexivity|]. intro. mo.
  - apply D_retb. apply D_last, D_deref, D_updl; [reflexivity|].
    set (x1 := with_p _ _). apply D_last, D_deref, D_rdl; [reflexivity|]. cbv zeta.
    assert (Hr : r_rules (c_p x1) = kind_rule k) by (transitivity (r_rules (c_p x)); [cbn [c_p x1 with_p tickc]; unfold append_break_text; destruct (pstr_eqb _ _); reflexivity|exact Hk]). rewrite Hr, be_if.
    change (c_cur x) with (c_cur x1). change (nth_error L (c_cur x1) = Some t) in N. clearbody x1.
    destruct (ends k (t_sub t)) eqn:Ee; [|apply D_retb, d_text_next; exact Hr].
    assert (Hp : prec L (CBreakEnd t) x1) by (cbn [prec]; rewrite Hr, kindof_rule; auto).
    pose proof (IH _ _ Hp) as K. pose proof (run_J G L ru HL d _ _ Hp) as Kj. cbn [dvc] in K. cbv zeta in K. rewrite Hr, kindof_rule in K.
    eapply D_call; [exact K|exact Kj|intro; mo| |].
    + destruct (resume k _); [congruence|reflexivity|reflexivity].
    + intros Ef s Gs. cbn [good] in Gs. rewrite Hr, kindof_rule in Gs. destruct (resume k (skipn (S (c_cur x1)) L)) eqn:Er; [| |contradiction].
      * destruct Gs as [calls ->]. exists (mkC (c_cur x1) (c_l x1) (c_p x1) (c_errs x1) (c_us x1) calls). split; [reflexivity|]. split; [reflexivity|].
        exact (d_text_next (mkC (c_cur x1) (c_l x1) (c_p x1) (c_errs x1) (c_us x1) calls) k Hr).
      * destruct Gs as (r & _ & _ & Dn). rewrite Ef. exact (done_D _ _ _ _ Dn).
Qed.
Lemma nth3 i t1 t2 t3 r : skipn i L = t1 :: t2 :: t3 :: r -> nth_error L i = Some t1 /\ nth_error L (S i) = Some t2 /\ nth_error L (S (S i)) = Some t3.
Proof.
  intro Hr. rewrite <- (firstn_skipn i L), Hr. assert (Ln : length (firstn i L) = i).
  { apply firstn_length_le. destruct (Nat.le_gt_cases i (length L)) as [K|K]; [exact K|]. rewrite skipn_all2 in Hr; [discriminate|lia]. }
  split; [|split]; rewrite nth_error_app2 by lia; rewrite Ln; [replace (_ - _) with 0 by lia|replace (_ - _) with 1 by lia|replace (_ - _) with 2 by lia]; reflexivity.
Qed.
Lemma d_vtoi x : prec L CVtoI x -> D (b_v_to_i G (run G d)) (tickc x) (dvc CVtoI x).
Proof.
  intros (t1 & t2 & t3 & rest & Hr & B1 & B2 & B3). destruct (nth3 _ _ _ _ _ Hr) as (N1 & N2 & N3). pose proof (nth_wt L HL _ _ N1) as W1. cbn [dvc].
  rewrite (at_step (PJoin KVfr) _ t1 eq_refl N1). cbn [fits value_fault place_after]. rewrite (skipn_nth L _ _ N2), (skipn_nth L _ _ N3), B3. cbn [base_eqb].
  change (base_eqb F15_SPEED_ALTITUDE F15_SPEED_VFR) with false. cbv iota.
  unfold b_v_to_i. apply D_next; cbn [c_cur tickc]; [|intro K; apply nth_error_None in K; congruence]. intros t Nt. assert (t = t1) as -> by congruence. clear Nt.
  apply D_deref. apply (D_rec _ _ (S (c_cur x))). set (x1 := recc _ _ _).
  eapply (D_bind_errs _ _ x1 _ (c_cur x1) (pt_prev G t1 (c_l x1) (c_p x1)) (pt_rec G t1 (c_p x1)) (c_us x1) (c_k x1) (pt_errs t1)); [exact (check_sem_eq G L _ t1 (c_l x1) (c_p x1) (c_errs x1) ru (c_k x1) W1)| | |].
  - mo.
  - exact (pt_shows t1 W1).
  - intros _. apply D_deref. set (x2 := mkC _ _ _ _ _ _).
    apply D_updl; [cbn [c_l x2]; now rewrite pt_prev_length|]. set (x3 := with_p _ _).
    assert (Hl : c_l x3 <> []) by exact (pt_prev_ne G _ _ _ (app_ne _ _)).
    assert (Hb : ll_p (c_p x3) = computed_point (t_sub t1)) by (cbn [c_p x3 with_p]; change (ll_p (c_p x2) = computed_point (t_sub t1)); cbn [c_p x2]; rewrite ll_pt; exact (ll_eq _)).
    assert (Hc : c_cur x3 = S (c_cur x)) by reflexivity. clearbody x3. clear x1 x2.
    set (p := PPoint (computed_point (t_sub t1))). rewrite (at_step p _ t2 eq_refl N2). unfold fits, value_fault, place_after, p. rewrite B2. cbn [then_].
    set (p2 := PSlash t2 _). rewrite (at_step p2 _ t3 eq_refl N3). unfold fits, value_fault, place_after, p2. rewrite B3.
    apply D_next; rewrite Hc; [|intro K; apply nth_error_None in K; congruence]. intros t' Nt'. 
    apply D_next; cbn [c_cur nextc]; rewrite Hc; [|intro K; apply nth_error_None in K; congruence]. intros t'' Nt''. assert (t'' = t3) as -> by congruence. clear t' Nt' Nt''.
    apply D_deref. assert (Hp : prec L (CSpdAlt t3) (nextc (nextc x3))) by (cbn [prec c_cur nextc]; rewrite Hc; auto).
    pose proof (IH _ _ Hp) as K. cbn [dvc c_cur nextc c_l c_p] in K. rewrite Hc, Hb in K. destruct (c_l x3); [contradiction|exact K].
Qed.
Lemma d_vtoitov x : prec L CVtoItoV x -> D (b_v_to_i_to_v (run G d)) (tickc x) (dvc CVtoItoV x).
Proof.
  intros (t1 & t2 & t3 & rest & Hr & B1 & B2 & B3). destruct (nth3 _ _ _ _ _ Hr) as (N1 & N2 & N3). cbn [dvc].
  rewrite (at_step (PJoin KVfr) _ t1 eq_refl N1). cbn [fits value_fault place_after]. rewrite (skipn_nth L _ _ N2), (skipn_nth L _ _ N3), B3.
  change (base_eqb F15_SPEED_VFR F15_SPEED_VFR) with true. cbv iota. cbn [then_].
  set (p := PPoint (computed_point (t_sub t1))). rewrite (at_step p _ t2 eq_refl N2). unfold fits, value_fault, place_after, p. rewrite B2. cbn [then_].
  set (p2 := PSlash t2 _). rewrite (at_step p2 _ t3 eq_refl N3). unfold fits, value_fault, place_after, p2, levels, unconvertible, level_fault. rewrite B3. cbn [then_].
  unfold b_v_to_i_to_v. apply D_next; cbn [c_cur tickc]; [|intro K; apply nth_error_None in K; congruence]. intros t Nt. assert (t = t1) as -> by congruence. clear Nt.
  apply D_deref. apply (D_rec _ _ (S (c_cur x))). apply D_deref. apply D_updl; [reflexivity|]. set (x3 := with_p _ _).
  assert (Hc : c_cur x3 = S (c_cur x)) by reflexivity. clearbody x3.
  apply D_next; rewrite Hc; [|intro K; apply nth_error_None in K; congruence]. intros t' Nt'. 
  apply D_next; cbn [c_cur nextc]; rewrite Hc; [|intro K; apply nth_error_None in K; congruence]. intros t'' Nt''. assert (t'' = t3) as -> by congruence. clear t' Nt' Nt''.
  apply D_deref. assert (Hp : prec L (CSpdVfr t3) (nextc (nextc x3))) by (cbn [prec c_cur nextc]; rewrite Hc; auto).
  pose proof (IH _ _ Hp) as K. cbn [dvc c_cur nextc] in K. rewrite Hc in K. exact K.
Qed.
Lemma d_breakend t x : prec L (CBreakEnd t) x -> D (b_break_end (run G d) t) (tickc x) (dvc (CBreakEnd t) x).
Proof.
  intros (N & He). cbn [dvc]. set (k := kindof (r_rules (c_p x))) in *. cbv zeta. unfold b_break_end. cbv zeta.
  apply (D_peek _ _ 1). cbn [c_cur tickc]. rewrite Nat.add_1_r.
  destruct (nth_error L (S (c_cur x))) as [t1|] eqn:N1; [|rewrite (nth_none L _ N1); apply D_ret]. rewrite (skipn_nth L _ _ N1). cbn [resume].
  destruct (base_eqb (t_base t1) F15_POINT) eqn:B1; cbn [negb].
  2: { replace (match t_base t1 with F15_POINT => _ | _ => Inside end) with Inside by (destruct (t_base t1); try reflexivity; discriminate). apply D_ret. }
  apply base_eqb_eq in B1. rewrite B1. destruct (sub_eqb (t_sub t) F15_SB_IFR) eqn:S1.
  - assert (Ek : k = KVfr) by (destruct k; [reflexivity| |]; destruct (t_sub t); try discriminate He; discriminate S1). rewrite Ek.
    apply (D_peek _ _ 2). cbn [c_cur tickc]. replace (c_cur x + 2) with (S (S (c_cur x))) by lia.
    destruct (nth_error L (S (S (c_cur x)))) as [t2|] eqn:N2; [|rewrite (nth_none L _ N2); apply D_err; reflexivity]. rewrite (skipn_nth L _ _ N2).
    destruct (base_eqb (t_base t2) F15_SLASH) eqn:B2; cbn [negb].
    2: { replace (match t_base t2 with F15_SLASH => _ | _ => Inside end) with Inside by (destruct (t_base t2); try reflexivity; discriminate). apply D_ret. }
    apply base_eqb_eq in B2. rewrite B2.
    apply (D_peek _ _ 3). cbn [c_cur tickc]. replace (c_cur x + 3) with (S (S (S (c_cur x)))) by lia.
    destruct (nth_error L (S (S (S (c_cur x))))) as [t3|] eqn:N3; [|rewrite (nth_none L _ N3); apply D_err; reflexivity]. rewrite (skipn_nth L _ _ N3).
    assert (Hcall : forall c', (c' = CVtoI /\ t_base t3 = F15_SPEED_ALTITUDE) \/ (c' = CVtoItoV /\ t_base t3 = F15_SPEED_VFR) ->
      D (run G d c' ;;; next_or_return (fun nt => run G d (CPoint nt))) (tickc x) (at_ (PJoin KVfr) (S (c_cur x)))).
    { intros c' Hc'. assert (Hp : prec L c' (tickc x)) by (destruct Hc' as [[-> B]|[-> B]]; exists t1, t2, t3, (skipn (S (S (S (S (c_cur x))))) L); cbn [c_cur tickc]; rewrite (skipn_nth L _ _ N1), (skipn_nth L _ _ N2), (skipn_nth L _ _ N3); auto).
      assert (Ev : dvc c' (tickc x) = at_ (PJoin KVfr) (S (c_cur x))) by (destruct Hc' as [[-> _]|[-> _]]; reflexivity).
      eapply D_call; [exact (IH _ _ Hp)|exact (run_J G L ru HL d _ _ Hp)|intro; mo|intros _; symmetry; exact Ev|].
      intros Ef s Gs. rewrite Ev in Ef. rewrite Ef.
      assert (Dn : exists k, done L ru k (c_errs (tickc x)) s) by (destruct Hc' as [[-> _]|[-> _]]; cbn [good good_t tgt] in Gs; destruct Gs as [_ (r & _ & _ & Dn)]; eexists; exact Dn).
      destruct Dn as [k' Dn]. exact (done_D _ _ _ _ Dn). }
    destruct (base_eqb (t_base t3) F15_SPEED_ALTITUDE) eqn:B3.
    + apply base_eqb_eq in B3. rewrite B3. cbn [negb andb]. apply Hcall. auto.
    + destruct (base_eqb (t_base t3) F15_SPEED_VFR) eqn:B4; cbn [negb andb].
      * apply base_eqb_eq in B4. rewrite B4. apply Hcall. auto.
      * replace (match t_base t3 with F15_SPEED_ALTITUDE | F15_SPEED_VFR => Resumes | _ => Wrong end) with Wrong by (destruct (t_base t3); try reflexivity; discriminate).
        apply D_err. reflexivity.
  - assert (Ek : k <> KVfr) by (intro K; rewrite K in He; destruct (t_sub t); try discriminate He; discriminate S1).
    replace (match k with KVfr => _ | _ => Resumes end) with Resumes by (destruct k; [contradiction|reflexivity|reflexivity]).
    unfold next_or_return. apply D_next; [|intro K; apply nth_error_None in K; cbn [c_cur tickc] in K; congruence]. cbn [c_cur tickc]. intros nt Nn. assert (nt = t1) as -> by congruence.
    rewrite (at_step (PJoin k) _ t1 eq_refl N1). replace (value_fault (PJoin k) t1 _) with (angles t1) by (destruct k; [contradiction|reflexivity|reflexivity]).
    exact (IH (CPoint t1) (nextc (tickc x)) (conj N1 B1)).
Qed.
End Step.

(** Every call ends as its verdict says. *)
Theorem run_D d : forall c x, prec L c x -> D (run G d c) x (dvc c x).
Proof.
  induction d as [|d IH]; intros c x P.
  - exact I.
  - cbn [run]. eapply (D_step _ _ x tt (tickc x)); [apply tick_eq|reflexivity|].
    destruct c; cbn [body]; try (exfalso; exact P);
    [ exact (d_spdalt d IH _ _ P) | exact (d_spdaltalt d IH _ _ P) | exact (d_spdaltplus d IH _ _ P)
    | exact (d_spdvfr d IH _ _ P) | exact (d_breakend d IH _ _ P) | exact (d_breakstart d IH _ _ P) | exact (d_breaktext d IH _ _ P)
    | exact (d_cruisec d IH _ _ P) | exact (d_cruisepoint d IH _ _ P) | exact (d_dct d IH _ _ P) | exact (d_slash d IH _ _ P) | exact (d_postadep d IH _ _ P)
    | exact (d_postpoint d IH _ _ P) | exact (d_postsid d IH _ P) | exact (d_point d IH _ _ P) | exact (d_route d IH _ _ P) | exact (d_sid d IH _ _ P)
    | exact (d_sidstar d IH _ _ P) | exact (d_star d _ _) | exact (d_stay d IH _ _ P) | exact (d_staytime d IH _ _ P) | exact (d_truncate d _)
    | exact (d_vtoi d IH _ P) | exact (d_vtoitov d IH _ P) ].
Qed.
End L.
End G.
