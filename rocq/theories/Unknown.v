(** * Unknown: an unrecognised element changes nothing but the errors (lemmas behind PropsUnknown). *)
From Coq Require Import ZArith NArith List Bool String Lia.
From Verif Require Import PyBase PyFloat Enums ErrorTable Tokenizer Ers Utils Parser SpecTokenizer SpecNum SpecParser SpecGrammar SpecAccept SpecDiagnosis SpecReader SpecComplete SpecLayout SpecRemoval SpecRename SpecUnknown.
From Verif Require Import TokenizerProofs PerfEq GrammarSem Grammar Accept Describe AcceptFacts Unambiguous Viable Diagnosis Removal Reader ReaderFacts SettledFacts CompleteFacts Rename.
Import List ListNotations.
Local Open Scope list_scope.
Local Open Scope Z_scope.

(** ** Reports made before *)
Definition pre (e : list (token * Z)) (s : notes) : notes := mkNotes (n_before s) (n_last s) (e ++ n_reports s).
Definition pre_r (e : list (token * Z)) (r : result) : result := match r with Goes k s ts => Goes k (pre e s) ts | Breaks s => Breaks (pre e s) end.
Lemma pre_report e t ms s : report t ms (pre e s) = pre e (report t ms s).
Proof. unfold report, pre. cbn [n_before n_last n_reports]. now rewrite app_assoc. Qed.
Lemma pre_point e t s : point t (pre e s) = pre e (point t s).
Proof. unfold point. rewrite <- pre_report. reflexivity. Qed.
Lemma pre_speeds e t s : speeds t (pre e s) = pre e (speeds t s).
Proof. unfold speeds. cbv zeta. rewrite <- pre_report. reflexivity. Qed.
Lemma pre_last e t k s ts : the_last t k (pre e s) ts = pre_r e (the_last t k s ts).
Proof. unfold the_last. destruct ts; [reflexivity|]. cbn [pre_r]. now rewrite pre_report. Qed.
Lemma pre_start e t k s ts : start t k (pre e s) ts = pre_r e (start t k s ts).
Proof.
  pose proof (pre_last e t k (add t s) ts) as L. pose proof (pre_report e t [30] (add t s)) as R. change (pre e (add t s)) with (add t (pre e s)) in *.
  unfold start. change (only_adep (pre e s)) with (only_adep s).
  destruct (t_base t); cbn [pre_r]; rewrite ?pre_point, ?pre_speeds; try reflexivity; try exact L;
    try (destruct (begins _); reflexivity); try (destruct (unconvertible t); reflexivity); destruct (only_adep s); try reflexivity; try exact L; cbn [pre_r]; now rewrite R.
Qed.
Lemma pre_leave e b k s ts : leave b k (pre e s) ts = pre_r e (leave b k s ts).
Proof. unfold leave. destruct (resume b ts); try reflexivity. destruct ts; [reflexivity|]. cbn [pre_r]. now rewrite pre_report. Qed.
Lemma pre_wrong e j t k s ts : wrong j t k (pre e s) ts = pre_r e (wrong j t k s ts).
Proof. unfold wrong. change (spot j (pre e s)) with (spot j s). cbn [pre_r]. now rewrite pre_report. Qed.
Lemma pre_read e j t k s ts : read j t k (pre e s) ts = pre_r e (read j t k s ts).
Proof.
  assert (Su : suits j t (pre e s) = suits j t s) by reflexivity.
  destruct j; unfold read; rewrite ?Su;
    try (destruct (suits _ t s); [|destruct (t_base t); apply pre_wrong]); try apply pre_start; try apply pre_wrong; try reflexivity;
    try (destruct (base_eqb (t_base t) F15_SLASH); [reflexivity|]; first [apply pre_start|apply (pre_start e t k (add c s))]).
  - cbn [pre_r]. rewrite <- pre_report. reflexivity.
  - cbv zeta. destruct (base_eqb _ _); [cbn [pre_r]; now rewrite pre_report|].
    change (ends_here (SpecReader.texts (t_text t) (pre e s)) t) with (ends_here (SpecReader.texts (t_text t) s) t). destruct (ends_here _ t); [|reflexivity].
    exact (pre_leave e _ _ (SpecReader.texts (t_text t) s) ts).
  - cbv zeta. destruct (base_eqb _ _); [cbn [pre_r]; now rewrite pre_report|].
    change (ends_here (SpecReader.texts (t_text t) (pre e s)) t) with (ends_here (SpecReader.texts (t_text t) s) t). destruct (ends_here _ t); [|reflexivity].
    exact (pre_leave e _ _ (SpecReader.texts (t_text t) s) ts).
  - destruct ts as [|sl [|sp ts]]; try reflexivity. destruct (base_eqb _ _); [reflexivity|]. cbn [pre_r]. now rewrite pre_point, pre_speeds.
  - destruct (t_base t); try apply pre_start; try apply pre_leave; cbn [pre_r]; rewrite ?pre_report; reflexivity.
  - destruct (t_base t); try apply pre_start; cbn [pre_r]; rewrite ?pre_report; reflexivity.
  - cbn [pre_r]. now rewrite pre_point.
Qed.
Lemma pre_step e k s ts : step1 k (pre e s) ts = pre_r e (step1 k s ts).
Proof.
  destruct k as [|j k]; [reflexivity|].
  assert (Q : plain j = true -> step1 (j :: k) (pre e s) ts = pre_r e (step1 (j :: k) s ts)).
  { intro Pl. destruct ts as [|t ts]; [rewrite !step_end by exact Pl; cbn [pre_r]; f_equal|rewrite !step_read by exact Pl; apply pre_read].
    destruct j; cbn [at_end]; first [reflexivity|apply pre_report|apply (pre_report e _ _ (add _ s))]. }
  destruct j; try exact (Q eq_refl); [reflexivity|]. cbn [step1 pre_r]. now rewrite pre_point.
Qed.
Lemma pre_steps e r q : steps r q -> steps (pre_r e r) (pre_r e q).
Proof. induction 1 as [|j k s ts r H IH]; [constructor|]. cbn [pre_r]. constructor. now rewrite pre_step. Qed.

(** ** Runs *)
Lemma play_run n : forall k s ts z, play n k s ts = Done z -> exists ts', steps (Goes k s ts) (Goes [] z ts').
Proof.
  induction n as [|n IH]; intros k s ts z H; (destruct k as [|j k]; [injection H as ->; exists ts; constructor|]); [discriminate|].
  cbn [play] in H. destruct (step1 (j :: k) s ts) as [k1 s1 ts1|s1] eqn:E; [|discriminate]. destruct (IH _ _ _ _ H) as [ts' K]. exists ts'. constructor. now rewrite E.
Qed.
Lemma run_play r z ts' n : steps r (Goes [] z ts') -> (work r <= n)%nat -> goes_on n r = Done z.
Proof. intros H L. apply (steps_play r _ H n (Done z)); [|exact L]. intro m. destruct m; reflexivity. Qed.
Lemma run_through r a z ts' : steps r a -> steps r (Goes [] z ts') -> steps a (Goes [] z ts').
Proof.
  intro H. induction H as [r|j k s ts r H IH]; intro K; [exact K|]. inversion K; subst. now apply IH.
Qed.
(** ** Reading a derivation *)
Fixpoint path (c : ctx) (ss : list step) (X : list token) : Prop :=
  match ss with [] => True | s :: r => follows c s = true /\ proper c s (yield r ++ X) /\ path (after c s) r X end.
Lemma path_of ss1 : forall c ss2, derives c (ss1 ++ ss2) -> path c ss1 (yield ss2).
Proof. induction ss1 as [|s r IH]; intros c ss2 D; [exact Logic.I|]. cbn [app derives path] in *. rewrite <- yield_app. destruct D as (A & B & C). auto. Qed.
(** What is read depends on what follows the path only by its first tokens. *)
Definition calm (c : ctx) : bool := match c with XAdep | XDct | XRoute | XSid | XStay | XPoint _ => true | _ => false end.
Lemma path_other ss : forall c X Y, path c ss X -> calm (fold_left after ss c) = true -> Y <> [] -> path c ss Y.
Proof.
  induction ss as [|s r IH]; intros c X Y H Cm Ne; [exact Logic.I|]. cbn [path fold_left] in *. destruct H as (F & P & H). split; [exact F|]. split.
  - assert (N : forall Z : list token, Z <> [] -> yield r ++ Z <> []) by (intros Z NZ; destruct (yield r); [exact NZ|discriminate]).
    destruct s; cbn [proper] in *; auto.
    + destruct P as (P1 & P2 & _). auto.
    + destruct P as (P1 & P2). split; [exact P1|]. destruct r as [|s2 r]; [discriminate Cm|]. cbn [path] in H. destruct H as (_ & P' & _). apply step_tokens in P'. rewrite yield_cons in *.
      destruct (tokens_of s2); [congruence|exact P2].
    + destruct P as (_ & P2). destruct r as [|s2 r]; [discriminate Cm|]. cbn [path after] in H. destruct H as (K & _). discriminate K.
    + destruct P as (_ & P2). destruct r as [|s2 r]; [discriminate Cm|]. cbn [path after] in H. destruct H as (K & _). discriminate K.
    + destruct P as (P1 & P2). split; [exact P1|]. destruct c; try contradiction. refine (section_look k txt _ _ _ P2). cbn [after] in *.
      destruct r as [|s2 r]; [discriminate Cm|]. cbn [path fold_left] in *. destruct H as (F2 & _ & H). rewrite !yield_cons.
      destruct k; cbn [look]; destruct s2; try discriminate F2; try reflexivity; cbn [after] in *;
        (destruct r as [|s3 r]; [discriminate Cm|]); cbn [path] in H; destruct H as (F3 & _); destruct s3; try discriminate F3; reflexivity.
  - apply (IH _ X); auto.
Qed.

(** The jobs that belong to a place; [p] has been derived but not been read yet. *)
Definition here (c : ctx) (k : list job) (s : notes) (p : list token) : Prop :=
  match c with
  | XAdep => p = [] /\ only_adep s = true /\ exists k0, k = JAdep :: k0
  | XDct => p = [] /\ exists k0, k = JDct :: k0
  | XRoute => p = [] /\ exists k0, k = JRoute :: k0
  | XC => p = [] /\ exists t k0, k = JC t :: k0
  | XSid => p = [] /\ exists k0, k = JSid :: k0
  | XStay => p = [] /\ exists k0, k = JStay :: k0
  | XPoint b => p = [] /\ only_adep s = false /\ computed_point (i_sub (n_last s)) = b /\ exists k0, k = JPoint :: k0
  | XClimb b => p = [] /\ only_adep s = false /\ computed_point (i_sub (n_last s)) = b /\ exists t k0, k = JClimbPt t :: k0
  | XText kd => p = [] /\ in_section s = Some kd /\ exists k0, k = JText :: k0 \/ k = JBegin :: k0
  | XBreak KVfr => p = [] /\ exists k0, k = JJoin :: k0
  | XBreak _ => p = [] /\ exists k0, k = JAsPoint :: k0
  | XThenSpeed b => exists t k0, p = [t] /\ computed_point (t_sub t) = b /\ k = JJoin :: k0
  | XThenVfr => exists t k0, p = [t] /\ k = JJoin :: k0
  | XStart | XEnd => False
  end.
Lemma not_only t s : only_adep (add t s) = false.
Proof. unfold only_adep, add, add_as. cbn [n_before]. destruct (n_before s); reflexivity. Qed.
Lemma first_then j k s ts r q : step1 (j :: k) s ts = r -> steps r q -> steps (Goes (j :: k) s ts) q.
Proof. intros <- H. now constructor. Qed.
Ltac go := eapply first_then; [reflexivity|].
Definition outer (c : ctx) : bool := match c with XAdep | XDct | XRoute | XC | XSid | XStay | XPoint _ => true | _ => false end.
Definition modifies (s : step) : bool := match s with SSpeed _ _ | SVfr _ _ => true | _ => false end.
Definition plain_start (b : base_type) : bool := match b with F15_SLASH | F15_BREAK_END | F15_UNKNOWN | F15_TOO_LONG | F15_STAY_TIME => false | _ => true end.
Lemma entry c s k n p R0 : here c k n p -> outer c = true -> follows c s = true -> proper c s R0 -> modifies s = false ->
  exists t tl j k0 n', p = [] /\ tokens_of s = t :: tl /\ k = j :: k0 /\ (forall u, s = SSid u -> only_adep n' = true) /\
    (forall R, step1 k n (t :: R) = start t k0 n' R) /\ (calm c = true -> n' = n) /\ plain_start (t_base t) = true.
Proof.
  intros H O F Q M.
  destruct c; try discriminate O; destruct s; try discriminate F; try discriminate M;
    cbn [here proper tokens_of] in *;
    repeat match goal with X : _ /\ _ |- _ => destruct X | X : exists _, _ |- _ => destruct X end; subst;
    (eexists; eexists; eexists; eexists; eexists; split; [reflexivity|]; split; [reflexivity|]; split; [reflexivity|]; split; [first [intros u X; discriminate X|intros _ _; eassumption]|]; split;
     [intro R; cbn [step1]; unfold read, suits, spot, fits|split; [first [intro Cm; discriminate Cm|reflexivity]|]]);
    repeat match goal with X : _ \/ _ |- _ => destruct X | X : _ /\ _ |- _ => destruct X end;
    repeat match goal with X : t_base ?x = _ |- _ => rewrite X end; try reflexivity.
  all: cbn [follows] in F; rewrite F; reflexivity.
Qed.
Definition back (kd : kind) (k : list job) : list job := (match kd with KVfr => [JJoin; JAsPoint] | _ => [JAsPoint] end) ++ JText :: k.
Definition said (txt : list token) (n : notes) : notes := fold_left (fun n t => SpecReader.texts (t_text t) n) txt n.
Lemma in_texts x n : in_section (SpecReader.texts x n) = in_section n.
Proof. reflexivity. Qed.
Lemma text_run kd k0 R : R <> [] -> forall txt j n, j = JText \/ j = JBegin -> in_section n = Some kd -> section kd txt R ->
  steps (Goes (j :: k0) n (txt ++ R)) (Goes (back kd k0) (said txt n) R).
Proof.
  intros NR. induction txt as [|t txt IH]; intros j n J I0 Sx; cbn [section] in Sx; [congruence|]. destruct Sx as [NL Sx].
  assert (E : step1 (j :: k0) n (t :: txt ++ R) = match ends_here (SpecReader.texts (t_text t) n) t with Some b => leave b (JText :: k0) (SpecReader.texts (t_text t) n) (txt ++ R) | None => Goes (JText :: k0) (SpecReader.texts (t_text t) n) (txt ++ R) end).
  { assert (X : base_eqb (t_base t) F15_TOO_LONG = false) by (destruct (t_base t); try reflexivity; congruence). destruct J as [-> | ->]; cbn [step1 read]; rewrite X; reflexivity. }
  eapply first_then; [exact E|]. unfold ends_here. rewrite in_texts, I0. cbn [said fold_left]. destruct (ends kd (t_sub t)).
  - unfold leave. destruct (resume kd (txt ++ R)) eqn:Er; [|subst txt; constructor|contradiction]. apply IH; auto.
  - apply IH; auto.
Qed.
Definition is_text (s : step) : bool := match s with SText _ => true | _ => false end.
Lemma sub_speeds t n : i_sub (n_last (speeds t n)) = i_sub (n_last n).
Proof. unfold speeds. destruct (t_base t); reflexivity. Qed.
Lemma step_run c s k n p R0 : here c k n p -> follows c s = true -> proper c s R0 -> after c s <> XEnd -> Forall wt (tokens_of s) ->
  exists k' n' p', here (after c s) k' n' p' /\
    forall R, proper c s R -> (is_text s = true -> R <> []) -> steps (Goes k n (p ++ tokens_of s ++ R)) (Goes k' n' (p' ++ R)).
Proof.
  intros H F Q Ne W.
  destruct (outer c && negb (modifies s)) eqn:B.
  - apply andb_true_iff in B as [O M]. apply negb_true_iff in M. destruct (entry c s k n p R0 H O F Q M) as (t & tl & j & k0 & m & -> & Tk & -> & Od & St & _). rewrite Tk.
    cbn [app]. assert (St' : forall R r, steps (start t k0 m R) r -> steps (Goes (j :: k0) n (t :: R)) r) by (intros R r X; eapply first_then; [apply St|exact X]). clear St.
    destruct s; try discriminate M; try (destruct c as [| | | | | | | | |[]|[]| | |]; discriminate); cbn [tokens_of] in Tk; injection Tk as -> <-.
    + exists (JDct :: k0), (add t m), []. split; [cbn [after here]; eauto|]. intros R _ _. apply St'. unfold start. cbn [proper] in Q. rewrite Q. constructor.
    + exists (JRoute :: k0), (rules ($"IFR") (add t m)), []. split; [cbn [after here]; eauto|]. intros R _ _. apply St'. unfold start. cbn [proper] in Q. rewrite Q. constructor.
    + exists (JPoint :: k0), (point t m), []. split.
      * assert (A : after c (SPoint t) = XPoint (computed_point (t_sub t))) by (destruct c as [| | | | | | | | |[]|[]| | |]; try discriminate; reflexivity). rewrite A. cbn [here]. split; [reflexivity|]. split; [apply (not_only t m)|]. split; [reflexivity|]. eauto.
      * intros R _ _. apply St'. unfold start. destruct Q as [Q _]. rewrite Q. constructor.
    + eexists (JC t :: k0), m, []. split; [cbn [after here]; eauto|]. intros R _ _. apply St'. unfold start. destruct Q as [Q _]. rewrite Q. constructor.
    + eexists (JSid :: k0), _, []. split; [cbn [after here]; eauto|]. intros R _ _. apply St'. unfold start. rewrite (Od t eq_refl). destruct Q as [Q|Q]; rewrite Q; constructor.
    + exfalso. now apply Ne.
    + exfalso. now apply Ne.
    + destruct Q as [Q Bg]. cbn [after] in *. destruct (begins (t_sub t)) as [kd|] eqn:Eb; [|congruence].
      eexists (JBegin :: k0), _, []. split; [|intros R _ _; apply St'; unfold start; rewrite Q, Eb; constructor]. cbn [here]. split; [reflexivity|]. split; [destruct kd; reflexivity|]. eauto.
    + destruct Q as (Q1 & Q2 & Q3). eexists (JClimbPt t0 :: k0), _, []. split; [|intros R _ _; apply St'; unfold start; rewrite Q1; cbn [app]].
      2: { eapply first_then. { cbn [step1]. unfold read, suits, spot, fits. rewrite Q2. reflexivity. } go. constructor. }
      cbn [after here]. split; [reflexivity|]. split; [apply (not_only t0 m)|]. split; [reflexivity|]. eauto.
    + destruct Q as (Q1 & Q2 & Q3). eexists (JStay :: k0), _, []. split; [cbn [after here]; eauto|]. intros R _ _; apply St'; unfold start; rewrite Q1; cbn [app].
      eapply first_then. { cbn [step1]. unfold read, suits, spot, fits. rewrite Q2. reflexivity. }
      eapply first_then. { cbn [step1]. unfold read, suits, spot, fits. rewrite Q3. reflexivity. } constructor.
  - destruct c as [| | | | | | | |bb|kd|[]|bb| |], s; try discriminate F; try discriminate B; cbn [here] in H; try contradiction.
    + destruct H as (-> & Od & Cp & k0 & ->). destruct Q as (Q1 & Q2 & Q3). exists (JPoint :: k0), (speeds t n), []. split.
      * cbn [after here]. first [split; [reflexivity|split; [exact Od|split; [rewrite sub_speeds; exact Cp|eauto]]]|split; [reflexivity|split; [reflexivity|eauto]]].
      * intros R _ _. cbn [app tokens_of]. eapply first_then. { cbn [step1]. unfold read, suits, spot, fits. rewrite Q1. reflexivity. }
        eapply first_then. { cbn [step1]. unfold read, suits, spot, fits. rewrite Q2. cbn [orb]. unfold start. rewrite Q2, Od. reflexivity. } constructor.
    + destruct H as (-> & Od & Cp & k0 & ->). destruct Q as (Q1 & Q2). exists (JText :: k0), (vfr t n), []. split.
      * cbn [after here]. first [split; [reflexivity|split; [exact Od|split; [rewrite sub_speeds; exact Cp|eauto]]]|split; [reflexivity|split; [reflexivity|eauto]]].
      * intros R _ _. cbn [app tokens_of]. eapply first_then. { cbn [step1]. unfold read, suits, spot, fits. rewrite Q1. reflexivity. }
        eapply first_then. { cbn [step1]. unfold read, suits, spot, fits. rewrite Q2. cbn [orb]. unfold start. rewrite Q2. reflexivity. } constructor.
    + destruct H as (-> & Od & Cp & p0 & k0 & ->). destruct Q as (Q1 & Q2 & Q3). exists (JPoint :: JAsPoint :: k0), (speeds t n), []. split.
      * cbn [after here]. first [split; [reflexivity|split; [exact Od|split; [rewrite sub_speeds; exact Cp|eauto]]]|split; [reflexivity|split; [reflexivity|eauto]]].
      * intros R _ _. cbn [app tokens_of]. eapply first_then. { cbn [step1]. unfold read, suits, spot, fits. rewrite Q1. reflexivity. }
        assert (U : unconvertible t = false).
        { destruct Q2 as [Q2|Q2]; [|unfold unconvertible; now rewrite Q2]. rewrite (unconv_na t Q2). destruct (is_na_sm (t_sub t)) eqn:Na; [|reflexivity].
          exfalso. refine (na_levels t _ Q2 Na Q3). inversion W as [|? ? _ W']. now inversion W'. }
        eapply first_then. { cbn [step1]. unfold read, suits, spot, fits. destruct Q2 as [Q2|Q2]; rewrite Q2; cbn [orb]; unfold start; rewrite Q2, U; reflexivity. } constructor.
    + destruct H as (-> & In0 & k0 & Hk). destruct Q as (Q1 & _). exists (back kd k0), (said txt n), []. split.
      * cbn [after]. unfold here, back. destruct kd; cbn [app]; eauto.
      * intros R Q NR. specialize (NR eq_refl). cbn [tokens_of]. cbn [app]. destruct Q as (_ & Q). destruct Hk as [-> | ->]; apply text_run; auto.
    + destruct H as (-> & k0 & ->). exists (JJoin :: k0), n, [t]. split; [cbn [after here]; exists t, k0; auto|]. intros R _ _. constructor.
    + destruct H as (-> & k0 & ->). exists (JJoin :: k0), n, [t]. split; [cbn [after here]; exists t, k0; auto|]. intros R _ _. constructor.
    + destruct H as (-> & k0 & ->). exists (JPoint :: k0), (point t n), []. split; [cbn [after here]; split; [reflexivity|split; [apply (not_only t n)|split; [reflexivity|eauto]]]|]. intros R _ _. go. constructor.
    + destruct H as (-> & k0 & ->). exists (JPoint :: k0), (point t n), []. split; [cbn [after here]; split; [reflexivity|split; [apply (not_only t n)|split; [reflexivity|eauto]]]|]. intros R _ _. go. constructor.
    + destruct H as (t1 & k0 & -> & Cp & ->). destruct Q as (Q1 & Q2 & Q3). exists (JPoint :: k0), (speeds t (point t1 n)), []. split.
      * cbn [after here]. split; [reflexivity|split; [apply (not_only t1 n)|split; [rewrite sub_speeds; exact Cp|eauto]]].
      * intros R _ _. cbn [app tokens_of]. eapply first_then. { cbn [step1 read]. rewrite Q2. reflexivity. } constructor.
    + destruct H as (t1 & k0 & -> & ->). destruct Q as (Q1 & Q2). eexists (JText :: k0), _, []. split; [|intros R _ _; cbn [app tokens_of]; eapply first_then; [cbn [step1 read]; rewrite Q2; reflexivity|constructor]].
      cbn [after here]. first [split; [reflexivity|split; [exact Od|split; [rewrite sub_speeds; exact Cp|eauto]]]|split; [reflexivity|split; [reflexivity|eauto]]].
Qed.
Lemma run ss : forall c k n p X, here c k n p -> path c ss X -> calm (fold_left after ss c) = true -> Forall wt (yield ss) ->
  exists k' n', here (fold_left after ss c) k' n' [] /\ forall Y, path c ss Y -> steps (Goes k n (p ++ yield ss ++ Y)) (Goes k' n' Y).
Proof.
  induction ss as [|s r IH]; intros c k n p X H Pa Cm W.
  - cbn [fold_left] in *. assert (p = []) as -> by (destruct c; try discriminate Cm; apply H). exists k, n. split; [exact H|]. intros Y _. constructor.
  - cbn [path fold_left] in *. destruct Pa as (F & Q & Pa). rewrite yield_cons in W. apply Forall_app in W as [W1 W2].
    assert (Ne : after c s <> XEnd). { intro E. rewrite E in *. destruct r; [discriminate Cm|]. cbn [path] in Pa. destruct Pa as (Pa & _). discriminate Pa. }
    destruct (step_run c s k n p _ H F Q Ne W1) as (k1 & n1 & p1 & H1 & St). destruct (IH _ _ _ _ _ H1 Pa Cm W2) as (k2 & n2 & H2 & St2).
    exists k2, n2. split; [exact H2|]. intros Y (_ & QY & PY). rewrite yield_cons, <- app_assoc. eapply steps_trans; [|apply St2, PY]. apply St; [exact QY|].
    intros T. destruct r as [|s2 r]; [destruct s; try discriminate T; destruct c; discriminate Cm|]. cbn [path] in PY. destruct PY as (_ & P' & _). apply step_tokens in P'. rewrite yield_cons.
    destruct (tokens_of s2); [congruence|discriminate].
Qed.


(** ** Unrecognised elements *)
Definition odd (t : token) : Prop := unrecognised (t_base t).
Definition usual (t : token) : Z := match t_base t with F15_UNKNOWN => 3 | _ => 4 end.
Definition told (c : ctx) (t : token) : Z :=
  match c, t_base t with XDct, _ => 21 | XSid, F15_UNKNOWN => 31 | _, F15_UNKNOWN => 3 | _, _ => 4 end.
Lemma skip us : forall k0 n X, Forall odd us -> n_reports n = [] -> forall e, steps (Goes (JSync :: k0) (pre e n) (us ++ X)) (Goes (JSync :: k0) (pre (e ++ map (fun t => (t, usual t)) us) n) X).
Proof.
  induction us as [|u us IH]; intros k0 n X O N e; cbn [map app]; [rewrite app_nil_r; constructor|]. inversion O as [|? ? Ou Os]; subst.
  assert (E : step1 (JSync :: k0) (pre e n) (u :: us ++ X) = Goes (JSync :: k0) (pre (e ++ [(u, usual u)]) n) (us ++ X)).
  { assert (T : report u [usual u] (pre e n) = pre (e ++ [(u, usual u)]) n) by (unfold report, pre; cbn [n_before n_last n_reports map]; now rewrite N, !app_nil_r).
    rewrite <- T. cbn [step1 read]. unfold usual. destruct Ou as [Ou|Ou]; rewrite Ou; reflexivity. }
  eapply first_then; [exact E|]. replace (e ++ (u, usual u) :: map (fun t => (t, usual t)) us) with ((e ++ [(u, usual u)]) ++ map (fun t => (t, usual t)) us) by (now rewrite <- app_assoc). now apply IH.
Qed.
Lemma odd_read c k n u X : here c k n [] -> calm c = true -> odd u -> exists j k0, k = j :: k0 /\ plain j = true /\ (match j with JPoint | JAdep | JDct | JRoute | JSid | JStay => True | _ => False end) /\
  step1 (j :: k0) n (u :: X) = Goes (JSync :: k0) (report u [told c u] n) X.
Proof.
  intros H C O. destruct c; try discriminate C; cbn [here] in H; repeat match goal with Y : _ /\ _ |- _ => destruct Y | Y : exists _, _ |- _ => destruct Y end; subst;
    (eexists; eexists; split; [reflexivity|split; [reflexivity|split; [exact Logic.I|]]]); cbn [step1]; unfold read, suits, spot, fits, wrong, misplaced, told, spot; destruct O as [O|O]; rewrite O; reflexivity.
Qed.
Lemma inserted c k n ss z ts' u us : here c k n [] -> calm c = true -> derives c ss -> Forall odd (u :: us) -> n_reports n = [] ->
  steps (Goes k n (yield ss)) (Goes [] z ts') -> exists ts2, steps (Goes k n (u :: us ++ yield ss)) (Goes [] (pre ((u, told c u) :: map (fun t => (t, usual t)) us) z) ts2).
Proof.
  intros H C D O N St. inversion O as [|? ? Ou Os]; subst. destruct (odd_read c k n u (us ++ yield ss) H C Ou) as (j & k0 & -> & Pl & Jk & E). exists ts'.
  eapply first_then; [exact E|]. assert (T : report u [told c u] n = pre [(u, told c u)] n) by (unfold report, pre; cbn [map]; now rewrite N). rewrite T.
  eapply steps_trans; [apply skip; auto|]. cbn [app]. set (e := (u, told c u) :: map (fun t => (t, usual t)) us).
  assert (Sy : forall r, steps (Goes (j :: k0) n (yield ss)) r -> (forall k1 n1 t1, r = Goes k1 n1 t1 -> k1 = []) -> steps (Goes (JSync :: k0) n (yield ss)) r).
  { intros r Hr Fin. assert (Go : forall j1 k1 n1 t1, steps (Goes (j1 :: k1) n1 t1) r -> steps (step1 (j1 :: k1) n1 t1) r).
    { intros j1 k1 n1 t1 X. inversion X; subst; [|assumption]. specialize (Fin _ _ _ eq_refl). discriminate Fin. }
    destruct ss as [|s r0].
    - apply Go in Hr. constructor. destruct j; try contradiction; exact Hr.
    - cbn [derives] in D. destruct D as (F & Q & _). assert (Oc : outer c = true) by (destruct c; try discriminate C; reflexivity). destruct (modifies s) eqn:M.
      + assert (Tk : exists sl t, tokens_of s = [sl; t] /\ t_base sl = F15_SLASH /\ (t_base t = F15_SPEED_ALTITUDE \/ t_base t = F15_SPEED_VFR)).
        { destruct s; try discriminate M; exists sl, t; cbn [proper] in Q; intuition. }
        destruct Tk as (sl & t & Tk & B1 & B2). rewrite yield_cons, Tk in *. cbn [app] in *.
        assert (J : j = JPoint) by (destruct s; try discriminate M; destruct c; try discriminate F; try discriminate C; cbn [here] in H; destruct H as (_ & _ & _ & k1 & H); now injection H).
        subst j. eapply first_then; [cbn [step1 read]; rewrite B1; reflexivity|]. constructor. apply Go in Hr. cbn [step1] in Hr. unfold read at 1, suits, spot, fits in Hr. rewrite B1 in Hr. cbn [orb base_eqb] in Hr.
        apply Go in Hr. cbn [step1] in *. unfold read, suits, spot, fits in *. destruct B2 as [B2|B2]; rewrite B2 in *; exact Hr.
      + destruct (entry c s _ n [] _ H Oc F Q M) as (t & tl & j' & k' & n' & _ & Tk & Ek & _ & St' & Nn & Pt). specialize (Nn C). subst n'. injection Ek as <- <-.
        rewrite yield_cons, Tk in *. cbn [app] in *. apply Go in Hr. rewrite St' in Hr. constructor. cbn [step1 read]. destruct (t_base t); try discriminate Pt; exact Hr. }
  exact (pre_steps e _ _ (Sy _ St ltac:(intros k1 n1 t1 X; congruence))).
Qed.
Lemma grow_steps a b : steps a b -> forall k s ts k' s' ts', a = Goes k s ts -> b = Goes k' s' ts' -> grow s s'.
Proof.
  induction 1 as [r|j k s ts r H IH]; intros k1 s1 t1 k2 s2 t2 E1 E2; [subst r; injection E2 as -> -> ->; apply grow_refl|].
  injection E1 as <- <- <-. pose proof (growr_step (j :: k) s ts) as Gr. destruct (step1 (j :: k) s ts) as [k3 s3 ts3|s3] eqn:E; cbn [growr] in Gr.
  - exact (grow_trans _ _ _ Gr (IH _ _ _ _ _ _ eq_refl E2)).
  - inversion H; subst; discriminate.
Qed.
Lemma quiet s z : grow s z -> n_reports z = [] -> n_reports s = [].
Proof. intros [[e E] _] N. rewrite N in E. symmetry in E. now apply app_eq_nil in E. Qed.

(** The whole field, on tokens. *)
Lemma begun s0 R k1 n1 : proper XStart s0 R -> (forall t, s0 = SFirst t -> k1 = [JAdep] /\ n1 = speeds t blank_notes) -> (forall t, s0 = SFirstVfr t -> k1 = [JText] /\ n1 = vfr t blank_notes) ->
  follows XStart s0 = true -> forall Y, begin (tokens_of s0 ++ Y) = play (patience (tokens_of s0 ++ Y)) k1 n1 Y.
Proof.
  intros Q A B F Y. destruct s0; try discriminate F; cbn [tokens_of app proper] in *.
  - destruct (A t eq_refl) as [-> ->]. destruct Q as [Q _]. unfold begin, start. rewrite Q. reflexivity.
  - destruct (B t eq_refl) as [-> ->]. unfold begin, start. rewrite Q. reflexivity.
Qed.
Lemma insert_begin ss1 ss2 z u us : derives XStart (ss1 ++ ss2) -> Forall wt (yield ss1) -> calm (fold_left after ss1 XStart) = true -> Forall odd (u :: us) ->
  begin (yield (ss1 ++ ss2)) = Done z -> n_reports z = [] ->
  begin (yield ss1 ++ u :: us ++ yield ss2) = Done (pre ((u, told (fold_left after ss1 XStart) u) :: map (fun t => (t, usual t)) us) z).
Proof.
  intros D W Cm O Bz Nz. pose proof (path_of ss1 _ _ D) as Pa. pose proof (derives_app ss1 XStart ss2 D) as D2.
  assert (Pb : path XStart ss1 (u :: us ++ yield ss2)) by (apply (path_other _ _ _ _ Pa Cm); discriminate).
  destruct ss1 as [|s0 r]; [discriminate Cm|]. cbn [path fold_left] in *. destruct Pa as (F & Q & Pa), Pb as (_ & _ & Pb). rewrite yield_cons in W. apply Forall_app in W as [W0 W].
  assert (K : exists k1 n1, (forall Y, begin (tokens_of s0 ++ Y) = play (patience (tokens_of s0 ++ Y)) k1 n1 Y) /\ here (after XStart s0) k1 n1 [] /\ (weights k1 <= 4)%nat).
  { destruct s0; try discriminate F.
    - exists [JAdep], (speeds t blank_notes). split; [|split; [cbn [after here]; split; [reflexivity|split; [reflexivity|eauto]]|cbv; lia]].
      eapply begun; [exact Q| | |exact F]; intros t0 X; inversion X; auto.
    - exists [JText], (vfr t blank_notes). split; [|split; [cbn [after here]; split; [reflexivity|split; [reflexivity|eauto]]|cbv; lia]].
      eapply begun; [exact Q| | |exact F]; intros t0 X; inversion X; auto. }
  destruct K as (k1 & n1 & Bg & H1 & Wk). destruct (run r _ _ _ _ _ H1 Pa Cm W) as (k2 & n2 & H2 & St). cbn [app] in St.
  cbn [app] in Bz. rewrite yield_cons, yield_app, Bg in Bz. destruct (play_run _ _ _ _ _ Bz) as (tf & Rz).
  pose proof (run_through _ _ _ _ (St _ Pa) Rz) as R2. assert (N2 : n_reports n2 = []) by (apply (quiet n2 z); [exact (grow_steps _ _ R2 _ _ _ _ _ _ eq_refl eq_refl)|exact Nz]).
  destruct (inserted _ _ _ _ _ _ u us H2 Cm D2 O N2 R2) as (t2 & Rn). rewrite yield_cons, <- app_assoc, Bg.
  apply (run_play (Goes k1 n1 (yield r ++ u :: us ++ yield ss2)) _ t2); [eapply steps_trans; [apply St, Pb|exact Rn]|].
  unfold work, patience. rewrite !app_length. lia.
Qed.

(** ** Fields *)
Lemma split1 {A} (y x : A) a b : [y] = a ++ x :: b -> a = [] /\ y = x /\ b = [].
Proof. destruct a as [|a0 [|a1 a]]; cbn; intro E; injection E; try discriminate; intros; subst; auto. Qed.
Lemma split2 {A} (y z x : A) a b : [y; z] = a ++ x :: b -> (y = x /\ b = [z]) \/ (z = x /\ b = [] /\ a = [y]).
Proof. destruct a as [|a0 [|a1 [|a2 a]]]; cbn; intro E; injection E; try discriminate; intros; subst; auto. Qed.
Lemma split3 {A} (y z w x : A) a b : [y; z; w] = a ++ x :: b -> (y = x /\ b = [z; w]) \/ (z = x /\ b = [w]) \/ (w = x /\ b = []).
Proof. destruct a as [|a0 [|a1 [|a2 [|a3 a]]]]; cbn; intro E; injection E; try discriminate; intros; subst; auto. Qed.
Lemma section_last k txt R : R <> [] -> section k txt R -> exists txt0 w, txt = txt0 ++ [w] /\ ends k (t_sub w) = true.
Proof.
  intro N. induction txt as [|t txt IH]; cbn [section]; intro H; [congruence|]. destruct H as [_ H].
  assert (K : section k txt R -> exists txt0 w, t :: txt = txt0 ++ [w] /\ ends k (t_sub w) = true). { intro X. destruct (IH X) as (a & w & -> & E). exists (t :: a), w. auto. }
  destruct (ends k (t_sub t)) eqn:E; [|auto]. destruct (resume k (txt ++ R)); [auto| |contradiction]. subst txt. exists [], t. auto.
Qed.
Lemma ifr_before ss1 ss2 : derives XStart (ss1 ++ ss2) -> fold_left after ss1 XStart = XBreak KVfr -> ss2 <> [] -> after_ifr (ryield ss1).
Proof.
  intros D E N. destruct (@exists_last _ ss1) as (ss0 & s & ->); [intros ->; discriminate E|]. rewrite fold_left_app in E. cbn [fold_left] in E. rewrite <- app_assoc in D. cbn [app] in D.
  apply derives_app in D. cbn [derives] in D. destruct D as (F & Q & D). destruct ss2 as [|s2 r]; [congruence|]. cbn [derives] in D. destruct D as (_ & Q2 & _). apply step_tokens in Q2.
  assert (Nr : yield (s2 :: r) <> []) by (rewrite yield_cons; destruct (tokens_of s2); [congruence|discriminate]).
  set (c := fold_left after ss0 XStart) in *.
  assert (K : exists txt, s = SText txt /\ c = XText KVfr).
  { destruct s; cbn [after] in E; try discriminate E; try (destruct (begins _); discriminate E); destruct c as [| | | | | | | | |[]|[]| | |]; try discriminate E; try discriminate F. eauto. }
  destruct K as (txt & -> & K). rewrite K in Q. destruct Q as [_ Q]. destruct (section_last _ _ _ Nr Q) as (t0 & w & -> & Ew).
  exists (ryield ss0 ++ map (fun t => (t, RText)) t0), w. split; [|destruct (t_sub w); try discriminate Ew; reflexivity].
  rewrite ryield_app. cbn [ryield flat_map rstep]. now rewrite app_nil_r, map_app, app_assoc.
Qed.
Lemma at_calm ss1 s0 ss2 a x b : derives XStart (ss1 ++ s0 :: ss2) -> rstep s0 = a ++ (x, ROut) :: b -> completes (ryield ss1 ++ a) x -> ~ after_ifr (ryield ss1 ++ a) ->
  b = [] /\ calm (fold_left after (ss1 ++ [s0]) XStart) = true /\ forall u, odd u -> told (fold_left after (ss1 ++ [s0]) XStart) u = message_after x (t_base u).
Proof.
  intros D E Cx Bf. rewrite fold_left_app. cbn [fold_left]. set (c := fold_left after ss1 XStart).
  pose proof (derives_app ss1 XStart (s0 :: ss2) D) as D2. fold c in D2. cbn [derives] in D2. destruct D2 as (F & Q & D2).
  assert (Star : forall t, s0 = SStar t -> t_base t = F15_SID_STAR -> Datatypes.length (ryield ss1) = 1%nat -> False).
  { intros t -> B L. destruct ss1 as [|s1 [|s2 r]]; [discriminate L| |].
    - subst c. cbn [app derives] in D. destruct D as (F1 & _). cbn [fold_left] in *. destruct s1; try discriminate F1; cbn [after] in *; [|discriminate F].
      cbn [proper] in Q. destruct Q as [[Q|[_ Q]] _]; congruence.
    - cbn [app derives] in D. destruct D as (_ & Q1 & _ & Q2 & _). apply step_tokens in Q1. apply step_tokens in Q2.
      rewrite !ryield_cons, !app_length, !rstep_len in L. destruct (tokens_of s1), (tokens_of s2); cbn [Datatypes.length] in L; try congruence; lia. }
  assert (Told : forall u m, odd u -> (t_base u = F15_UNKNOWN -> m = 3) -> (t_base u = F15_TOO_LONG -> m = 4) -> m = usual u).
  { intros u m [Ou|Ou] A B; unfold usual; rewrite Ou; auto. }
  assert (Ty : In (t_base x) [F15_DCT; F15_ROUTE; F15_POINT; F15_SID; F15_SPEED_ALTITUDE; F15_SPEED_ALTITUDE_ALTITUDE; F15_SPEED_ALTITUDE_PLUS; F15_STAY_TIME] \/ t_base x = F15_SID_STAR)
    by (destruct Cx as [Cx|[Cx _]]; auto).
  Ltac out Ty := exfalso; destruct Ty as [Ty|Ty]; [cbn [In] in Ty; repeat destruct Ty as [Ty|Ty]|]; congruence.
  destruct s0; cbn [rstep tokens_of map] in E; cbn [proper] in Q; cbn [follows] in F.
  - apply split1 in E as (-> & E & ->). injection E as ->. destruct Q as [Q _]. split; [reflexivity|split; [reflexivity|]]. intros u Ou. unfold told, message_after. cbn [after]. now rewrite Q.
  - apply split1 in E as (-> & E & ->). injection E as ->. out Ty.
  - apply split1 in E as (-> & E & ->). injection E as ->. split; [reflexivity|split; [reflexivity|]]. intros u Ou. unfold told, message_after. cbn [after]. now rewrite Q.
  - apply split1 in E as (-> & E & ->). injection E as ->. split; [reflexivity|split; [reflexivity|]]. intros u Ou. unfold told, message_after. cbn [after]. now rewrite Q.
  - apply split1 in E as (-> & E & ->). injection E as ->. destruct Q as [Q _]. assert (A : after c (SPoint x) = XPoint (computed_point (t_sub x))).
    { destruct c as [| | | | | | | | |[]|[]| | |] eqn:Ec; try reflexivity. exfalso. apply Bf. rewrite app_nil_r. apply (ifr_before ss1 (SPoint x :: ss2)); [exact D|exact Ec|discriminate]. }
    rewrite A. split; [reflexivity|split; [reflexivity|]]. intros u Ou. unfold told, message_after. now rewrite Q.
  - apply split1 in E as (-> & E & ->). injection E as ->. destruct Q as [Q _]. out Ty.
  - apply split1 in E as (-> & E & ->). injection E as ->. split; [reflexivity|split; [reflexivity|]]. intros u Ou. unfold told, message_after. cbn [after]. destruct Q as [Q|Q]; now rewrite Q.
  - apply split1 in E as (-> & E & ->). injection E as ->. destruct Q as [[Q|[Q _]] _]; [out Ty|]. exfalso. destruct Cx as [Cx|[_ Cx]]; [rewrite Q in Cx; cbn [In] in Cx; repeat destruct Cx as [Cx|Cx]; congruence|].
    rewrite app_nil_r in Cx. exact (Star x eq_refl Q Cx).
  - apply split1 in E as (-> & E & ->). injection E as ->. destruct Q as [Q _]. out Ty.
  - destruct Q as (Q1 & Q2 & _). apply split2 in E as [(E & ->)|(E & -> & ->)]; injection E as ->; [out Ty|]. split; [reflexivity|].
    assert (A : exists bb, after c (SSpeed sl x) = XPoint bb) by (destruct c as [| | | | | | | | |[]|[]| | |]; try discriminate F; eexists; reflexivity). destruct A as [bb ->].
    split; [reflexivity|]. intros u Ou. unfold told, message_after. now rewrite Q2.
  - destruct Q as (Q1 & Q2). apply split2 in E as [(E & ->)|(E & -> & ->)]; injection E as ->; out Ty.
  - apply split1 in E as (-> & E & ->). injection E as ->. destruct Q as [Q _]. out Ty.
  - exfalso. assert (K : In (x, ROut) (map (fun t : token => (t, RText)) txt)) by (rewrite E; apply in_or_app; right; now left). apply in_map_iff in K as (y & K & _). discriminate K.
  - exfalso. apply split1 in E as (-> & E & ->). injection E as ->. apply Bf. rewrite app_nil_r. apply (ifr_before ss1 (SRejoin x :: ss2)); [exact D| |discriminate].
    fold c. destruct c as [| | | | | | | | |[]|[]| | |]; try discriminate F. reflexivity.
  - destruct Q as (Q1 & Q2 & _). apply split3 in E as [(E & ->)|[(E & ->)|(E & ->)]]; [injection E as ->; out Ty|injection E as ->; out Ty|discriminate E].
  - destruct Q as (Q1 & Q2 & _). apply split2 in E as [(E & ->)|(E & -> & ->)]; injection E as ->; [out Ty|]. split; [reflexivity|].
    assert (A : exists bb, after c (SClimbTo sl x) = XPoint bb) by (destruct c as [| | | | | | | | |[]|[]| | |]; try discriminate F; eexists; reflexivity). destruct A as [bb ->].
    split; [reflexivity|]. intros u Ou. unfold told, message_after. destruct Q2 as [Q2|Q2]; now rewrite Q2.
  - destruct Q as (Q1 & Q2 & Q3). apply split3 in E as [(E & ->)|[(E & ->)|(E & ->)]]; injection E as ->; [out Ty|out Ty|]. split; [reflexivity|split; [reflexivity|]].
    intros u Ou. unfold told, message_after. cbn [after]. now rewrite Q3.
Qed.
Lemma bounded (l : list token) : exists M, 0 <= M /\ forall t, In t l -> - M < t_start t < M.
Proof.
  induction l as [|t l (M & P & H)]; [exists 0; split; [lia|intros t []]|]. exists (M + Z.abs (t_start t) + 1). split; [lia|]. intros y [<-|Hy]; [lia|]. specialize (H y Hy). lia.
Qed.
Definition moved (M : Z) (t : token) : token := mkToken (t_text t) (t_start t + M) (t_end t) (t_base t) (t_sub t).
Definition alias (M : Z) (F : list token) (t u : token) : Prop :=
  (t_base t = t_base u /\ t_sub t = t_sub u /\ t_text t = t_text u) /\ (In t F \/ t = moved M u) /\ t_text t <> [] /\ (t_base t = F15_SID_STAR -> t_text t <> $"SID" /\ t_text t <> $"STAR").
Lemma renamed_place (P : token -> token -> Prop) r q : (forall t u, P t u -> t_text t = t_text u) -> renamed P r q -> same_but_place r q.
Proof.
  intros Pt (V & O & W). unfold same_values in V. unfold same_but_place.
  assert (N : r_name r = r_name q). { destruct O as [(O & _)|(t & u & O & _ & _ & [[A B]|[A B]])]; [exact O|rewrite A, B; auto|congruence]. }
  assert (B : r_break r = r_break q). { destruct W as (l & m & F & -> & ->). f_equal. clear - F Pt. induction F as [|x y l m H F IH]; cbn [map]; [reflexivity|]. now rewrite IH, (Pt x y H). }
  intuition congruence.
Qed.
Definition sound_token (t : token) : Prop := t_text t <> [] /\ (t_base t = F15_SID_STAR -> t_text t <> $"SID" /\ t_text t <> $"STAR").
Lemma alias_part M F : forall a' a, incl a' F -> by_text a' -> by_text a -> Forall sound_token a' -> map t_text a' = map t_text a -> Forall2 (alias M F) a' a.
Proof.
  induction a' as [|t a' IH]; intros [|u a] In1 B1 B2 S1 E; try discriminate; [constructor|]. cbn [map] in E. injection E as Et E. inversion S1 as [|? ? [S2 S3] S4]; subst. constructor.
  - pose proof (B1 t (or_introl eq_refl)) as X. pose proof (B2 u (or_introl eq_refl)) as Y. rewrite Et in X. rewrite <- Y in X. injection X as X1 X2. unfold alias. split; [auto|]. split; [left; apply In1; now left|auto].
  - apply IH; auto; [intros y Hy; apply In1; now right|intros y Hy; apply B1; now right|intros y Hy; apply B2; now right].
Qed.
Lemma alias_moved M F tv : Forall sound_token tv -> Forall2 (alias M F) (map (moved M) tv) tv.
Proof. induction 1 as [|t l [H1 H2] _ IH]; constructor; auto. split; [cbn; auto|]. split; [now right|]. split; [exact H1|exact H2]. Qed.
Lemma ryield_fst ss : map fst (ryield ss) = yield ss.
Proof. induction ss as [|x r IH]; [reflexivity|]. rewrite ryield_cons, yield_cons, map_app, IH, rstep_fst. reflexivity. Qed.
Section G.
Variable G : geodesic.
Lemma costs_only_itself depth depth' f g s p x rest a tv b :
  parse_field15 G depth f = Ok true s -> field_roles f = p ++ (x, ROut) :: rest -> completes p x -> ~ after_ifr p ->
  field_tokens g = a ++ tv ++ b -> map t_text a = wordsof (p ++ [(x, ROut)]) -> map t_text b = wordsof rest ->
  tv <> [] -> Forall (fun t => unrecognised (t_base t)) tv -> (3 * n_tokens g <= depth' + 1)%nat ->
  exists s', parse_field15 G depth' g = Ok false s' /\ Forall2 same_but_place (e_recs (s_ers s)) (e_recs (s_ers s')) /\
    one_for_each x tv (e_errs (s_ers s')) /\ e_rules (s_ers s') = e_rules (s_ers s).
Proof.
  intros H E Cx Bf Eg Ea Eb Nv Uv Dp. destruct (roles_steps G f depth s H) as (ss & D & Y & Er & Bt & _). rewrite E in Er. symmetry in Er.
  destruct (locate ss XStart p (x, ROut) rest D Er) as (c & s0 & ss1 & ss2 & ra & rb & -> & Es & -> & -> & _).
  destruct (at_calm ss1 s0 ss2 ra x rb D Es Cx Bf) as (-> & Cm & Td). cbn [app] in *.
  assert (Nf : field_tokens f <> []). { rewrite <- Y, yield_app, yield_cons. destruct s0; cbn [rstep tokens_of map] in *; try (destruct (yield ss1); discriminate). destruct txt; [destruct ra; discriminate|]. destruct (yield ss1); discriminate. }
  assert (Ng : field_tokens g <> []) by (rewrite Eg; destruct a; [destruct tv; [congruence|discriminate]|discriminate]).
  set (sa := ss1 ++ [s0]) in *. assert (Sa : ss1 ++ s0 :: ss2 = sa ++ ss2) by (unfold sa; now rewrite <- app_assoc). rewrite Sa in *.
  assert (Wp : wordsof ((ryield ss1 ++ ra) ++ [(x, ROut)]) = map t_text (yield sa)).
  { unfold wordsof, sa. rewrite <- app_assoc, <- Es, yield_app. cbn [yield flat_map]. rewrite app_nil_r, !map_app. f_equal.
    - rewrite <- (ryield_fst ss1), map_map. reflexivity.
    - rewrite <- (rstep_fst s0), map_map. reflexivity. }
  assert (Wr : wordsof (ryield ss2) = map t_text (yield ss2)) by (unfold wordsof; rewrite <- (ryield_fst ss2), map_map; reflexivity).
  rewrite Wp in Ea. rewrite Wr in Eb.
  assert (Wt : Forall (fun t => wt t /\ sound_token t) (field_tokens f)).
  { apply Forall_forall. intros t Ht. pose proof (field_wt f) as W. rewrite Forall_forall in W. split; [now apply W|]. destruct (field_proc f t Ht). now split. }
  assert (Wg : Forall sound_token (field_tokens g)) by (apply Forall_forall; intros t Ht; destruct (field_proc g t Ht); now split).
  destruct (complete G depth f true s Nf H) as (l & e & Rf & Re & Se). destruct e; [|discriminate Re]. clear Re.
  assert (Bz : exists z, begin (field_tokens f) = Done z /\ n_reports z = [] /\ fst (conclude (field_tokens f) z) = l).
  { unfold reading in Rf. destruct (begin (field_tokens f)) as [z|z|]; try discriminate. exists z. split; [reflexivity|]. destruct (conclude (field_tokens f) z) as [l0 e0] eqn:Ec. injection Rf as -> ->.
    split; [|reflexivity]. unfold conclude in Ec. injection Ec as _ Ec. destruct (field_tokens f) as [|t0 [|t1 ts]]; auto. destruct (base_eqb _ _); [|exact Ec]. cbn [report n_reports] in Ec. now apply app_eq_nil in Ec. }
  destruct Bz as (z & Bz & Nz & Lz).
  destruct (bounded (field_tokens f)) as (M1 & P1 & H1). destruct (bounded tv) as (M2 & P2 & H2). set (M := M1 + M2).
  assert (Far : forall t, In t tv -> ~ In (moved M t) (field_tokens f)). { intros t Ht K. specialize (H1 _ K). specialize (H2 _ Ht). cbn [moved t_start] in H1. lia. }
  destruct tv as [|u us]; [congruence|]. assert (O : Forall odd (map (moved M) (u :: us))) by (apply Forall_map; exact Uv). cbn [map] in O.
  rewrite <- Y in Bz. assert (Wsa : Forall wt (yield sa)). { rewrite <- Y, yield_app in Wt. apply Forall_app in Wt as [Wt _]. eapply Forall_impl; [|exact Wt]. now intros ? []. }
  pose proof (insert_begin sa ss2 z (moved M u) (map (moved M) us) D Wsa Cm O Bz Nz) as Bn.
  set (L := yield sa ++ moved M u :: map (moved M) us ++ yield ss2) in *.
  set (er := (moved M u, told (fold_left after sa XStart) (moved M u)) :: map (fun t => (t, usual t)) (map (moved M) us)) in *.
  assert (Rn : reading L = Some (Gives l er)).
  { unfold reading. rewrite Bn. destruct (conclude L (pre er z)) as [l2 e2] eqn:Ec. unfold conclude in Ec. injection Ec as El Ee. f_equal. f_equal.
    - subst l l2. unfold conclude. cbn [fst pre n_before n_last]. rewrite <- Y, yield_app. unfold L. destruct (yield sa) as [|t0 ts] eqn:Ey; [|reflexivity].
      exfalso. unfold sa in Ey. rewrite yield_app in Ey. apply app_eq_nil in Ey as [_ Ey]. cbn [yield flat_map] in Ey. rewrite app_nil_r, <- rstep_fst, Es, map_app in Ey. destruct (map fst ra); discriminate.
    - subst e2. cbn [pre n_reports]. rewrite Nz, app_nil_r. destruct L as [|t0 [|t1 ts]] eqn:EL; try reflexivity. exfalso. unfold L in EL. apply (f_equal (@Datatypes.length token)) in EL. rewrite app_length in EL. cbn [Datatypes.length] in EL.
      assert (Datatypes.length (yield sa) <> 0%nat); [|lia]. unfold sa. rewrite yield_app, app_length. cbn [yield flat_map]. rewrite app_nil_r, <- rstep_fst, Es, map_length, app_length. cbn [Datatypes.length]. lia. }
  assert (Al : Forall2 (alias M (field_tokens f)) L (field_tokens g)).
  { pose proof (by_text_field g) as Bg. rewrite Eg in Bg, Wg. apply by_text_part in Bg as [Bga Bg]. apply by_text_part in Bg as [_ Bgb]. apply Forall_app in Wg as [_ Wg]. apply Forall_app in Wg as [Wgv _].
    rewrite yield_app in Bt. apply by_text_part in Bt as [Bta Btb]. rewrite <- Y, yield_app in Wt. apply Forall_app in Wt as [Wa Wb]. rewrite Eg. unfold L.
    apply Forall2_app; [|change (moved M u :: map (moved M) us ++ yield ss2) with (map (moved M) (u :: us) ++ yield ss2); apply Forall2_app].
    - apply alias_part; auto; [|eapply Forall_impl; [|exact Wa]; now intros ? []]. intros t Ht. rewrite <- Y, yield_app. apply in_or_app. now left.
    - now apply alias_moved.
    - apply alias_part; auto; [|eapply Forall_impl; [|exact Wb]; now intros ? []]. intros t Ht. rewrite <- Y, yield_app. apply in_or_app. now right. }
  assert (K := reading_same (alias M (field_tokens f)) ltac:(intros t y ((A1 & A2 & A3) & _); repeat split; auto)
    ltac:(intros t y ((_ & _ & A3) & _ & A4 & _); rewrite <- A3; auto) ltac:(intros t y ((_ & _ & A3) & _ & _ & A4) B0; rewrite <- A3; auto) _ _ Al).
  rewrite Rn in K. pose proof (complete_total G depth' g Ng Dp) as B. destruct (reading (field_tokens g)) as [[m h|]|] eqn:Rg; try contradiction. destruct K as [K1 K2], B as (s' & B1 & B2).
  assert (Eh : h = (u, told (fold_left after sa XStart) u) :: map (fun t => (t, usual t)) us).
  { assert (X : forall tv' h' (msg : token -> Z), incl tv' (u :: us) -> (forall t, msg (moved M t) = msg t) -> Forall2 (fun q p => alias M (field_tokens f) (fst q) (fst p) /\ snd q = snd p) (map (fun t => (t, msg t)) (map (moved M) tv')) h' -> h' = map (fun t => (t, msg t)) tv').
    { induction tv' as [|t tv' IH]; intros h' msg Ic Mm F2; cbn [map] in F2; inversion F2 as [|? [y my] ? h2 [Ay Ey] F3]; subst; [reflexivity|]. cbn [fst snd map] in *. f_equal.
      - destruct Ay as (_ & [Ay|Ay] & _); [exfalso; refine (Far t _ Ay); apply Ic; now left|]. assert (t = y); [|subst y; subst my; now rewrite Mm].
        unfold moved in Ay. injection Ay as A1 A2 A3 A4 A5. destruct t, y. cbn in *. f_equal; auto. lia.
      - apply IH; auto. intros q Hq. apply Ic. now right. }
    inversion K2 as [|? [y my] ? h2 F2 F3]; subst. rewrite (X us h2 usual ltac:(intros q Hq; now right) ltac:(reflexivity) F3). f_equal.
    assert (Y2 := X [u] [(y, my)] (told (fold_left after sa XStart)) ltac:(intros q [<-|[]]; now left) ltac:(reflexivity) ltac:(constructor; [exact F2|constructor])). now injection Y2 as -> ->. }
  exists s'. rewrite B1. destruct (whole_result G depth' g _ s' Ng B1) as (m1 & h1 & T1 & _ & T2 & _). rewrite Rg in T1. injection T1 as <- <-.
  split; [now rewrite Eh|]. split; [|split].
  - rewrite Se, B2. cbn [ers_of e_recs]. apply (route_same _ G) in K1. clear - K1. induction K1 as [|r q lr lq A _ IH]; constructor; [|exact IH]. apply (renamed_place (alias M (field_tokens f))); [|exact A]. now intros t y ((_ & _ & A0) & _).
  - rewrite Eh in T2. inversion T2 as [|? e1 ? es R1 R2 Q1 Q2]. cbn [one_for_each]. cbn [fst snd] in R1. inversion Uv as [|? ? Uu Uus]. split; [now rewrite <- (Td u Uu)|].
    clear - R2. remember (map (fun t => (t, usual t)) us) as w eqn:Ew. revert us Ew. induction R2 as [|q e w es A R2 IH]; intros [|t us] Ew; try discriminate; constructor; injection Ew as -> ->; auto.
  - rewrite Se, B2. cbn [ers_of e_rules]. eapply letter_same; eassumption.
Qed.
End G.
