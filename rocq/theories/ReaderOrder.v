(** * ReaderOrder: invariants of the reading machine. *)
From Coq Require Import ZArith NArith List Bool String Lia ZifyBool Sorted.
From Verif Require Import PyBase PyFloat Enums Tokenizer Ers Utils Parser SpecNum SpecParser SpecGrammar SpecAccept SpecDiagnosis SpecReader SpecRecovery ReaderFacts AcceptFacts.
Import List ListNotations.
Local Open Scope list_scope.
Local Open Scope Z_scope.

Definition all (s : notes) : list item := n_before s ++ [n_last s].
Definition rec_at (s : notes) (a b : Z) : Prop := Exists (fun i => i_start i = a /\ i_end i = b) (all s).
Definition txt (s : notes) (x : pstr) : Prop := Exists (fun i => exists u v, i_text i = u ++ x ++ v) (all s).

(** ** Nothing noted is lost *)
Record ext (s s' : notes) : Prop := mkExt {
  ext_rec : forall a b, rec_at s a b -> rec_at s' a b;
  ext_txt : forall x, txt s x -> txt s' x;
  ext_rep : exists e, n_reports s' = n_reports s ++ e }.
Lemma ext_refl s : ext s s.
Proof. constructor; auto. exists []. now rewrite app_nil_r. Qed.
Lemma ext_trans a b c : ext a b -> ext b c -> ext a c.
Proof. intros [A1 A2 [x A3]] [B1 B2 [y B3]]. constructor; auto. exists (x ++ y). now rewrite B3, A3, app_assoc. Qed.
Lemma ext_add nm t s : ext s (add_as nm t s).
Proof.
  constructor.
  - intros a b H. unfold rec_at, all in *. cbn [n_before n_last add_as]. apply Exists_app. now left.
  - intros x H. unfold txt, all in *. cbn [n_before n_last add_as]. apply Exists_app. now left.
  - exists []. now rewrite app_nil_r.
Qed.
Lemma ext_report t ms s : ext s (report t ms s).
Proof. constructor; auto. cbn. eauto. Qed.
Definition mild (f : item -> item) : Prop := forall i, i_start (f i) = i_start i /\ i_end (f i) = i_end i /\ exists v, i_text (f i) = i_text i ++ v.
Lemma ext_with f s : mild f -> ext s (with_last f s).
Proof.
  intro M. destruct (M (n_last s)) as (M1 & M2 & v0 & M3). constructor.
  - intros a b H. unfold rec_at, all in *. cbn [n_before n_last with_last]. apply Exists_app in H. apply Exists_app. destruct H as [H|H]; [now left|right].
    apply Exists_cons in H as [[H1 H2]|H]; [|inversion H]. constructor. now rewrite M1, M2.
  - intros x H. unfold txt, all in *. cbn [n_before n_last with_last]. apply Exists_app in H. apply Exists_app. destruct H as [H|H]; [now left|right].
    apply Exists_cons in H as [(u & v & H)|H]; [|inversion H]. constructor. exists u, (v ++ v0). rewrite M3, H, <- !app_assoc. reflexivity.
  - exists []. now rewrite app_nil_r.
Qed.
Lemma mild_nil f : (forall i, i_start (f i) = i_start i /\ i_end (f i) = i_end i /\ i_text (f i) = i_text i) -> mild f.
Proof. intros H i. destruct (H i) as (A & B & C). split; [exact A|]. split; [exact B|]. exists []. now rewrite C, app_nil_r. Qed.
Lemma ext_rules r s : ext s (rules r s). Proof. apply ext_with, mild_nil. intro i. cbn. auto. Qed.
Lemma ext_types a b s : ext s (types a b s). Proof. apply ext_with, mild_nil. intro i. cbn. auto. Qed.
Lemma ext_stays m s : ext s (stays m s). Proof. apply ext_with, mild_nil. intro i. cbn. auto. Qed.
Lemma ext_locates t s : ext s (locates t s). Proof. apply ext_with, mild_nil. intro i. cbn. auto. Qed.
Lemma ext_flies a b s : ext s (with_last (flies a b) s). Proof. apply ext_with, mild_nil. intro i. cbn. auto. Qed.
Lemma ext_texts x s : ext s (texts x s).
Proof. apply ext_with. intro i. cbn. split; [reflexivity|]. split; [reflexivity|]. destruct (i_text i); [exists x|eexists]; reflexivity. Qed.
Lemma ext_point t s : ext s (point t s).
Proof. unfold point. eapply ext_trans; [|apply ext_report]. eapply ext_trans; [|apply ext_locates]. eapply ext_trans; [|apply ext_rules]. apply ext_add. Qed.
Lemma ext_vfr t s : ext s (vfr t s).
Proof. unfold vfr. eapply ext_trans; [|apply ext_rules]. eapply ext_trans; [|apply ext_flies]. eapply ext_trans; [|apply ext_add]. apply ext_flies. Qed.
Lemma ext_speeds t s : ext s (speeds t s).
Proof. unfold speeds. eapply ext_trans; [|apply ext_report]. eapply ext_trans; [|apply ext_rules]. apply ext_with, mild_nil. intro i. destruct (t_base t); cbn; auto. Qed.
Create HintDb ext.
Global Hint Resolve ext_refl ext_add ext_report ext_rules ext_types ext_stays ext_locates ext_flies ext_texts ext_point ext_vfr ext_speeds : ext.
Ltac ext :=
  unfold add;
  match goal with
  | |- ext ?s ?s => apply ext_refl
  | |- ext ?s (report ?t ?m ?x) => apply (ext_trans s x); [ext|apply ext_report]
  | |- ext ?s (rules ?t ?x) => apply (ext_trans s x); [ext|apply ext_rules]
  | |- ext ?s (types ?a ?b ?x) => apply (ext_trans s x); [ext|apply ext_types]
  | |- ext ?s (stays ?a ?x) => apply (ext_trans s x); [ext|apply ext_stays]
  | |- ext ?s (locates ?a ?x) => apply (ext_trans s x); [ext|apply ext_locates]
  | |- ext ?s (texts ?a ?x) => apply (ext_trans s x); [ext|apply ext_texts]
  | |- ext ?s (add_as ?a ?b ?x) => apply (ext_trans s x); [ext|apply ext_add]
  | |- ext ?s (point ?a ?x) => apply (ext_trans s x); [ext|apply ext_point]
  | |- ext ?s (vfr ?a ?x) => apply (ext_trans s x); [ext|apply ext_vfr]
  | |- ext ?s (speeds ?a ?x) => apply (ext_trans s x); [ext|apply ext_speeds]
  | |- _ => idtac
  end.
Definition extr (s : notes) (r : result) : Prop := match r with Goes _ s' _ | Breaks s' => ext s s' end.
Lemma extr_last t k s s0 ts : ext s0 s -> extr s0 (the_last t k s ts).
Proof. intro H. unfold the_last. destruct ts; cbn [extr]; ext; exact H. Qed.
Lemma extr_start t k s s0 ts : ext s0 s -> extr s0 (start t k s ts).
Proof.
  intro H. unfold start. destruct (t_base t); cbn [extr]; try (ext; exact H);
    repeat match goal with |- context [if ?b then _ else _] => destruct b end; cbn [extr]; try (ext; exact H);
    try (apply extr_last; ext; exact H).
  destruct (begins (t_sub t)); ext; exact H.
Qed.
Lemma extr_leave b k s s0 ts : ext s0 s -> extr s0 (leave b k s ts).
Proof. intro H. unfold leave. destruct (resume b ts); [|destruct b|destruct ts]; cbn [extr]; ext; exact H. Qed.
Lemma extr_wrong j t k s ts : extr s (wrong j t k s ts).
Proof. unfold wrong. cbn [extr]. ext. Qed.
Lemma extr_read j t k s ts : extr s (read j t k s ts).
Proof.
  assert (G1 : forall k s', ext s s' -> extr s (start t k s' ts)) by (intros; now apply extr_start).
  destruct j; cbn [read]; try exact (extr_wrong _ _ _ _ _);
    try (destruct (base_eqb (t_base t) F15_TOO_LONG); [cbn [extr]; ext|]; cbv zeta;
         destruct (ends_here (texts (t_text t) s) t); [apply extr_leave; ext|cbn [extr]; ext]);
    try (destruct (suits _ t s); [|first [exact (extr_wrong _ _ _ _ _) | destruct (t_base t); exact (extr_wrong _ _ _ _ _)]]);
    try (apply G1; apply ext_refl); try (cbn [extr]; ext);
    try (destruct (base_eqb (t_base t) F15_SLASH); [cbn [extr]; ext|apply G1; ext]);
    try (destruct (t_base t); try (apply G1; apply ext_refl); try (apply extr_leave; apply ext_refl); cbn [extr]; ext).
  all: destruct ts as [|sl [|sp r]]; [cbn [extr]; ext..|]; destruct (base_eqb (t_base sp) F15_SPEED_VFR); cbn [extr]; ext.
Qed.
Lemma ext_end j s : ext s (at_end j s).
Proof. destruct j; cbn [at_end]; ext. Qed.
Lemma extr_step k s ts : extr s (step1 k s ts).
Proof.
  destruct k as [|j k]; [apply ext_refl|]. destruct j; cbn [step1]; try (cbn [extr]; ext; fail);
    (destruct ts as [|t ts]; [cbn [extr]; apply ext_end|apply extr_read]).
Qed.

(** ** Executions *)
Lemma play_inv (P : list job -> notes -> list token -> Prop) :
  (forall j k s ts k' s' ts', P (j :: k) s ts -> step1 (j :: k) s ts = Goes k' s' ts' -> P k' s' ts') ->
  forall n k s ts q, P k s ts -> play n k s ts = Done q -> exists ts', P [] q ts'.
Proof.
  intro St. induction n as [|n IH]; intros k s ts q H E; destruct k as [|j k]; cbn [play] in E; try (injection E as <-; now exists ts); [discriminate|].
  destruct (step1 (j :: k) s ts) as [k' s' ts'|s'] eqn:E1; [|discriminate]. eapply IH; [|exact E]. eapply St; eauto.
Qed.

(** ** The entries below the top *)
Definition low (j : job) : bool := match j with JWord _ | JText | JTake _ | JClimbSl _ | JAsPoint => true | _ => false end.
Definition lows (k : list job) : bool := forallb low k.
Definition lowt (r : result) : Prop := match r with Goes k _ _ => lows (tl k) = true | Breaks _ => True end.
Lemma lows_tl k : lows k = true -> lows (tl k) = true.
Proof. destruct k; [reflexivity|]. cbn. intro H. now apply andb_true_iff in H. Qed.
Lemma lowt_last t k s ts : lows k = true -> lowt (the_last t k s ts).
Proof. intro H. unfold the_last. destruct ts; cbn [lowt tl]; [now apply lows_tl|exact H]. Qed.
Lemma lowt_start t k s ts : lows k = true -> lowt (start t k s ts).
Proof.
  intro H. unfold start. destruct (t_base t); cbn [lowt tl]; try exact H;
    repeat match goal with |- context [if ?b then _ else _] => destruct b end; cbn [lowt tl]; try exact H; try exact I; now apply lowt_last.
Qed.
Lemma lowt_leave b k s ts : lows k = true -> lowt (leave b k s ts).
Proof.
  intro H. unfold leave. destruct (resume b ts); [|destruct b|destruct ts]; cbn [lowt tl app]; try exact H; now apply lows_tl.
Qed.
Lemma lowt_wrong j t k s ts : lows k = true -> lowt (wrong j t k s ts).
Proof. intro H. exact H. Qed.
Lemma lowt_read j t k s ts : lows k = true -> lowt (read j t k s ts).
Proof.
  intro H.
  destruct j; cbn [read]; try exact H;
    try (destruct (base_eqb (t_base t) F15_TOO_LONG); [exact H|]; cbv zeta;
         destruct (ends_here (texts (t_text t) s) t); [apply lowt_leave; exact H|exact H]);
    try (destruct (suits _ t s); [|first [exact H | destruct (t_base t); exact H]]);
    try (apply lowt_start; exact H); try exact H;
    try (destruct (base_eqb (t_base t) F15_SLASH); [exact H|apply lowt_start; exact H]);
    try (destruct (t_base t); try (apply lowt_start; exact H); try (apply lowt_leave; exact H); exact H).
  destruct ts as [|sl [|sp r]]; [now apply lows_tl..|]. destruct (base_eqb (t_base sp) F15_SPEED_VFR); exact H.
Qed.
Lemma lowt_step k s ts : lows (tl k) = true -> lowt (step1 k s ts).
Proof.
  intro H. destruct k as [|j k]; [exact H|]. cbn [tl] in H. destruct j; cbn [step1]; try exact (lows_tl _ H); try exact H;
    (destruct ts as [|t ts]; [exact (lows_tl _ H)|apply lowt_read; exact H]).
Qed.

(** ** Nothing is skipped *)
Definition handled (s : notes) (t : token) : Prop := rec_at s (t_start t) (t_end t) \/ (exists m, In (t, m) (n_reports s)) \/ txt s (t_text t).
Lemma ext_handled s s' t : ext s s' -> handled s t -> handled s' t.
Proof.
  intros [A B [e C]] [H|[[m H]|H]]; [left; auto|right; left; exists m|right; right; auto]. rewrite C. apply in_or_app. now left.
Qed.
Lemma ext_noisy s s' : ext s s' -> n_reports s <> [] -> n_reports s' <> [].
Proof. intros [_ _ [e C]] H. rewrite C. destruct (n_reports s); [congruence|discriminate]. Qed.
Lemma rec_add nm t s : rec_at (add_as nm t s) (t_start t) (t_end t).
Proof. unfold rec_at, all. cbn [n_before n_last add_as]. apply Exists_app. right. constructor. now split. Qed.
Lemma handled_add nm t s s' : ext (add_as nm t s) s' -> handled s' t.
Proof. intro E. left. apply (ext_rec _ _ E), rec_add. Qed.
Lemma handled_report t m s s' : ext (report t [m] s) s' -> handled s' t.
Proof. intro E. eapply ext_handled; [exact E|]. right. left. exists m. cbn. apply in_or_app. right. now left. Qed.
Lemma handled_texts t s s' : ext (texts (t_text t) s) s' -> handled s' t.
Proof.
  intro E. eapply ext_handled; [exact E|]. right. right. unfold txt, all. apply Exists_app. right. constructor. cbn.
  destruct (i_text (n_last s)) as [|c r] eqn:X; [exists [], []; now rewrite app_nil_r|].
  exists ((c :: r) ++ [32%N]), []. rewrite app_nil_r, <- app_assoc. reflexivity.
Qed.
Lemma handled_point t s s' : ext (point t s) s' -> handled s' t.
Proof. intro E. apply (handled_add (t_text t) t s). eapply ext_trans; [|exact E]. unfold point. ext. Qed.
Lemma handled_vfr t s s' : ext (vfr t s) s' -> handled s' t.
Proof. intro E. eapply (handled_add _ t). eapply ext_trans; [|exact E]. unfold vfr. eapply ext_trans; [|apply ext_rules]. apply ext_flies. Qed.

Fixpoint okk (k : list job) : bool := match k with JWord _ :: ([] as k') => false | _ :: k' => okk k' | [] => true end.
Definition joins (ts : list token) : Prop :=
  exists p sl sp r, ts = p :: sl :: sp :: r /\ t_base sl = F15_SLASH /\ (t_base sp = F15_SPEED_ALTITUDE \/ t_base sp = F15_SPEED_VFR).
Definition joinok (k : list job) (ts : list token) : Prop := match k with JJoin :: _ => joins ts | _ => True end.
Definition synced (k : list job) (s : notes) : Prop := match k with (JSync | JSyncSl _) :: _ => n_reports s <> [] | _ => True end.
Definition good (t : token) (ts : list token) (r : result) : Prop :=
  match r with
  | Breaks _ => True
  | Goes k s ts' => ts' = ts /\ (is_element t = true -> handled s t) /\ okk k = true /\ joinok k ts /\ synced k s /\
      (k = [] -> ts = [] \/ t_base t = F15_BREAK_END /\ n_reports s <> [])
  end.
Lemma joinok_low k ts : lows k = true -> joinok k ts. Proof. destruct k as [|[] k]; cbn; try discriminate; auto. Qed.
Lemma synced_low k s : lows k = true -> synced k s. Proof. destruct k as [|[] k]; cbn; try discriminate; auto. Qed.
Lemma okk_cons j k : okk k = true -> (forall w, j <> JWord w) -> okk (j :: k) = true.
Proof. intros H N. destruct j; try exact H. now destruct (N t). Qed.
Lemma noisy t m s : n_reports (report t [m] s) <> [].
Proof. cbn. destruct (n_reports s); discriminate. Qed.
Lemma good_last t k s ts : lows k = true -> okk k = true -> (forall s', ext s s' -> handled s' t) -> good t ts (the_last t k s ts).
Proof.
  intros A B C. unfold the_last. destruct ts as [|x r]; cbn [good].
  - split; [reflexivity|]. split; [intros _; apply C; ext|]. split; [exact B|]. split; [now apply joinok_low|]. split; [now apply synced_low|]. now left.
  - split; [reflexivity|]. split; [intros _; apply C; ext|]. split; [exact B|]. split; [exact I|]. split; [apply noisy|discriminate].
Qed.
Definition unk (t : token) : bool := match t_base t with F15_UNKNOWN | F15_TOO_LONG => true | _ => false end.
Ltac gd := split; [reflexivity|]; split; [|split; [assumption|split; [exact I|split; [try exact I; try apply noisy|discriminate]]]].
Lemma good_start t k s ts : lows k = true -> okk k = true -> unk t = false -> good t ts (start t k s ts).
Proof.
  intros A B C. unfold unk in C. unfold start. destruct (t_base t) eqn:E; try discriminate C; cbn [good];
    try (gd; unfold is_element; rewrite E; first [discriminate | intros _; first [apply handled_point with s; ext; fail | apply handled_vfr with s; ext; fail | apply (handled_add (t_text t) t s); ext; fail]]; fail);
    try (destruct (only_adep s); cbn [good]; first [gd; intros _; apply (handled_add (t_text t) t s); ext; fail
       | apply good_last; [exact A|exact B|intros s' X; apply (handled_add (t_text t) t s); exact X]]);
    try (apply good_last; [exact A|exact B|intros s' X; apply (handled_add (t_text t) t s); exact X]);
    try (destruct (unconvertible t); cbn [good]; [exact I|]; gd; unfold is_element; rewrite E; discriminate).
  all: try (destruct (only_adep s); gd; unfold is_element; rewrite E; discriminate).
  gd. intros _. apply (handled_add (t_text t) t s). destruct (begins (t_sub t)); ext.
Qed.
Lemma resumes_joins ts : resume KVfr ts = Resumes -> joins ts.
Proof.
  unfold resume. intro H. destruct ts as [|p r]; [discriminate|]. destruct (t_base p); try discriminate.
  destruct r as [|sl r]; [discriminate|]. destruct (t_base sl) eqn:E1; try discriminate. destruct r as [|sp r]; [discriminate|].
  destruct (t_base sp) eqn:E2; try discriminate; exists p, sl, sp, r; auto.
Qed.
Lemma good_leave b t k s ts : lows k = true -> okk k = true -> (is_element t = true -> forall s', ext s s' -> handled s' t) ->
  (k = [] -> t_base t = F15_BREAK_END /\ n_reports s <> []) -> good t ts (leave b k s ts).
Proof.
  intros A B C D. assert (S0 : good t ts (Goes k s ts)).
  { split; [reflexivity|]. split; [intro X; apply (C X); ext|]. split; [exact B|]. split; [now apply joinok_low|]. split; [now apply synced_low|]. intro X. right. auto. }
  unfold leave. destruct (resume b ts) eqn:E; [exact S0| |].
  - destruct b; cbn [app]; (split; [reflexivity|]; split; [intro X; apply (C X); ext|]; split; [exact B|]; split; [|split; [exact I|discriminate]]); try exact I.
    now apply resumes_joins.
  - destruct ts as [|p r]; [exact S0|]. gd. intro X. apply (C X). ext.
Qed.
Lemma good_wrong j t k s ts : okk k = true -> good t ts (wrong j t k s ts).
Proof. intro B. unfold wrong. gd. intros _. eapply handled_report. apply ext_refl. Qed.
Lemma fits_unk p t : fits p t = true -> match p with PClimb _ | PJoin _ => False | _ => True end -> unk t = false.
Proof. unfold fits, unk. intros H N. destruct p, (t_base t); try discriminate H; try reflexivity; contradiction. Qed.
Lemma suits_unk j t s : suits j t s = true -> match j with JClimb _ _ => False | _ => True end -> unk t = false.
Proof.
  unfold suits. intros H N. apply orb_true_iff in H as [H|H].
  - apply (fits_unk _ _ H). destruct j; cbn; auto.
  - unfold unk. destruct j; try discriminate H; destruct (t_base t); try discriminate H; reflexivity.
Qed.
Lemma good_read j t k s ts : j <> JJoin -> (forall w, j <> JWord w) -> (forall w, j <> JTake w) -> lows k = true -> okk k = true ->
  (match j with JSync | JSyncSl _ => n_reports s <> [] | _ => True end) -> good t ts (read j t k s ts).
Proof.
  intros NJ NW NT A B S0.
  assert (TL : base_eqb (t_base t) F15_TOO_LONG = false -> forall b, good t ts (leave b (JText :: k) (texts (t_text t) s) ts)).
  { intros _ b. apply good_leave; [exact A|exact B| |discriminate]. intros _ s' X. apply (handled_texts t s). exact X. }
  assert (TX : good t ts (Goes (JText :: k) (texts (t_text t) s) ts)).
  { gd. intros _. apply (handled_texts t s). ext. }
  destruct j; try congruence; cbn [read]; try (now destruct (NW t0)); try (now destruct (NT t0));
    try (apply good_wrong; exact B);
    try (destruct (base_eqb (t_base t) F15_TOO_LONG) eqn:E; [|cbv zeta; destruct (ends_here (texts (t_text t) s) t); [now apply TL|exact TX]]);
    try (gd; intros _; first [apply (handled_report t 4 s); ext; fail | apply (handled_point t s); ext; fail]);
    try (destruct (suits _ t s) eqn:E; [apply suits_unk in E as U; [|exact I]|destruct (t_base t); apply good_wrong; exact B]);
    try (apply good_start; assumption).
  - (* after a point *)
    destruct (base_eqb (t_base t) F15_SLASH) eqn:E1; [|now apply good_start]. gd. apply base_eqb_eq in E1. unfold is_element. rewrite E1. discriminate.
  - (* after C *)
    destruct (base_eqb (t_base t) F15_SLASH) eqn:E1; [|now apply good_start]. gd. apply base_eqb_eq in E1. unfold is_element. rewrite E1. discriminate.
  - (* after C / *)
    destruct (suits _ t s); [|now apply good_wrong]. gd. intros _. apply (handled_add (t_text t) t s). ext.
  - gd. unfold suits in E. cbn [spot fits] in E. unfold is_element. destruct (t_base t); discriminate.
  - gd. unfold suits in E. cbn [spot fits] in E. unfold is_element. destruct (t_base t); discriminate.
  - gd. unfold suits in E. cbn [spot fits] in E. unfold is_element. destruct (t_base t); discriminate.
  - (* after an error *)
    assert (R : forall m, good t ts (Goes (JSync :: k) (report t [m] s) ts)) by (intro m; gd; intros _; apply (handled_report t m s); ext).
    assert (St : unk t = false -> good t ts (start t k s ts)) by (intro; now apply good_start). unfold unk in St.
    destruct (t_base t) eqn:E; try (apply St; reflexivity); try apply R.
    + split; [reflexivity|]. split; [unfold is_element; rewrite E; discriminate|]. split; [exact B|]. split; [exact I|]. split; [exact S0|discriminate].
    + apply good_leave; [exact A|exact B| |auto]. unfold is_element. rewrite E. discriminate.
  - assert (R : good t ts (Goes (JSync :: k) (report t [11] s) ts)) by (gd; intros _; apply (handled_report t 11 s); ext).
    assert (St : unk t = false -> good t ts (start t k s ts)) by (intro; now apply good_start). unfold unk in St.
    destruct (t_base t) eqn:E; try (apply St; reflexivity); exact R.
Qed.

(** The tokens read so far. *)
Definition V (L : list token) (k : list job) (s : notes) (ts : list token) : Prop :=
  lows (tl k) = true /\ okk k = true /\ joinok k ts /\ synced k s /\
  exists d, L = d ++ ts /\ Forall (fun t => is_element t = true -> handled s t) d /\
    (k = [] -> ts = [] \/ exists d' t, d = d' ++ [t] /\ t_base t = F15_BREAK_END /\ n_reports s <> []).
Lemma handled_all s s' d : ext s s' -> Forall (fun t => is_element t = true -> handled s t) d -> Forall (fun t => is_element t = true -> handled s' t) d.
Proof. intros E H. eapply Forall_impl; [|exact H]. cbn. intros t X Y. eapply ext_handled; eauto. Qed.
Lemma okk_tl j k : okk (j :: k) = true -> okk k = true.
Proof. destruct j; try (intro H; exact H). destruct k; [discriminate|]. intro H. exact H. Qed.
Lemma V_read L j t k s ts k' s' ts' : V L (j :: k) s (t :: ts) -> j <> JJoin -> (forall w, j <> JWord w) -> (forall w, j <> JTake w) ->
  read j t k s ts = Goes k' s' ts' -> V L k' s' ts'.
Proof.
  intros (H1 & H2 & H3 & H4 & d & D1 & D2 & D3) N1 N2 N3 E. cbn [tl] in H1. pose proof (okk_tl _ _ H2) as H2'.
  assert (G1 : good t ts (read j t k s ts)) by (apply good_read; auto; destruct j; auto).
  pose proof (lowt_read j t k s ts H1) as Lw. pose proof (extr_read j t k s ts) as Ex. rewrite E in G1, Lw, Ex. cbn [lowt extr] in Lw, Ex.
  destruct G1 as (-> & G1 & G2 & G3 & G4 & G5). split; [exact Lw|]. split; [exact G2|]. split; [exact G3|]. split; [exact G4|].
  exists (d ++ [t]). split; [now rewrite <- app_assoc|]. split.
  - apply Forall_app. split; [exact (handled_all _ _ _ Ex D2)|]. constructor; [exact G1|constructor].
  - intro X. destruct (G5 X) as [Y|[Y Z]]; [now left|]. right. now exists d, t.
Qed.
Lemma V_join L t k s ts k' s' ts' : V L (JJoin :: k) s (t :: ts) -> read JJoin t k s ts = Goes k' s' ts' -> V L k' s' ts'.
Proof.
  intros (H1 & H2 & H3 & H4 & d & D1 & D2 & D3) E. pose proof (lowt_read JJoin t k s ts H1) as Lw. pose proof (extr_read JJoin t k s ts) as Ex.
  rewrite E in Lw, Ex. cbn [lowt extr] in Lw, Ex. destruct H3 as (p & sl & sp & r & X & X1 & X2). injection X as <- ->. cbn [read] in E.
  assert (K : exists j, k' = j :: k /\ (j = JText \/ j = JPoint) /\ ts' = r /\ handled s' t /\ (is_element sp = true -> handled s' sp)).
  { unfold is_element. destruct X2 as [X2|X2]; rewrite X2 in *; cbn [base_eqb] in E; injection E as <- <- <-.
    - exists JPoint. split; [reflexivity|]. split; [now right|]. split; [reflexivity|]. split; [apply (handled_point t s); ext|discriminate].
    - exists JText. split; [reflexivity|]. split; [now left|]. split; [reflexivity|]. split; [apply (handled_add (t_text t) t s); ext|]. intros _. eapply handled_vfr. apply ext_refl. }
  destruct K as (j & -> & Kj & -> & K1 & K2). split; [exact Lw|]. split; [destruct Kj as [ -> | -> ]; exact H2|]. split; [destruct Kj as [ -> | -> ]; exact I|]. split; [destruct Kj as [ -> | -> ]; exact I|].
  exists (d ++ [t; sl; sp]). split; [now rewrite <- app_assoc|]. split; [|discriminate].
  apply Forall_app. split; [exact (handled_all _ _ _ Ex D2)|]. constructor; [auto|]. constructor; [unfold is_element; rewrite X1; discriminate|]. constructor; [exact K2|constructor].
Qed.
Lemma V_step L j k s ts k' s' ts' : V L (j :: k) s ts -> step1 (j :: k) s ts = Goes k' s' ts' -> V L k' s' ts'.
Proof.
  intros H E. pose proof (extr_step (j :: k) s ts) as Ex. pose proof (lowt_step (j :: k) s ts (proj1 H)) as Lw. rewrite E in Ex, Lw. cbn [extr lowt] in Ex, Lw.
  pose proof H as (H1 & H2 & H3 & H4 & d & D1 & D2 & D3). cbn [tl] in H1. pose proof (okk_tl _ _ H2) as H2'.
  assert (At : ts = [] -> Goes k (at_end j s) [] = Goes k' s' ts' -> V L k' s' ts').
  { intros -> X. injection X as <- <- <-. split; [exact Lw|]. split; [exact H2'|]. split; [now apply joinok_low|]. split; [now apply synced_low|].
    exists d. split; [exact D1|]. split; [exact (handled_all _ _ _ Ex D2)|]. now left. }
  destruct j; cbn [step1] in E;
    try (destruct ts as [|t0 ts]; [exact (At eq_refl E)|]; first [eapply V_join; [exact H|exact E] | eapply V_read; [exact H|discriminate|discriminate|discriminate|exact E]]).
  - injection E as <- <- <-. split; [exact Lw|]. split; [exact H2'|]. split; [now apply joinok_low|]. split; [now apply synced_low|].
    exists d. split; [exact D1|]. split; [exact (handled_all _ _ _ Ex D2)|]. intros ->. discriminate H2.
  - injection E as <- <- <-. split; [exact Lw|]. split; [exact H2'|]. split; [exact I|]. split; [exact I|].
    exists d. split; [exact D1|]. split; [exact (handled_all _ _ _ Ex D2)|]. discriminate.
Qed.
Lemma read_covers L q : begin L = Done q ->
  exists d r, L = d ++ r /\ Forall (fun t => is_element t = true -> handled q t) d /\
    (r = [] \/ exists d' t, d = d' ++ [t] /\ t_base t = F15_BREAK_END /\ n_reports q <> []).
Proof.
  intro H. assert (K : exists ts', V L [] q ts').
  { unfold begin in H. destruct L as [|t r]; [injection H as <-; exists []; repeat split; exists []; repeat split; auto|].
    assert (P : forall k s ts, V (t :: r) k s ts -> play (patience (t :: r)) k s ts = Done q -> exists ts', V (t :: r) [] q ts')
      by (intros k s ts; apply play_inv; intros j k1 s1 ts1 k2 s2 ts2; apply V_step).
    assert (Er : play (patience (t :: r)) [JSync] (report t [1] blank_notes) r = Done q -> exists ts', V (t :: r) [] q ts').
    { apply P. split; [reflexivity|]. split; [reflexivity|]. split; [exact I|]. split; [apply noisy|].
      exists [t]. split; [reflexivity|]. split; [|discriminate]. constructor; [|constructor]. intros _. apply (handled_report t 1 blank_notes). ext. }
    assert (St : unk t = false -> match start t [] blank_notes r with Goes k s ts' => play (patience (t :: r)) k s ts' | Breaks s => Broken s end = Done q ->
      exists ts', V (t :: r) [] q ts').
    { intros U. pose proof (good_start t [] blank_notes r eq_refl eq_refl U) as G1. pose proof (lowt_start t [] blank_notes r eq_refl) as Lw.
      destruct (start t [] blank_notes r) as [k s ts'|s]; [|discriminate]. destruct G1 as (-> & G1 & G2 & G3 & G4 & G5). apply P.
      split; [exact Lw|]. split; [exact G2|]. split; [exact G3|]. split; [exact G4|]. exists [t]. split; [reflexivity|]. split; [constructor; [exact G1|constructor]|].
      intro X. destruct (G5 X) as [Y|[Y Z]]; [now left|]. right. now exists [], t. }
    unfold unk in St. destruct (t_base t); try (exact (Er H)); exact (St eq_refl H). }
  destruct K as (ts' & _ & _ & _ & _ & d & D1 & D2 & D3). exists d, ts'. split; [exact D1|]. split; [exact D2|]. exact (D3 eq_refl).
Qed.

(** ** Order of the records *)
Inductive sub : list Z -> list Z -> Prop :=
| sub_nil : sub [] []
| sub_skip x a b : sub a b -> sub a (x :: b)
| sub_keep x a b : sub a b -> sub (x :: a) (x :: b).
Lemma sub_refl a : sub a a. Proof. induction a; constructor; assumption. Qed.
Lemma sub_app c a b : sub a b -> sub (c ++ a) (c ++ b).
Proof. intro H. induction c; [exact H|]. cbn [app]. now constructor. Qed.
Lemma sub_in a b x : sub a b -> In x a -> In x b.
Proof. intro H. induction H; cbn; intuition. Qed.
Lemma sub_sorted a b : sub a b -> StronglySorted Z.lt b -> StronglySorted Z.lt a.
Proof.
  intro H. induction H; intro S0; [exact S0| |]; apply StronglySorted_inv in S0 as [S1 S2]; auto.
  constructor; [auto|]. rewrite Forall_forall in *. intros y Y. apply S2. now apply (sub_in a b).
Qed.

Definition places (s : notes) : list Z := match n_before s with [] => [] | _ :: r => map i_start (r ++ [n_last s]) end.
Lemma places_add nm t s : places (add_as nm t s) = places s ++ [t_start t].
Proof. unfold places, add_as. cbn [n_before n_last]. destruct (n_before s) as [|a r]; [reflexivity|]. cbn [app]. rewrite map_app. reflexivity. Qed.
Lemma places_with f s : (forall i, i_start (f i) = i_start i) -> places (with_last f s) = places s.
Proof. intro H. unfold places, with_last. cbn [n_before n_last]. destruct (n_before s) as [|a r]; [reflexivity|]. rewrite !map_app. cbn [map]. now rewrite H. Qed.
Lemma places_report t ms s : places (report t ms s) = places s. Proof. reflexivity. Qed.
Lemma places_rules r s : places (rules r s) = places s. Proof. now apply places_with. Qed.
Lemma places_types a b s : places (types a b s) = places s. Proof. now apply places_with. Qed.
Lemma places_stays m s : places (stays m s) = places s. Proof. now apply places_with. Qed.
Lemma places_locates t s : places (locates t s) = places s. Proof. now apply places_with. Qed.
Lemma places_texts m s : places (texts m s) = places s. Proof. now apply places_with. Qed.
Lemma places_flies a b s : places (with_last (flies a b) s) = places s. Proof. now apply places_with. Qed.
Lemma places_point t s : places (point t s) = places s ++ [t_start t].
Proof. unfold point, add. now rewrite places_report, places_locates, places_rules, places_add. Qed.
Lemma places_vfr t s : places (vfr t s) = places s ++ [t_start t].
Proof. unfold vfr. now rewrite places_rules, places_flies, places_add, places_flies. Qed.
Lemma places_speeds t s : places (speeds t s) = places s.
Proof. unfold speeds. rewrite places_report, places_rules. apply places_with. intro i. destruct (t_base t); reflexivity. Qed.
Ltac plc := unfold add; repeat rewrite ?places_report, ?places_rules, ?places_types, ?places_stays, ?places_locates, ?places_texts, ?places_point, ?places_vfr, ?places_speeds, ?places_add.

(** Tokens held back for a record. *)
Definition pend (k : list job) : list token := match k with (JC c | JClimb c _) :: _ => [c] | _ => [] end.
Definition line (k : list job) (s : notes) (ts : list token) : list Z := places s ++ map t_start (pend k) ++ map t_start ts.
Lemma pend_low k : lows k = true -> pend k = []. Proof. destruct k as [|[] k]; cbn; try discriminate; auto. Qed.
Definition has (m : Z) (s : notes) : bool := existsb (fun q => snd q =? m) (n_reports s).
Lemma ext_has m s s' : ext s s' -> has m s = true -> has m s' = true.
Proof. intros [_ _ [e E]] H. unfold has in *. rewrite E, existsb_app, H. reflexivity. Qed.
Definition subr (r : result) (l : list Z) : Prop := match r with Goes k s ts => has 48 s = true \/ sub (line k s ts) l | Breaks _ => True end.
Ltac sb := right; unfold line; cbn [pend map]; plc; rewrite <- ?app_assoc; apply sub_app; cbn [app map]; repeat first [apply sub_refl | apply sub_keep | apply sub_skip].
Lemma subr_last t k s ts : lows k = true -> subr (the_last t k s ts) (places s ++ map t_start ts).
Proof.
  intro A. unfold the_last. destruct ts as [|x r]; cbn [subr].
  - right. unfold line. rewrite (pend_low k A). plc. apply sub_refl.
  - sb.
Qed.
Lemma subr_start t k s ts : lows k = true -> subr (start t k s ts) (places s ++ t_start t :: map t_start ts).
Proof.
  intro A. assert (Last : subr (the_last t k (add t s) ts) (places s ++ t_start t :: map t_start ts)).
  { pose proof (subr_last t k (add t s) ts A) as H. unfold add in H. rewrite places_add, <- app_assoc in H. exact H. }
  unfold start. destruct (t_base t); cbn [subr]; try (sb; fail);
    repeat match goal with |- context [if ?b then _ else _] => destruct b end; cbn [subr]; try (sb; fail); try exact I; try exact Last.
  destruct (begins (t_sub t)); sb.
Qed.
Lemma subr_leave b k s ts : lows k = true -> subr (leave b k s ts) (places s ++ map t_start ts).
Proof.
  intro A. assert (G0 : subr (Goes k s ts) (places s ++ map t_start ts)) by (right; unfold line; rewrite (pend_low k A); apply sub_refl).
  unfold leave. destruct (resume b ts); [exact G0|destruct b; cbn [app subr]; sb|destruct ts as [|x r]; [exact G0|cbn [subr]; sb]].
Qed.
Lemma skips r l a z : subr r (a ++ z) -> subr r (a ++ l :: z).
Proof.
  destruct r as [k s ts|s]; cbn [subr]; [|auto]. intros [H|H]; [now left|right]. revert H. generalize (line k s ts). induction a as [|y a IH]; intros w H; [now constructor|].
  cbn [app] in *. inversion H; subst; [apply sub_skip|apply sub_keep]; auto.
Qed.
Lemma subr_wrong j t k s ts : subr (wrong j t k s ts) (places s ++ t_start t :: map t_start ts).
Proof. unfold wrong. cbn [subr]. sb. Qed.
Lemma subr_read j t k s ts : (match j with JTake _ | JWord _ => False | _ => True end) -> lows k = true -> subr (read j t k s ts) (line (j :: k) s (t :: ts)).
Proof.
  intros N A. unfold line. cbn [map].
  assert (W : forall j' k', subr (wrong j' t k' s ts) (places s ++ t_start t :: map t_start ts)) by (intros; apply subr_wrong).
  assert (Lv : forall b k' s', places s' = places s -> lows k' = true -> subr (leave b k' s' ts) (places s ++ t_start t :: map t_start ts)) by (intros b k' s' <- X; apply skips, subr_leave, X).
  assert (St : forall k', lows k' = true -> subr (start t k' s ts) (places s ++ t_start t :: map t_start ts)) by (intros; now apply subr_start).
  destruct j; cbn [pend app map]; cbn [read]; try contradiction; try apply W;
    try (destruct (base_eqb (t_base t) F15_TOO_LONG); [cbn [subr]; sb; fail|]; cbv zeta;
         destruct (ends_here (texts (t_text t) s) t); [apply Lv; [apply places_texts|exact A]|cbn [subr]; sb]);
    try (destruct (suits _ t s); [|first [apply W | apply skips, W | destruct (t_base t); apply W]]);
    try (apply St; exact A); try (cbn [subr]; sb; fail);
    try (destruct (base_eqb (t_base t) F15_SLASH); [cbn [subr]; sb; fail|first [apply St; exact A | replace (places s ++ t_start c :: t_start t :: map t_start ts) with (places (add c s) ++ t_start t :: map t_start ts) by (unfold add; now rewrite places_add, <- app_assoc); apply subr_start; exact A]]);
    try (destruct (t_base t); try (apply St; exact A); try (apply Lv; [reflexivity|exact A]); cbn [subr]; sb; fail).
  destruct ts as [|sl [|sp r]]; [cbn [subr]; right; unfold line; rewrite (pend_low k A); apply sub_app; cbn [app map]; repeat first [apply sub_refl | apply sub_keep | apply sub_skip]..|].
  destruct (base_eqb (t_base sp) F15_SPEED_VFR); cbn [subr]; sb.
Qed.
(** A point is put aside only with message 48. *)
Definition taking (k : list job) : bool := existsb (fun j => match j with JTake _ => true | _ => false end) k.
Definition taken (k : list job) (r : result) : Prop := match r with Goes k' s _ => taking k' = true -> taking k = true \/ has 48 s = true | Breaks _ => True end.
Lemma taken_last t k s ts : taken k (the_last t k s ts). Proof. unfold the_last. destruct ts; cbn; auto. Qed.
Lemma taken_start t k s ts : taken k (start t k s ts).
Proof.
  pose proof (taken_last t k (add t s) ts).
  unfold start. destruct (t_base t); cbn [taken]; try (cbn; auto; fail);
    repeat match goal with |- context [if ?b then _ else _] => destruct b end; cbn [taken]; try (cbn; auto; fail); exact H.
Qed.
Lemma taken_leave b k s ts : taken k (leave b k s ts).
Proof. unfold leave. destruct (resume b ts); [|destruct b|destruct ts]; cbn; auto. Qed.
Lemma taken_more j k r : taken k r -> taken (j :: k) r.
Proof. destruct r; cbn [taken]; [|auto]. intros H X. destruct (H X) as [Y|Y]; [left|right; exact Y]. unfold taking in *. cbn [existsb]. rewrite Y. apply orb_true_r. Qed.
Lemma has_report m t s : has m (report t [m] s) = true.
Proof. unfold has. cbn. rewrite existsb_app. cbn. rewrite Z.eqb_refl. apply orb_true_r. Qed.
Lemma taken_read j t k s ts : taken (j :: k) (read j t k s ts).
Proof.
  assert (W : forall j', taken k (wrong j' t k s ts)) by (intro; cbn; auto).
  assert (Rt : taken (JRoute :: k) (match t_base t with F15_POINT => wrong JRoute t (JTake t :: k) s ts | _ => wrong JRoute t k s ts end)).
  { destruct (t_base t) eqn:E; try (cbn; auto; fail). unfold wrong. cbn [spot taken]. unfold misplaced. rewrite E. intros _. right. apply has_report. }
  destruct j; try (destruct (suits JRoute t s) eqn:E; [cbn [read]; rewrite E; apply taken_more, taken_start|cbn [read]; rewrite E; exact Rt]); apply taken_more; cbn [read]; try apply W;
    try (destruct (base_eqb (t_base t) F15_TOO_LONG); [cbn; auto; fail|]; cbv zeta;
         destruct (ends_here (texts (t_text t) s) t); [exact (taken_leave _ _ _ _)|cbn; auto]);
    try (destruct (suits _ t s); [|first [apply W | destruct (t_base t); first [apply W | cbn; auto; fail]]]);
    try apply taken_start; try (cbn; auto; fail);
    try (destruct (base_eqb (t_base t) F15_SLASH); [cbn; auto; fail|apply taken_start]);
    try (destruct (t_base t); try apply taken_start; try apply taken_leave; cbn; auto; fail).
  - exact (taken_start t (JAsPoint :: k) s ts).
  - destruct ts as [|sl [|sp r]]; [cbn; auto..|]. destruct (base_eqb (t_base sp) F15_SPEED_VFR); cbn; auto.
Qed.
Definition O (k : list job) (s : notes) (ts : list token) : Prop :=
  lows (tl k) = true /\ (taking k = true -> has 48 s = true) /\ (has 48 s = true \/ StronglySorted Z.lt (line k s ts)).
Lemma O_step j k s ts k' s' ts' : O (j :: k) s ts -> step1 (j :: k) s ts = Goes k' s' ts' -> O k' s' ts'.
Proof.
  intros (H1 & H2 & H3) E. pose proof (extr_step (j :: k) s ts) as Ex. pose proof (lowt_step (j :: k) s ts H1) as Lw. rewrite E in Ex, Lw. cbn [extr lowt] in Ex, Lw.
  cbn [tl] in H1.
  assert (Td : has 48 s = true -> O k' s' ts') by (intro X; pose proof (ext_has 48 _ _ Ex X); split; [exact Lw|]; split; auto).
  destruct H3 as [H3|H3]; [exact (Td H3)|].
  destruct (taking (j :: k)) eqn:Tk; [exact (Td (H2 eq_refl))|].
  assert (Tk' : taking k = false) by (unfold taking in *; cbn [existsb] in Tk; now apply orb_false_iff in Tk).
  assert (At : ts = [] -> Goes k (at_end j s) [] = Goes k' s' ts' -> O k' s' ts').
  { intros -> X. injection X as <- <- <-. split; [exact Lw|]. split; [rewrite Tk'; discriminate|]. right. revert H3. apply sub_sorted. unfold line. rewrite (pend_low k H1).
    destruct j; cbn [at_end pend map]; plc; rewrite <- ?app_assoc; apply sub_app; cbn [app]; repeat first [apply sub_refl | apply sub_keep | apply sub_skip]. }
  assert (Rd : forall t r, ts = t :: r -> (match j with JTake _ | JWord _ => False | _ => True end) -> read j t k s r = Goes k' s' ts' -> O k' s' ts').
  { intros t r -> N X. pose proof (subr_read j t k s r N H1) as Y. pose proof (taken_read j t k s r) as Z0. rewrite X in Y, Z0. cbn [subr taken] in Y, Z0. rewrite Tk in Z0.
    split; [exact Lw|]. split; [intro T; destruct (Z0 T) as [U|U]; [discriminate|exact U]|]. destruct Y as [Y|Y]; [now left|right]. exact (sub_sorted _ _ Y H3). }
  destruct j; cbn [step1] in E; try (destruct ts as [|t0 ts]; [exact (At eq_refl E)|exact (Rd _ _ eq_refl I E)]).
  - injection E as <- <- <-. split; [exact Lw|]. split; [rewrite Tk'; discriminate|]. right. revert H3. apply sub_sorted. unfold line. rewrite (pend_low k H1). plc. apply sub_refl.
  - discriminate Tk.
Qed.
Lemma read_in_order L q : StronglySorted Z.lt (map t_start L) -> begin L = Done q -> has 48 q = true \/ StronglySorted Z.lt (places q).
Proof.
  intros SL H. assert (K : exists ts', O [] q ts').
  { unfold begin in H. destruct L as [|t r]; [injection H as <-; exists []; repeat split; auto; right; constructor|].
    assert (P : forall k s ts, O k s ts -> play (patience (t :: r)) k s ts = Done q -> exists ts', O [] q ts')
      by (intros k s ts; apply play_inv; intros j k1 s1 ts1 k2 s2 ts2; apply O_step).
    assert (Er : play (patience (t :: r)) [JSync] (report t [1] blank_notes) r = Done q -> exists ts', O [] q ts').
    { apply P. split; [reflexivity|]. split; [discriminate|]. right. cbn [map] in SL. now apply StronglySorted_inv in SL. }
    assert (St : match start t [] blank_notes r with Goes k s ts' => play (patience (t :: r)) k s ts' | Breaks s => Broken s end = Done q -> exists ts', O [] q ts').
    { pose proof (subr_start t [] blank_notes r eq_refl) as G1. pose proof (lowt_start t [] blank_notes r eq_refl) as Lw. pose proof (taken_start t [] blank_notes r) as Tk.
      destruct (start t [] blank_notes r) as [k s ts'|s]; [|discriminate]. apply P. cbn [subr lowt taken] in *.
      split; [exact Lw|]. split; [intro X; destruct (Tk X) as [Y|Y]; [discriminate Y|exact Y]|]. destruct G1 as [G1|G1]; [now left|right]. exact (sub_sorted _ _ G1 SL). }
    destruct (t_base t); try (exact (Er H)); exact (St H). }
  destruct K as (ts' & _ & _ & [K|K]); [now left|right]. unfold line in K. cbn [pend map app] in K. revert K. apply sub_sorted. clear. 
  assert (G1 : forall a b, sub a (a ++ b)) by (intros a b; induction a; cbn [app]; [induction b; constructor; assumption|now apply sub_keep]). apply G1.
Qed.

(** ** Order of the reports *)
Inductive wk : list Z -> list Z -> Prop :=
| wk_nil : wk [] []
| wk_skip x a b : wk a b -> wk a (x :: b)
| wk_take x a b : wk a (x :: b) -> wk (x :: a) (x :: b).
Lemma wk_refl a : wk a a. Proof. induction a; [constructor|]. apply wk_take, wk_skip, IHa. Qed.
Lemma wk_app c a b : wk a b -> wk (c ++ a) (c ++ b).
Proof. intro H. induction c; [exact H|]. cbn [app]. apply wk_take, wk_skip, IHc. Qed.
Lemma wk_in a b x : wk a b -> In x a -> In x b.
Proof. intro H. induction H; cbn [In] in *; intuition. Qed.
Lemma wk_sorted a b : wk a b -> StronglySorted Z.le b -> StronglySorted Z.le a.
Proof.
  intro H. induction H; intro S0; [exact S0|apply StronglySorted_inv in S0 as [S1 S2]; auto|]. constructor; [auto|].
  apply StronglySorted_inv in S0 as [S1 S2]. rewrite Forall_forall in *. intros y Y. apply (wk_in _ _ _ H) in Y. destruct Y as [Y|Y]; [subst; lia|now apply S2].
Qed.
Lemma wk_many {A} (ms : list A) x a b : wk a (x :: b) -> wk (map (fun _ => x) ms ++ a) (x :: b).
Proof. intro H. induction ms; [exact H|]. cbn [map app]. now apply wk_take. Qed.
Lemma wk_mid x a z : forall w, wk w (a ++ z) -> wk w (a ++ x :: z).
Proof.
  induction a as [|y a IH]; intros w H; [now apply wk_skip|]. cbn [app] in *.
  remember (y :: a ++ z) as l eqn:E. induction H; [discriminate| |]; injection E as -> ->.
  - apply wk_skip. auto.
  - apply wk_take. auto.
Qed.

Definition errs (s : notes) : list Z := map (fun q => t_start (fst q)) (n_reports s).
Lemma errs_report t ms s : errs (report t ms s) = errs s ++ map (fun _ => t_start t) ms.
Proof. unfold errs. cbn [n_reports report]. rewrite map_app, map_map. reflexivity. Qed.
Lemma errs_with f s : errs (with_last f s) = errs s. Proof. reflexivity. Qed.
Lemma errs_add nm t s : errs (add_as nm t s) = errs s. Proof. reflexivity. Qed.
Lemma errs_rules r s : errs (rules r s) = errs s. Proof. reflexivity. Qed.
Lemma errs_types a b s : errs (types a b s) = errs s. Proof. reflexivity. Qed.
Lemma errs_stays r s : errs (stays r s) = errs s. Proof. reflexivity. Qed.
Lemma errs_locates t s : errs (locates t s) = errs s. Proof. reflexivity. Qed.
Lemma errs_texts r s : errs (texts r s) = errs s. Proof. reflexivity. Qed.
Lemma errs_point t s : errs (point t s) = errs s ++ map (fun _ => t_start t) (angle_faults t).
Proof. unfold point. now rewrite errs_report. Qed.
Lemma errs_vfr t s : errs (vfr t s) = errs s. Proof. reflexivity. Qed.
Lemma errs_speeds t s : errs (speeds t s) = errs s ++ map (fun _ => t_start t) (level_faults t).
Proof. unfold speeds. now rewrite errs_report. Qed.
Ltac ers := unfold add; repeat rewrite ?errs_report, ?errs_rules, ?errs_types, ?errs_stays, ?errs_locates, ?errs_texts, ?errs_point, ?errs_vfr, ?errs_speeds, ?errs_add.
Definition hold (k : list job) : list token :=
  match k with (JSlash x | JSyncSl x | JStayTok x | JStaySl x | JClimbPt x | JClimb _ x) :: _ => [x] | _ => [] end.
Definition queue (k : list job) (s : notes) (ts : list token) : list Z := errs s ++ map t_start (hold k) ++ map t_start ts.
Lemma hold_low k : lows k = true -> hold k = []. Proof. destruct k as [|[] k]; cbn; try discriminate; auto. Qed.
Definition late (s : notes) : bool := has 48 s || has 28 s.
Lemma ext_late s s' : ext s s' -> late s = true -> late s' = true.
Proof. intros E H. unfold late in *. apply orb_true_iff in H as [H|H]; rewrite (ext_has _ _ _ E H); [reflexivity|apply orb_true_r]. Qed.
Definition wkr (r : result) (l : list Z) : Prop := match r with Goes k s ts => late s = true \/ wk (queue k s ts) l | Breaks _ => True end.
Ltac wks := repeat first [apply wk_refl | apply wk_many | apply wk_take; wks; fail | apply wk_skip].
Ltac wb := right; unfold queue; cbn [hold map]; ers; rewrite <- ?app_assoc; apply wk_app; cbn [app map]; wks.
Lemma wkr_last t k s ts : lows k = true -> wkr (the_last t k s ts) (errs s ++ map t_start ts).
Proof.
  intro A. unfold the_last. destruct ts as [|x r]; cbn [wkr].
  - right. unfold queue. rewrite (hold_low k A). ers. apply wk_refl.
  - wb.
Qed.
Lemma wkips r l a z : wkr r (a ++ z) -> wkr r (a ++ l :: z).
Proof. destruct r as [k s ts|s]; cbn [wkr]; [|auto]. intros [H|H]; [now left|right]. now apply wk_mid. Qed.
Lemma wkr_start t k s ts : lows k = true -> wkr (start t k s ts) (errs s ++ t_start t :: map t_start ts).
Proof.
  intro A. assert (Last : wkr (the_last t k (add t s) ts) (errs s ++ t_start t :: map t_start ts)) by (apply wkips; exact (wkr_last t k (add t s) ts A)).
  unfold start. destruct (t_base t); cbn [wkr]; try (wb; fail);
    repeat match goal with |- context [if ?b then _ else _] => destruct b end; cbn [wkr]; try (wb; fail); try exact I; try exact Last.
  destruct (begins (t_sub t)); wb.
Qed.
Lemma wkr_leave b k s ts : lows k = true -> wkr (leave b k s ts) (errs s ++ map t_start ts).
Proof.
  intro A. assert (G0 : wkr (Goes k s ts) (errs s ++ map t_start ts)) by (right; unfold queue; rewrite (hold_low k A); apply wk_refl).
  unfold leave. destruct (resume b ts); [exact G0|destruct b; cbn [app wkr]; wb|destruct ts as [|x r]; [exact G0|cbn [wkr]; wb]].
Qed.
Lemma wkr_wrong j t k s ts : wkr (wrong j t k s ts) (errs s ++ t_start t :: map t_start ts).
Proof. unfold wrong. cbn [wkr]. wb. Qed.
Lemma wkr_read j t k s ts : (match j with JTake _ | JWord _ => False | _ => True end) -> lows k = true -> wkr (read j t k s ts) (queue (j :: k) s (t :: ts)).
Proof.
  intros N A. unfold queue. cbn [map].
  assert (W : forall j' k', wkr (wrong j' t k' s ts) (errs s ++ t_start t :: map t_start ts)) by (intros; apply wkr_wrong).
  assert (Lv : forall b k' s', errs s' = errs s -> lows k' = true -> wkr (leave b k' s' ts) (errs s ++ t_start t :: map t_start ts)) by (intros b k' s' <- X; apply wkips, wkr_leave, X).
  assert (St : forall k', lows k' = true -> wkr (start t k' s ts) (errs s ++ t_start t :: map t_start ts)) by (intros; now apply wkr_start).
  assert (Sc : forall c k', lows k' = true -> wkr (start t k' (add c s) ts) (errs s ++ t_start t :: map t_start ts)) by (intros; exact (wkr_start t k' (add c s) ts H)).
  destruct j; cbn [hold app map]; cbn [read]; try contradiction; try apply W;
    try (destruct (base_eqb (t_base t) F15_TOO_LONG); [cbn [wkr]; wb; fail|]; cbv zeta;
         destruct (ends_here (texts (t_text t) s) t); [apply Lv; [apply errs_texts|exact A]|cbn [wkr]; wb]);
    try (destruct (suits _ t s); [|first [apply W | apply wkips, W | destruct (t_base t); first [apply W | apply wkips, W]]]);
    try (apply St; exact A); try (apply wkips, St; exact A); try (cbn [wkr]; wb; fail);
    try (destruct (base_eqb (t_base t) F15_SLASH); [cbn [wkr]; wb; fail|first [apply St; exact A | apply Sc; exact A]]);
    try (destruct (t_base t); try (apply St; exact A); try (apply wkips, St; exact A); try (apply Lv; [reflexivity|exact A]); cbn [wkr]; wb; fail).
  destruct ts as [|sl [|sp r]]; [cbn [wkr]; right; unfold queue; rewrite (hold_low k A); apply wk_app; cbn [app map]; wks..|].
  destruct (base_eqb (t_base sp) F15_SPEED_VFR); cbn [wkr]; wb.
Qed.
Definition E0 (k : list job) (s : notes) (ts : list token) : Prop :=
  lows (tl k) = true /\ (taking k = true -> has 48 s = true) /\ (late s = true \/ StronglySorted Z.le (queue k s ts)).
Lemma E_step j k s ts k' s' ts' : E0 (j :: k) s ts -> step1 (j :: k) s ts = Goes k' s' ts' -> E0 k' s' ts'.
Proof.
  intros (H1 & H2 & H3) E. pose proof (extr_step (j :: k) s ts) as Ex. pose proof (lowt_step (j :: k) s ts H1) as Lw. rewrite E in Ex, Lw. cbn [extr lowt] in Ex, Lw.
  cbn [tl] in H1.
  assert (T48 : has 48 s = true -> has 48 s' = true) by (apply ext_has, Ex).
  assert (Tk' : taking k' = true -> has 48 s' = true).
  { intro T. destruct j; cbn [step1] in E;
      try (destruct ts as [|t0 ts]; [injection E as <- <- <-; apply T48, H2; exact T|];
           match type of E with read ?j _ _ _ _ = _ => pose proof (taken_read j t0 k s ts) as Z0 end; rewrite E in Z0; cbn [taken] in Z0; destruct (Z0 T) as [Z1|Z1]; [apply T48, H2, Z1|exact Z1]).
    - injection E as <- <- <-. apply T48, H2. exact T.
    - apply T48, H2. reflexivity. }
  split; [exact Lw|]. split; [exact Tk'|]. clear Tk'.
  destruct H3 as [H3|H3]; [left; exact (ext_late _ _ Ex H3)|].
  destruct j; cbn [step1] in E;
    try (destruct ts as [|t0 ts]; [injection E as <- <- <-|
           match type of E with read ?j _ _ _ _ = _ => pose proof (wkr_read j t0 k s ts I H1) as Y end; rewrite E in Y; cbn [wkr] in Y; destruct Y as [Y|Y]; [now left|right; exact (wk_sorted _ _ Y H3)]]);
    try (right; revert H3; apply wk_sorted; unfold queue; rewrite (hold_low k H1); cbn [at_end hold map]; ers; rewrite <- ?app_assoc; apply wk_app; cbn [app map]; wks; fail).
  - (* point / speed missing at the end of a cruise climb *)
    left. cbn [at_end]. unfold late. rewrite (has_report 28). apply orb_true_r.
  - injection E as <- <- <-. right. revert H3. apply wk_sorted. unfold queue. rewrite (hold_low k H1). ers. apply wk_refl.
  - left. unfold late. rewrite (T48 (H2 eq_refl)). reflexivity.
Qed.
Lemma reports_in_order L q : StronglySorted Z.le (map t_start L) -> begin L = Done q -> late q = true \/ StronglySorted Z.le (errs q).
Proof.
  intros SL H. assert (K : exists ts', E0 [] q ts').
  { unfold begin in H. destruct L as [|t r]; [injection H as <-; exists []; repeat split; auto; right; constructor|].
    assert (P : forall k s ts, E0 k s ts -> play (patience (t :: r)) k s ts = Done q -> exists ts', E0 [] q ts')
      by (intros k s ts; apply play_inv; intros j k1 s1 ts1 k2 s2 ts2; apply E_step).
    assert (Er : play (patience (t :: r)) [JSync] (report t [1] blank_notes) r = Done q -> exists ts', E0 [] q ts').
    { apply P. split; [reflexivity|]. split; [discriminate|]. right. exact SL. }
    assert (St : match start t [] blank_notes r with Goes k s ts' => play (patience (t :: r)) k s ts' | Breaks s => Broken s end = Done q -> exists ts', E0 [] q ts').
    { pose proof (wkr_start t [] blank_notes r eq_refl) as G1. pose proof (lowt_start t [] blank_notes r eq_refl) as Lw. pose proof (taken_start t [] blank_notes r) as Tk.
      destruct (start t [] blank_notes r) as [k s ts'|s]; [|discriminate]. apply P. cbn [wkr lowt taken] in *.
      split; [exact Lw|]. split; [intro X; destruct (Tk X) as [Y|Y]; [discriminate Y|exact Y]|]. destruct G1 as [G1|G1]; [now left|right]. exact (wk_sorted _ _ G1 SL). }
    destruct (t_base t); try (exact (Er H)); exact (St H). }
  destruct K as (ts' & _ & _ & [K|K]); [now left|right]. unfold queue in K. cbn [hold map app] in K. revert K. apply wk_sorted. clear.
  assert (G1 : forall a b, wk a (a ++ b)) by (intros a b; induction a; cbn [app]; [induction b; constructor; assumption|apply wk_take, wk_skip, IHa]). apply G1.
Qed.
