(** * Local: what the reading machine makes of the elements after a point (lemmas behind PropsLocal). *)
From Coq Require Import ZArith NArith List Bool String Lia.
From Coq Require Import ZifyBool ZifyNat ZifyN.
From Verif Require Import PyBase PyFloat Enums ErrorTable Tokenizer Ers Utils Parser SpecTokenizer SpecNum SpecParser SpecGrammar SpecAccept SpecDiagnosis SpecReader SpecComplete SpecLocal.
From Verif Require Import TokenizerProofs PerfEq Describe Reader ReaderFacts CompleteFacts.
Import List ListNotations.
Local Open Scope list_scope.
Local Open Scope Z_scope.

Definition all_items (s : notes) : list item := n_before s ++ [n_last s].

(** ** Where records, reports and postponed elements come from *)
Section Origin.
Variable U V : Z -> Prop.
Variable W : token -> Prop.
Definition okj (j : job) : Prop :=
  match j with
  | JC c => U (t_start c)
  | JClimb c sl => U (t_start c) /\ V (t_start sl)
  | JTake t => U (t_start t)
  | JSlash t | JClimbPt t | JClimbSl t | JStayTok t | JStaySl t | JSyncSl t => V (t_start t)
  | JWord t => W t
  | _ => True
  end.
Record oks (s : notes) : Prop := mkOks {
  o_before : Forall (fun i => U (i_start i)) (n_before s); o_last : U (i_start (n_last s));
  o_reports : Forall (fun q : token * Z => V (t_start (fst q))) (n_reports s) }.
Definition okt (t : token) : Prop := U (t_start t) /\ V (t_start t) /\ (t_base t = F15_TOO_LONG -> W t).
Definition okr (r : result) : Prop := match r with Goes k s _ => Forall okj k /\ oks s | Breaks _ => True end.

Lemma oks_with f s : oks s -> (forall i, i_start (f i) = i_start i) -> oks (with_last f s).
Proof. intros [A B C] H. constructor; cbn; try assumption. now rewrite H. Qed.
Lemma oks_add name t s : oks s -> U (t_start t) -> oks (add_as name t s).
Proof. intros [A B C] H. constructor; cbn; try assumption. apply Forall_app. split; [exact A|]. now constructor. Qed.
Lemma oks_report t ms s : oks s -> V (t_start t) -> oks (report t ms s).
Proof. intros [A B C] H. constructor; cbn; try assumption. apply Forall_app. split; [exact C|]. apply Forall_map, Forall_forall. now intros. Qed.
Lemma oks_rules r s : oks s -> oks (rules r s). Proof. intro H. now apply oks_with. Qed.
Lemma oks_types b sb s : oks s -> oks (types b sb s). Proof. intro H. now apply oks_with. Qed.
Lemma oks_stays m s : oks s -> oks (stays m s). Proof. intro H. now apply oks_with. Qed.
Lemma oks_texts m s : oks s -> oks (SpecReader.texts m s). Proof. intro H. now apply oks_with. Qed.
Lemma oks_locates m s : oks s -> oks (locates m s). Proof. intro H. now apply oks_with. Qed.
Lemma oks_point t s : oks s -> okt t -> oks (point t s).
Proof. intros H (A & B & _). apply oks_report; [|exact B]. apply oks_locates, oks_rules. now apply oks_add. Qed.
Lemma oks_vfr t s : oks s -> okt t -> oks (vfr t s).
Proof. intros H (A & B & _). apply oks_rules. apply oks_with; [|reflexivity]. apply oks_add; [|exact A]. now apply oks_with. Qed.
Lemma oks_speeds t s : oks s -> okt t -> oks (speeds t s).
Proof. intros H (A & B & _). apply oks_report; [|exact B]. apply oks_rules. apply oks_with; [exact H|]. intro i. destruct (t_base t); reflexivity. Qed.
(** The next token, if there is one, may be reported. *)
Definition head_ok (ts : list token) : Prop := match ts with x :: _ => V (t_start x) | [] => True end.
Ltac both := split; [repeat constructor; assumption|].
Lemma okr_last t k s ts : okt t -> Forall okj k -> oks s -> head_ok ts -> okr (the_last t k s ts).
Proof. intros T K H N. unfold the_last. destruct ts as [|x ts]; cbn [okr]; both; [now apply oks_types|now apply oks_report]. Qed.
Lemma okr_start t k s ts : okt t -> Forall okj k -> oks s -> head_ok ts -> okr (start t k s ts).
Proof.
  intros T K H N. pose proof T as (A & B & C). assert (Ad : oks (add t s)) by (now apply oks_add). unfold start.
  destruct (t_base t); try (now apply okr_last); try (cbn [okr]; both; first [assumption|now apply oks_rules|now apply oks_point|now apply oks_vfr]; fail).
  - cbn [okr]. both. destruct (begins (t_sub t)); [now apply oks_rules|exact Ad].
  - destruct (only_adep s); [|now apply okr_last]. cbn [okr]. both. now apply oks_types.
  - cbn [okr]. split; [|now apply oks_speeds]. destruct (only_adep s); repeat constructor; assumption.
  - destruct (unconvertible t); [exact I|]. cbn [okr]. both. now apply oks_speeds.
  - destruct (unconvertible t); [exact I|]. cbn [okr]. both. now apply oks_speeds.
  - destruct (only_adep s); cbn [okr]; both; [now apply oks_types|now apply oks_report].
Qed.
Lemma okr_leave b k s ts : Forall okj k -> oks s -> head_ok ts -> okr (leave b k s ts).
Proof.
  intros K H N. unfold leave. destruct (resume b ts); cbn [okr].
  - now split.
  - split; [|exact H]. destruct b; cbn [app]; repeat constructor; assumption.
  - destruct ts as [|p ts]; cbn [okr]; both; [exact H|now apply oks_report].
Qed.
Lemma okr_wrong j t k s ts : okt t -> Forall okj k -> oks s -> okr (wrong j t k s ts).
Proof. intros (A & B & C) K H. cbn [okr wrong]. both. now apply oks_report. Qed.
Lemma okr_read j t k s ts : okj j -> okt t -> Forall okj k -> oks s -> head_ok ts -> (j = JJoin -> match ts with _ :: sp :: _ => okt sp | _ => True end) -> okr (read j t k s ts).
Proof.
  intros Jj T K H N D. pose proof T as (A & B & C).
  assert (X : forall k', Forall okj k' -> okr (wrong j t k' s ts)) by (intros; now apply okr_wrong).
  pose proof (okr_start t k s ts T K H N) as St.
  assert (Tx : okr (if base_eqb (t_base t) F15_TOO_LONG then Goes (JSync :: JWord t :: JText :: k) (report t [4] s) ts
    else match ends_here (SpecReader.texts (t_text t) s) t with Some b => leave b (JText :: k) (SpecReader.texts (t_text t) s) ts | None => Goes (JText :: k) (SpecReader.texts (t_text t) s) ts end)).
  { destruct (base_eqb (t_base t) F15_TOO_LONG) eqn:E; [apply base_eqb_eq in E; cbn [okr]; split; [repeat constructor; cbn [okj]; auto|now apply oks_report]|].
    destruct (ends_here _ t); [apply okr_leave; [now constructor|now apply oks_texts|exact N]|]. cbn [okr]. both. now apply oks_texts. }
  destruct j; unfold read; cbv zeta; cbn [okj] in Jj;
    try (destruct (suits _ t s); [first [exact St|destruct (base_eqb (t_base t) F15_SLASH); [cbn [okr]; both; exact H|exact St]; fail|idtac]|destruct (t_base t); apply X; repeat constructor; assumption]).
  - destruct (base_eqb (t_base t) F15_SLASH); [cbn [okr]; split; [repeat constructor; assumption|exact H]|]. apply okr_start; try assumption. now apply oks_add.
  - cbn [okr]. both. apply oks_report; [|exact B]. apply oks_locates. now apply oks_add.
  - cbn [okr]. both. exact H.
  - apply okr_start; try assumption. now constructor.
  - cbn [okr]. both. exact H.
  - cbn [okr]. both. now apply oks_stays.
  - exact Tx.
  - destruct (base_eqb (t_base t) F15_TOO_LONG) eqn:E; [cbn [okr app]; both; now apply oks_report|exact Tx].
  - destruct ts as [|sl [|sp ts]]; [cbn [okr]; now split..|]. specialize (D eq_refl). cbn in D. destruct (base_eqb (t_base sp) F15_SPEED_VFR); cbn [okr]; both.
    + apply oks_vfr; [|exact D]. now apply oks_rules, oks_add.
    + apply oks_speeds; [|exact D]. now apply oks_point.
  - apply X, K.
  - destruct (t_base t); first [exact St|apply okr_leave; assumption|cbn [okr]; both; first [exact H|now apply oks_report]].
  - destruct (t_base t); first [exact St|cbn [okr]; both; now apply oks_report].
  - cbn [okr]. both. now apply oks_point.
Qed.
Lemma oks_end j s : okj j -> oks s -> oks (at_end j s).
Proof.
  intros Jj H. destruct j; cbn [at_end okj] in *; try exact H; try (now apply oks_report); [now apply oks_add|]. destruct Jj. apply oks_report; [now apply oks_add|assumption].
Qed.
End Origin.

(** An element that was not recorded when it was read is not recorded later. *)
Lemma never a n : forall k s ts s1, Forall (okj (fun z => z <> a) (fun _ => True) (fun _ => True)) k -> oks (fun z => z <> a) (fun _ => True) s ->
  Forall (fun t => t_start t <> a) ts -> play n k s ts = Done s1 -> oks (fun z => z <> a) (fun _ => True) s1.
Proof.
  induction n as [|n IH]; intros [|j k] s ts s1 K H T E; cbn [play] in E; try discriminate; try (injection E as <-; exact H).
  inversion K as [|? ? Kj K']; subst.
  assert (Tk : Forall (okt (fun z => z <> a) (fun _ => True) (fun _ => True)) ts) by (eapply Forall_impl; [|exact T]; intros t Ht; repeat split; auto).
  assert (A : forall j k s t ts', ts = t :: ts' -> okj (fun z => z <> a) (fun _ => True) (fun _ => True) j -> Forall (okj (fun z => z <> a) (fun _ => True) (fun _ => True)) k -> oks (fun z => z <> a) (fun _ => True) s ->
    match read j t k s ts' with Goes k' s' ts' => play n k' s' ts' | Breaks s' => Broken s' end = Done s1 -> oks (fun z => z <> a) (fun _ => True) s1).
  { clear - IH Tk T. intros j k s t ts' -> Kj K H E. inversion Tk as [|? ? Tt Tr]; subst. inversion T as [|? ? T1 T2]; subst.
    pose proof (okr_read _ _ _ j t k s ts' Kj Tt K H ltac:(destruct ts'; exact I) ltac:(intros _; destruct ts' as [|? [|sp ?]]; try exact I; inversion Tr as [|? ? ? Y]; now inversion Y)) as O.
    assert (Sf : match read j t k s ts' with Goes _ _ ts'' => Forall (fun t => t_start t <> a) ts'' | Breaks _ => True end).
    { clear - T2. 
      assert (S0 : forall k s, match start t k s ts' with Goes _ _ ts'' => Forall (fun t => t_start t <> a) ts'' | Breaks _ => True end).
      { intros k0 s0. unfold start, the_last. destruct (t_base t), ts'; try assumption; destruct (only_adep s0); try assumption; destruct (unconvertible t); try assumption; exact I. }
      assert (L0 : forall b k s, match leave b k s ts' with Goes _ _ ts'' => Forall (fun t => t_start t <> a) ts'' | Breaks _ => True end).
      { intros b k0 s0. unfold leave. destruct (resume b ts'), ts'; assumption. }
      destruct j; unfold read, wrong; cbv zeta;
        try (destruct (suits _ t s); [|destruct (t_base t)]; try destruct (base_eqb (t_base t) F15_SLASH); first [apply S0|assumption]).
      - destruct (base_eqb (t_base t) F15_TOO_LONG); [assumption|]. destruct (ends_here _ t); [apply L0|assumption].
      - destruct (base_eqb (t_base t) F15_TOO_LONG); [assumption|]. destruct (ends_here _ t); [apply L0|assumption].
      - destruct ts' as [|? [|sp ts']]; try assumption. inversion T2 as [|? ? ? Y]. inversion Y. destruct (base_eqb (t_base sp) F15_SPEED_VFR); assumption.
      - assumption.
      - destruct (t_base t); first [apply S0|apply L0|assumption].
      - destruct (t_base t); first [apply S0|assumption].
      - assumption. }
    destruct (read j t k s ts') as [k' s' ts''|s']; [|discriminate]. destruct O. now apply (IH k' s' ts''). }
  destruct j; cbn [step1] in E; try (destruct ts as [|t ts]; [refine (IH _ _ _ _ _ _ _ E); [exact K'|apply (oks_end _ _ _ _ _ Kj H)|constructor]|exact (A _ _ _ t ts eq_refl Kj K' H E)]).
  - refine (IH _ _ _ _ _ _ _ E); [exact K'|now apply oks_texts|exact T].
  - refine (IH _ _ _ _ _ _ _ E); [now constructor|apply (oks_point _ _ (fun _ => True)); [exact H|repeat split; exact Kj]|exact T].
Qed.

(** ** What comes next, and what may be postponed *)
Definition under (j : job) : Prop := match j with JRoute | JClimb _ _ | JJoin => False | _ => True end.
Definition top_ok (prev : token) (j : job) (ts : list token) : Prop :=
  match j with
  | JRoute => t_base prev = F15_ROUTE
  | JClimb _ _ => t_base prev = F15_SLASH
  | JJoin => t_sub prev = F15_SB_IFR /\ resume KVfr ts = Resumes
  | _ => True
  end.
Definition shaped (prev : token) (k : list job) (ts : list token) : Prop :=
  match k with [] => True | j :: k' => top_ok prev j ts /\ Forall under k' end.
Definition shape (prev : token) (ts : list token) (r : result) : Prop :=
  match r with Goes k _ us => us = ts /\ shaped prev k ts | Breaks _ => True end.
Lemma shaped_under prev k ts : Forall under k -> shaped prev k ts.
Proof. destruct k as [|j k]; intro H; [exact I|]. inversion H as [|? ? A B]. split; [|exact B]. destruct j; try exact I; destruct A. Qed.
Lemma shape_start t k s ts : Forall under k -> shape t ts (start t k s ts).
Proof.
  intro K. unfold start, the_last. pose proof (shaped_under t k ts K) as Z.
  destruct (t_base t) eqn:B; try (cbn [shape shaped top_ok]; auto; fail);
    try (destruct (only_adep s)); try (destruct (unconvertible t)); cbn [shape shaped top_ok]; auto; destruct ts; cbn [shape shaped top_ok]; auto.
Qed.
(** The tokens are those of the table: only IFR ends a section of kind VFR. *)
Lemma shape_leave b t k s ts : (b = KVfr -> t_sub t = F15_SB_IFR) -> Forall under k -> shape t ts (leave b k s ts).
Proof.
  intros X K. unfold leave. destruct (resume b ts) eqn:E.
  - cbn [shape]. split; [reflexivity|now apply shaped_under].
  - cbn [shape]. split; [reflexivity|]. destruct b; cbn [app shaped top_ok]; auto. repeat split; auto. constructor; [exact I|exact K].
  - destruct ts; cbn [shape shaped top_ok]; auto. split; [reflexivity|now apply shaped_under].
Qed.
Lemma shape_wrong j t k s ts : Forall under k -> shape t ts (wrong j t k s ts).
Proof. intro K. unfold wrong. cbn [shape shaped top_ok]. auto. Qed.
Lemma ends_vfr t : ends KVfr (t_sub t) = true -> t_sub t = F15_SB_IFR.
Proof. destruct (t_sub t); try discriminate. reflexivity. Qed.
Lemma ends_kind s t b : ends_here s t = Some b -> b = KVfr -> t_sub t = F15_SB_IFR.
Proof. unfold ends_here. destruct (in_section s) as [c|]; [|discriminate]. destruct (ends c (t_sub t)) eqn:E; [|discriminate]. intros X ->. injection X as ->. now apply ends_vfr. Qed.
Lemma shape_read j t k s ts : j <> JJoin -> Forall under k -> shape t ts (read j t k s ts).
Proof.
  intros Nj K. pose proof (fun s => shape_start t k s ts K) as St. pose proof (shaped_under t k ts K) as Z.
  assert (X : forall k', Forall under k' -> shape t ts (wrong j t k' s ts)) by (intros; now apply shape_wrong).
  assert (Lv : forall b k1 s1 s2, Forall under k1 -> ends_here s2 t = Some b -> shape t ts (leave b k1 s1 ts)).
  { intros b k1 s1 s2 K1 E. apply shape_leave; [|exact K1]. exact (ends_kind s2 t b E). }
  destruct j; try congruence; unfold read; cbv zeta;
    try (destruct (suits _ t s) eqn:E; [first [exact (St s)|destruct (base_eqb (t_base t) F15_SLASH) eqn:Sl; [cbn [shape shaped top_ok]; auto; fail|exact (St s)]; fail|cbn [shape shaped top_ok]; auto; fail|idtac]
      |destruct (t_base t); first [apply X; repeat (constructor; [exact I|]); exact K]]).
  - destruct (base_eqb (t_base t) F15_SLASH) eqn:Sl; [|apply St]. apply base_eqb_eq in Sl. cbn [shape shaped top_ok]. auto.
  - apply shape_start. now constructor.
  - destruct (base_eqb (t_base t) F15_TOO_LONG); [cbn [shape shaped top_ok app]; repeat split; repeat (constructor; [exact I|]); exact K|].
    destruct (ends_here _ t) eqn:En; [refine (Lv _ _ _ _ _ En); now constructor|]. cbn [shape shaped top_ok]. auto.
  - destruct (base_eqb (t_base t) F15_TOO_LONG); [cbn [shape shaped top_ok app]; repeat split; exact K|].
    destruct (ends_here _ t) eqn:En; [refine (Lv _ _ _ _ _ En); now constructor|]. cbn [shape shaped top_ok]. auto.
  - now apply X.
  - destruct (t_base t) eqn:B; try apply St; try (cbn [shape shaped top_ok]; auto; fail). apply shape_leave; [|exact K]. unfold end_kind. destruct (t_sub t); try discriminate. reflexivity.
  - destruct (t_base t); try apply St; cbn [shape shaped top_ok]; auto.
  - cbn [shape shaped top_ok]. auto.
Qed.

(** ** Up to the point *)
Section Reach.
Variable p : token.
Variable R : list token.
Let a := t_start p.
Hypothesis no_end : forall b, ends b (t_sub p) = false.
Hypothesis later : Forall (fun t => t_start t <> a) R.
Notation Lj := (okj (fun z => z < a) (fun z => z <= a) (fun _ => False)).
Notation Ls := (oks (fun z => z < a) (fun z => z <= a)).
Notation Lt := (okt (fun z => z < a) (fun z => z <= a) (fun _ => False)).
Notation Nj := (okj (fun z => z <> a) (fun _ => True) (fun _ => True)).
Notation Ns := (oks (fun z => z <> a) (fun _ => True)).

Lemma less_j j : Lj j -> Nj j.
Proof. destruct j; cbn [okj]; try tauto; try (intro; lia). Qed.
Lemma less_k k : Forall Lj k -> Forall Nj k.
Proof. apply Forall_impl, less_j. Qed.
Lemma less_s s : Ls s -> Ns s.
Proof.
  intros [A B C]. constructor.
  - eapply Forall_impl; [|exact A]. cbn. intros. lia.
  - lia.
  - eapply Forall_impl; [|exact C]. exact (fun _ _ => I).
Qed.
(** The configuration right after the point was recorded. *)
Definition past (s1 : notes) : Prop := exists m k0 s0, play m (JPoint :: k0) (point p s0) R = Done s1 /\ Forall Lj k0 /\ Ls s0.
Lemma at_point n prev j k s s1 : t_base p = F15_POINT -> stands_alone prev p -> top_ok prev j (p :: R) -> Lj j -> Forall Lj k -> Ls s ->
  match read j p k s R with Goes k' s' ts' => play n k' s' ts' | Breaks s' => Broken s' end = Done s1 -> past s1 \/ Ns s1.
Proof.
  intros Bp (_ & A1 & A2 & A3) T Kj K H E.
  assert (St : forall s', Ls s' -> match start p k s' R with Goes k' s' ts' => play n k' s' ts' | Breaks s' => Broken s' end = Done s1 -> past s1 \/ Ns s1).
  { intros s' H' E'. unfold start in E'. rewrite Bp in E'. left. exists n, k, s'. auto. }
  assert (Nr : forall k' s', Forall Nj k' -> Ns s' -> play n k' s' R = Done s1 -> past s1 \/ Ns s1).
  { intros k' s' K' H' E'. right. exact (never a n _ _ _ _ K' H' later E'). }
  pose proof (less_k k K) as Nk. pose proof (less_s s H) as Nn. pose proof (less_j j Kj) as Nj0.
  assert (Nw : forall k', Forall Nj k' -> match wrong j p k' s R with Goes k' s' ts' => play n k' s' ts' | Breaks s' => Broken s' end = Done s1 -> past s1 \/ Ns s1).
  { intros k' K' E'. unfold wrong in E'. refine (Nr _ _ _ _ E'); [now constructor|now apply oks_report]. }
  assert (Tx : forall j', j' = JText \/ j' = JBegin -> match read j' p k s R with Goes k' s' ts' => play n k' s' ts' | Breaks s' => Broken s' end = Done s1 -> past s1 \/ Ns s1).
  { intros j' [ -> | -> ] E'; unfold read in E'; rewrite Bp in E'; cbn [base_eqb] in E'; cbv zeta in E';
      replace (ends_here (SpecReader.texts (t_text p) s) p) with (@None kind) in E' by (unfold ends_here; destruct (in_section _); [now rewrite no_end|reflexivity]);
      (refine (Nr _ _ _ _ E'); [now constructor|now apply oks_texts]). }
  destruct j; try (now apply (Tx _ (or_introl eq_refl))); try (now apply (Tx _ (or_intror eq_refl))); unfold read, suits in E; cbn [spot] in E; unfold fits in E; rewrite ?Bp in E; cbn [base_eqb orb top_ok okj] in *;
    try (now apply (St _ H)); try (refine (Nw _ _ E); repeat first [assumption|constructor]; fail); try congruence.
  - rewrite (A3 T) in E. now apply (St _ H).
  - apply (St (add c s)); [now apply oks_add|exact E].
  - left. exists n, k, s. auto.
Qed.
Lemma reach n : forall prev k s L s1, t_base p = F15_POINT -> shaped prev k (L ++ p :: R) -> Forall Lj k -> Ls s -> Forall Lt L -> stands_alone (last L prev) p ->
  play n k s (L ++ p :: R) = Done s1 -> past s1 \/ Ns s1.
Proof.
  induction n as [|n IH]; intros prev [|j k] s L s1 Bp Sh K H T SA E; cbn [play] in E; try discriminate; try (injection E as <-; right; now apply less_s).
  inversion K as [|? ? Kj K']; subst. destruct Sh as [Tp Un].
  assert (A : step1 (j :: k) s (L ++ p :: R) = (match L ++ p :: R with [] => Goes k (at_end j s) [] | t :: ts' => read j t k s ts' end) -> past s1 \/ Ns s1).
  { intro X. rewrite X in E. clear X. destruct L as [|y L]; [exact (at_point n prev j k s s1 Bp SA Tp Kj K' H E)|]. cbn [app] in E, Tp.
    inversion T as [|? ? Ty TL]; subst. assert (SA' : stands_alone (last L y) p).
    { clear - SA. revert SA. destruct L as [|z L]; [exact (fun h => h)|]. cbn [last]. generalize z. induction L as [|w L IH]; intros z'; [exact (fun h => h)|]. cbn [last] in *. apply IH. }
    assert (Hd : head_ok (fun z => z <= a) (L ++ p :: R)) by (destruct L as [|z L]; [cbn; unfold a; lia|]; inversion TL as [|? ? Tz]; apply Tz).
    destruct (match j with JJoin => true | _ => false end) eqn:Jn.
    - destruct j; try discriminate Jn. cbn [top_ok] in Tp. destruct Tp as [_ Tp]. unfold resume in Tp. destruct (t_base y); try discriminate Tp.
      destruct L as [|sl L]; [cbn [app] in Tp; rewrite Bp in Tp; discriminate Tp|]. cbn [app] in Tp. destruct (t_base sl); try discriminate Tp.
      destruct L as [|sp L]; [cbn [app] in Tp; rewrite Bp in Tp; discriminate Tp|]. inversion TL as [|? ? Tsl TL']; subst. inversion TL' as [|? ? Tsp TL'']; subst.
      pose proof (okr_read _ _ _ JJoin y k s ((sl :: sp :: L) ++ p :: R) Kj Ty K' H Hd (fun _ => Tsp)) as O. cbn [app read] in E, O.
      assert (SA2 : stands_alone (last L sp) p).
      { clear - SA'. revert SA'. cbn [last]. destruct L as [|z L]; [exact (fun h => h)|]. generalize z. induction L as [|w L IH]; intros z'; [exact (fun h => h)|]. cbn [last] in *. apply IH. }
      destruct (base_eqb (t_base sp) F15_SPEED_VFR); destruct O as [O1 O2]; (refine (IH sp _ _ _ _ Bp _ O1 O2 TL'' SA2 E); cbn [shaped top_ok]; split; [exact I|exact Un]).
    - assert (Nn : j <> JJoin) by (intros ->; discriminate Jn).
      pose proof (okr_read _ _ _ j y k s (L ++ p :: R) Kj Ty K' H Hd (fun h => False_ind _ (Nn h))) as O.
      pose proof (shape_read j y k s (L ++ p :: R) Nn Un) as Sh. destruct (read j y k s (L ++ p :: R)) as [k1 s2 ts1|]; [|discriminate E].
      destruct O as [O1 O2], Sh as [-> Sh]. exact (IH y k1 s2 L s1 Bp Sh O1 O2 TL SA' E). }
  destruct j; try (exact (A eq_refl)).
  - destruct Kj.
  - cbn [step1] in E. refine (IH prev _ _ L s1 Bp _ _ _ T SA E).
    + cbn [shaped top_ok]. split; [exact I|exact Un].
    + now constructor.
    + cbn [okj] in Kj. apply (oks_point _ _ (fun _ => True)); [exact H|]. repeat split; [exact Kj|lia].
Qed.
(** What is left when the field is read only concerns elements before the point. *)
Lemma drain n : forall k s s1, Forall Lj k -> play n k s [] = Done s1 ->
  exists X F, all_items s1 = all_items s ++ X /\ Forall (fun i => i_start i < a) X /\ n_reports s1 = n_reports s ++ F /\ Forall (fun q : token * Z => t_start (fst q) <= a) F.
Proof.
  induction n as [|n IH]; intros [|j k] s s1 K E; cbn [play] in E; try discriminate;
    try (injection E as <-; exists [], []; rewrite !app_nil_r; repeat split; constructor).
  inversion K as [|? ? Kj K']; subst.
  assert (A : forall k' s', Forall Lj k' -> play n k' s' [] = Done s1 ->
    (exists X F, all_items s' = all_items s ++ X /\ Forall (fun i => i_start i < a) X /\ n_reports s' = n_reports s ++ F /\ Forall (fun q : token * Z => t_start (fst q) <= a) F) ->
    exists X F, all_items s1 = all_items s ++ X /\ Forall (fun i => i_start i < a) X /\ n_reports s1 = n_reports s ++ F /\ Forall (fun q : token * Z => t_start (fst q) <= a) F).
  { intros k' s' K1 E' (X & F & A1 & A2 & A3 & A4). destruct (IH _ _ _ K1 E') as (X' & F' & B1 & B2 & B3 & B4). exists (X ++ X'), (F ++ F').
    rewrite B1, A1, B3, A3, <- !app_assoc. repeat split; apply Forall_app; auto. }
  assert (Ad : forall c (s : notes), t_start c < a -> exists X F, all_items (add c s) = all_items s ++ X /\ Forall (fun i => i_start i < a) X /\ n_reports (add c s) = n_reports s ++ F /\ Forall (fun q : token * Z => t_start (fst q) <= a) F).
  { intros c z Hc. exists [new_item (t_text c) c (n_last z)], []. rewrite app_nil_r. repeat split; repeat constructor. exact Hc. }
  assert (Rp : forall c ms, t_start c <= a -> Forall (fun q : token * Z => t_start (fst q) <= a) (map (fun m => (c, m)) ms)).
  { intros c ms Hc. apply Forall_map, Forall_forall. auto. }
  assert (Re : forall c ms (s : notes), t_start c <= a -> exists X F, all_items (report c ms s) = all_items s ++ X /\ Forall (fun i => i_start i < a) X /\ n_reports (report c ms s) = n_reports s ++ F /\ Forall (fun q : token * Z => t_start (fst q) <= a) F).
  { intros c ms z Hc. exists [], (map (fun m => (c, m)) ms). rewrite app_nil_r. repeat split; [constructor|]. now apply Rp. }
  assert (Sm : exists X F, all_items s = all_items s ++ X /\ Forall (fun i => i_start i < a) X /\ n_reports s = n_reports s ++ F /\ Forall (fun q : token * Z => t_start (fst q) <= a) F).
  { exists [], []. rewrite !app_nil_r. repeat split; constructor. }
  destruct j; cbn [step1 okj at_end] in E, Kj; try (exact (A _ _ K' E Sm)); try (exact (A _ _ K' E (Re _ _ _ Kj))); try contradiction.
  - exact (A _ _ K' E (Ad _ _ Kj)).
  - destruct Kj as [Kc Ks]. refine (A _ _ K' E _). destruct (Ad c s Kc) as (X & F & A1 & A2 & A3 & A4).
    exists X, (F ++ [(sl, 52)]). repeat split; [exact A1|exact A2|change (n_reports (add c s) ++ [(sl, 52)] = n_reports s ++ F ++ [(sl, 52)]); rewrite A3; symmetry; apply app_assoc|]. apply Forall_app. split; [exact A4|]. now constructor.
  - refine (A (JPoint :: k) _ _ E _); [now constructor|].
    exists [n_last (point t s)], (map (fun m => (t, m)) (angle_faults t)). repeat split; [repeat constructor; exact Kj|]. apply Rp. lia.
Qed.
End Reach.

(** ** After the point *)
Section After.
Variable P : token -> token -> Prop.
Variable a b : Z.
Variable B B' : list item.
Variable E E' : list (token * Z).
Hypothesis B_some : B <> [].
Hypothesis B'_some : B' <> [].
Hypothesis P_text : forall t u, P t u -> t_text u = t_text t.
Hypothesis P_base : forall t u, P t u -> t_base u = t_base t.
Hypothesis P_sub : forall t u, P t u -> t_sub u = t_sub t.
Hypothesis P_start : forall t u, P t u -> a < t_start t /\ b < t_start u.
Hypothesis P_end : forall t u, P t u -> t_base t <> F15_BREAK_END /\ forall c, ends c (t_sub t) = false.

Definition fly (i j : item) : bool := pstr_eqb (i_speed i) (i_speed j) && pstr_eqb (i_level i) (i_level j).
Record I (i j : item) : Prop := mkI {
  I_name : i_name j = i_name i; I_base : i_base j = i_base i; I_sub : i_sub j = i_sub i; I_rules : i_rules j = i_rules i; I_text : i_text j = i_text i;
  I_stay : i_stay j = i_stay i; I_target : i_target j = i_target i; I_si : i_target_si j = i_target_si i; I_loc : i_located j = i_located i;
  I_start : a <= i_start i /\ b <= i_start j }.
(** From the first record on with the same speed and level they are the same. *)
Inductive run : bool -> list item -> list item -> Prop :=
| run_nil : run false [] []
| run_add g l m i j : run g l m -> I i j -> (g = true -> fly i j = true) -> run (g || fly i j) (l ++ [i]) (m ++ [j]).
Record S (s z : notes) : Prop := mkS {
  S_before : exists g l m, n_before s = B ++ l /\ n_before z = B' ++ m /\ run g l m /\ (g = true -> fly (n_last s) (n_last z) = true);
  S_last : I (n_last s) (n_last z);
  S_reports : exists e f, n_reports s = E ++ e /\ n_reports z = E' ++ f /\ Forall2 (fun q p => P (fst q) (fst p) /\ snd q = snd p) e f }.

Lemma fly_refl i j : i_speed i = i_speed j -> i_level i = i_level j -> fly i j = true.
Proof. intros A C. unfold fly. rewrite A, C. now rewrite !pstr_eqb_refl. Qed.
Lemma with_S f g s z : S s z -> I (f (n_last s)) (g (n_last z)) -> (fly (n_last s) (n_last z) = true -> fly (f (n_last s)) (g (n_last z)) = true) -> S (with_last f s) (with_last g z).
Proof.
  intros [(h & l & m & A1 & A2 & A3 & A4) A5 A6] H F. constructor; cbn [with_last n_before n_last n_reports]; [|exact H|exact A6]. exists h, l, m. auto 6.
Qed.
Lemma rules_S r s z : S s z -> S (rules r s) (rules r z).
Proof. intro H. apply with_S; [exact H| |exact (fun h => h)]. destruct (S_last _ _ H). now constructor. Qed.
Lemma types_S c sb s z : S s z -> S (types c sb s) (types c sb z).
Proof. intro H. apply with_S; [exact H| |exact (fun h => h)]. destruct (S_last _ _ H). now constructor. Qed.
Lemma stays_S m s z : S s z -> S (stays m s) (stays m z).
Proof. intro H. apply with_S; [exact H| |exact (fun h => h)]. destruct (S_last _ _ H). now constructor. Qed.
Lemma texts_S x s z : S s z -> S (SpecReader.texts x s) (SpecReader.texts x z).
Proof. intro H. apply with_S; [exact H| |exact (fun h => h)]. destruct (S_last _ _ H). constructor; try assumption. cbn. now rewrite I_text0. Qed.
Lemma flies_I sp lv i j : I i j -> I (flies sp lv i) (flies sp lv j).
Proof. intros []. now constructor. Qed.
Lemma climbs_I x y i j : I i j -> I (climbs x y i) (climbs x y j).
Proof. intros []. now constructor. Qed.
Lemma add_S name t u s z : P t u -> S s z -> S (add_as name t s) (add_as name u z).
Proof.
  intros Q [(h & l & m & A1 & A2 & A3 & A4) A5 A6]. constructor; cbn [n_before n_last n_reports add_as].
  - exists (h || fly (n_last s) (n_last z)), (l ++ [n_last s]), (m ++ [n_last z]). rewrite A1, A2, <- !app_assoc. split; [reflexivity|]. split; [reflexivity|]. split; [now constructor|].
    intro X. apply orb_true_iff in X as [X|X]; [exact (A4 X)|exact X].
  - destruct A5. destruct (P_start _ _ Q). constructor; cbn; auto. lia.
  - exact A6.
Qed.
Lemma report_S t u ms s z : P t u -> S s z -> S (report t ms s) (report u ms z).
Proof.
  intros Q [A1 A2 (e & f & A3 & A4 & A5)]. constructor; cbn [n_before n_last n_reports report]; try assumption.
  exists (e ++ map (fun m => (t, m)) ms), (f ++ map (fun m => (u, m)) ms). rewrite A3, A4, !app_assoc. repeat split. apply Forall2_app; [exact A5|].
  clear - Q. induction ms as [|m ms IH]; cbn [map]; constructor; [now split|exact IH].
Qed.
Lemma locates_S t u s z : P t u -> S s z -> S (locates t s) (locates u z).
Proof. intros Q H. apply with_S; [exact H| |exact (fun h => h)]. destruct (S_last _ _ H). constructor; try assumption. cbn. now rewrite (P_sub _ _ Q), I_loc0. Qed.
Lemma angle_same t u : P t u -> angle_faults u = angle_faults t.
Proof. intro Q. unfold angle_faults. now rewrite (P_sub t u Q), (P_text t u Q). Qed.
Lemma addt_S t u s z : P t u -> S s z -> S (add t s) (add u z).
Proof. intros Q H. unfold add. rewrite (P_text t u Q). now apply add_S. Qed.
Lemma point_S t u s z : P t u -> S s z -> S (point t s) (point u z).
Proof. intros Q H. unfold point. rewrite (angle_same t u Q). apply report_S; [exact Q|]. apply locates_S; [exact Q|]. now apply rules_S, addt_S. Qed.
Lemma vfr_S t u s z : P t u -> S s z -> S (vfr t s) (vfr u z).
Proof.
  intros Q H. unfold vfr. cbv zeta. rewrite (P_text t u Q).
  assert (X : S (add_as ($"VFR") t (with_last (flies (speed_part (t_text t)) ($"F050")) s)) (add_as ($"VFR") u (with_last (flies (speed_part (t_text t)) ($"F050")) z))).
  { apply add_S; [exact Q|]. apply with_S; [exact H|apply flies_I, H|intros _; now apply fly_refl]. }
  apply rules_S. apply with_S; [exact X|apply flies_I, X|intros _; now apply fly_refl].
Qed.
Lemma speeds_S t u s z : P t u -> S s z -> S (speeds t s) (speeds u z).
Proof.
  intros Q H. unfold speeds, level_faults. cbv zeta. rewrite (P_text t u Q), (P_base t u Q). apply report_S; [exact Q|]. apply rules_S. apply with_S; [exact H| |].
  - pose proof (flies_I (speed_part (t_text t)) (first_level (t_text t)) _ _ (S_last _ _ H)) as K.
    destruct (t_base t); try exact K; [apply climbs_I; exact K|]. rewrite (I_si _ _ K). apply climbs_I. exact K.
  - intros _. destruct (t_base t); now apply fly_refl.
Qed.

Inductive J : job -> job -> Prop :=
| J_adep : J JAdep JAdep | J_dct : J JDct JDct | J_route : J JRoute JRoute | J_sid : J JSid JSid | J_stay : J JStay JStay | J_point : J JPoint JPoint
| J_c t u : P t u -> J (JC t) (JC u)
| J_slash t u : P t u -> J (JSlash t) (JSlash u)
| J_climb t u x y : P t u -> P x y -> J (JClimb t x) (JClimb u y)
| J_climbpt t u : P t u -> J (JClimbPt t) (JClimbPt u)
| J_climbsl t u : P t u -> J (JClimbSl t) (JClimbSl u)
| J_staytok t u : P t u -> J (JStayTok t) (JStayTok u)
| J_staysl t u : P t u -> J (JStaySl t) (JStaySl u)
| J_text : J JText JText | J_begin : J JBegin JBegin
| J_word t u : P t u -> J (JWord t) (JWord u)
| J_trunc : J JTruncate JTruncate | J_sync : J JSync JSync
| J_syncsl t u : P t u -> J (JSyncSl t) (JSyncSl u)
| J_aspoint : J JAsPoint JAsPoint
| J_take t u : P t u -> J (JTake t) (JTake u).
(** Something is expected of the elements after the point as long as there are any. *)
Definition awake (k : list job) (ts : list token) : Prop := ts = [] \/ match k with [] | JWord _ :: _ => False | _ => True end.
Variable k0 q0 : list job.
Inductive R : result -> result -> Prop :=
| R_goes k q s z ts us : Forall2 J k q -> S s z -> Forall2 P ts us -> awake k ts -> R (Goes (k ++ k0) s ts) (Goes (q ++ q0) z us)
| R_breaks s z : R (Breaks s) (Breaks z).
Lemma R_on i j k q s z ts us : J i j -> match i with JWord _ => False | _ => True end -> Forall2 J k q -> S s z -> Forall2 P ts us -> R (Goes (i :: k ++ k0) s ts) (Goes (j :: q ++ q0) z us).
Proof.
  intros A N K H F. change (i :: k ++ k0) with ((i :: k) ++ k0). change (j :: q ++ q0) with ((j :: q) ++ q0). constructor; try assumption; [now constructor|]. right. exact N.
Qed.
Ltac on := apply R_on; [now constructor|exact Logic.I|assumption|try assumption|first [assumption|now constructor]].
Lemma not_only s z : S s z -> only_adep s = false /\ only_adep z = false.
Proof.
  intros [(g & l & m & A1 & A2 & _) _ _]. unfold only_adep. rewrite A1, A2. split; [destruct B; [congruence|reflexivity]|destruct B'; [congruence|reflexivity]].
Qed.
Lemma last_R t u k q s z ts us : P t u -> Forall2 J k q -> S s z -> Forall2 P ts us -> R (the_last t (k ++ k0) s ts) (the_last u (q ++ q0) z us).
Proof.
  intros Q K H F. unfold the_last, star_sub. rewrite (P_text t u Q). destruct F as [|x y ts us X F].
  - constructor; [exact K|now apply types_S|constructor|now left].
  - on. now apply report_S.
Qed.
Lemma start_R t u k q s z ts us : P t u -> Forall2 J k q -> S s z -> Forall2 P ts us -> R (start t (k ++ k0) s ts) (start u (q ++ q0) z us).
Proof.
  intros Q K H F. destruct (not_only s z H) as [N1 N2]. unfold start, unconvertible. rewrite (P_base t u Q), (P_sub t u Q), N1, N2.
  destruct (t_base t) eqn:Bt;
    try (on; first [now apply point_S|now apply vfr_S|now apply speeds_S|now apply rules_S, addt_S|now apply addt_S]; fail);
    try (apply last_R; try assumption; now apply addt_S).
  - on. destruct (begins (t_sub t)); [now apply rules_S, addt_S|now apply addt_S].
  - destruct (match t_sub t with F15_SB_SPEED_ALTITUDE_NAS | F15_SB_SPEED_ALTITUDE_NAM => true | _ => false end); [constructor|]. on. now apply speeds_S.
  - on. apply report_S; [exact Q|now apply addt_S].
Qed.
Lemma suits_same i j t u s z : J i j -> P t u -> S s z -> suits j u z = suits i t s.
Proof.
  intros K Q H. unfold suits, spot. cbv zeta. rewrite (I_sub _ _ (S_last _ _ H)). destruct K; unfold fits, base_eqb; rewrite ?(P_base t u Q), ?(P_sub t u Q); reflexivity.
Qed.
Lemma misplaced_same i j t u s z : J i j -> P t u -> S s z -> misplaced (spot j z) u = misplaced (spot i s) t.
Proof.
  intros K Q H. unfold spot. cbv zeta. rewrite (I_sub _ _ (S_last _ _ H)). destruct K; unfold misplaced, stray_end; rewrite ?(P_base t u Q), ?(P_sub t u Q); reflexivity.
Qed.
Lemma wrong_R i j t u k q s z ts us : J i j -> P t u -> Forall2 J k q -> S s z -> Forall2 P ts us -> R (wrong i t (k ++ k0) s ts) (wrong j u (q ++ q0) z us).
Proof. intros A Q K H F. unfold wrong. rewrite (misplaced_same i j t u s z A Q H). on. now apply report_S. Qed.
Lemma stays_text t u s z : P t u -> ends_here s t = None /\ ends_here z u = None.
Proof.
  intro Q. destruct (P_end t u Q) as [_ X]. unfold ends_here. rewrite (P_sub t u Q). split; (destruct (in_section _); [now rewrite X|reflexivity]).
Qed.
Lemma text_R i j t u k q s z ts us : i = JText \/ i = JBegin -> J i j -> P t u -> Forall2 J k q -> S s z -> Forall2 P ts us -> R (read i t (k ++ k0) s ts) (read j u (q ++ q0) z us).
Proof.
  intros I0 A Q K H F. pose proof (texts_S (t_text t) s z H) as X. destruct (stays_text t u (SpecReader.texts (t_text t) s) (SpecReader.texts (t_text t) z) Q) as [E1 E2].
  destruct I0 as [ -> | -> ]; inversion A; subst; unfold read; rewrite (P_base t u Q), (P_text t u Q); cbv zeta; rewrite E1, E2;
    (destruct (base_eqb (t_base t) F15_TOO_LONG); [|on]).
  - apply (R_on JSync JSync (JWord t :: JText :: k) (JWord u :: JText :: q)); [constructor|exact Logic.I|repeat (constructor; [constructor; assumption|]); exact K|now apply report_S|exact F].
  - cbn [app]. on. now apply report_S.
Qed.
Lemma read_R i j t u k q s z ts us : J i j -> P t u -> Forall2 J k q -> S s z -> Forall2 P ts us -> R (read i t (k ++ k0) s ts) (read j u (q ++ q0) z us).
Proof.
  intros A Q K H F. pose proof (suits_same i j t u s z A Q H) as Su.
  assert (W : R (wrong i t (k ++ k0) s ts) (wrong j u (q ++ q0) z us)) by (now apply wrong_R).
  assert (W1 : forall x y, J x y -> R (wrong i t (x :: k ++ k0) s ts) (wrong j u (y :: q ++ q0) z us)).
  { intros x y X. apply (wrong_R i j t u (x :: k) (y :: q)); try assumption. now constructor. }
  pose proof (start_R t u k q s z ts us Q K H F) as St.
  destruct A; try (now apply text_R; try assumption; try constructor; auto);
    try (unfold read; rewrite Su; destruct (suits _ t s) eqn:Es; rewrite ?(P_base t u Q);
         [ first [ exact St
                 | destruct (base_eqb (t_base t) F15_SLASH); [on; fail|exact St]
                 | on; fail
                 | idtac ]
         | destruct (t_base t); first [exact W | apply W1; now constructor] ]; fail).
  - unfold read. rewrite Su, ?(P_base t u Q). destruct (suits _ t s); [|destruct (t_base t); exact W]. destruct (base_eqb (t_base t) F15_SLASH); [on|]. apply start_R; try assumption. now apply addt_S.
  - unfold read. rewrite Su, ?(P_base t u Q), (angle_same t u Q). destruct (suits _ t s); [|destruct (t_base t); exact W]. on. apply report_S; [exact Q|]. apply locates_S; [exact Q|]. now apply addt_S.
  - unfold read. rewrite Su, ?(P_base t u Q). destruct (suits _ t s); [|apply W1; constructor].
    apply (start_R t u (JAsPoint :: k) (JAsPoint :: q)); try assumption. constructor; [constructor|exact K].
  - unfold read. rewrite Su, ?(P_base t u Q), (P_text t u Q). destruct (suits _ t s); [|destruct (t_base t); exact W]. on. now apply stays_S.
  - exact W.
  - unfold read. rewrite (P_base t u Q). destruct (P_end t u Q) as [Ne _]. destruct (t_base t); try exact St; try congruence; on; now apply report_S.
  - unfold read. rewrite (P_base t u Q). destruct (t_base t); try exact St; on; now apply report_S.
  - unfold read. on. now apply point_S.
Qed.
Lemma at_end_S i j s z : J i j -> S s z -> S (at_end i s) (at_end j z).
Proof. intros A H. destruct A; cbn [at_end]; try exact H; try (now apply report_S); [now apply addt_S|apply report_S; [assumption|now apply addt_S]]. Qed.
Lemma step_R i j k q s z ts us : J i j -> Forall2 J k q -> S s z -> Forall2 P ts us -> awake (i :: k) ts -> R (step1 (i :: k ++ k0) s ts) (step1 (j :: q ++ q0) z us).
Proof.
  intros A K H F D.
  assert (X : R (match ts with [] => Goes (k ++ k0) (at_end i s) [] | t :: ts' => read i t (k ++ k0) s ts' end) (match us with [] => Goes (q ++ q0) (at_end j z) [] | t :: ts' => read j t (q ++ q0) z ts' end)).
  { destruct F as [|t u ts us Q F]; [constructor; [exact K|now apply at_end_S|constructor|now left]|now apply read_R]. }
  destruct A; try exact X; cbn [step1].
  - destruct D as [ -> |[]]. inversion F; subst. rewrite (P_text t u) by assumption. constructor; [exact K|now apply texts_S|constructor|now left].
  - on. now apply point_S.
Qed.
Lemma play_S n : forall n' x y s z ts us s1 z1, R (Goes x s ts) (Goes y z us) -> play n x s ts = Done s1 -> play n' y z us = Done z1 ->
  exists s0 z0 m m', S s0 z0 /\ play m k0 s0 [] = Done s1 /\ play m' q0 z0 [] = Done z1.
Proof.
  induction n as [|n IH]; intros n' x y s z ts us s1 z1 H E1 E2; inversion H as [k q ? ? ? ? K Sz F D|]; subst; destruct K as [|i j k q A K];
    try (destruct D as [ -> |[]]; inversion F; subst; exists s, z, n', n'; fail).
  - destruct D as [ -> |[]]. inversion F; subst. exists s, z, O, n'. auto.
  - discriminate E1.
  - destruct D as [ -> |[]]. inversion F; subst. exists s, z, (Datatypes.S n), n'. auto.
  - destruct n' as [|n']; [discriminate E2|]. pose proof (step_R i j k q s z ts us A K Sz F D) as X. cbn [app play] in E1, E2.
    destruct (step1 (i :: k ++ k0) s ts) as [x' s' ts'|]; [|discriminate E1]. destruct (step1 (j :: q ++ q0) z us) as [y' z' us'|]; [|discriminate E2].
    exact (IH n' x' y' s' z' ts' us' s1 z1 X E1 E2).
Qed.
Lemma run_split g l m : run g l m -> Forall2 I l m /\ exists l1 l2 m1 m2, l = l1 ++ l2 /\ m = m1 ++ m2 /\
  Forall2 (fun i j => fly i j = false) l1 m1 /\ Forall2 (fun i j => fly i j = true) l2 m2 /\ (g = false -> l2 = []).
Proof.
  induction 1 as [|g l m i j H [IH1 (l1 & l2 & m1 & m2 & -> & -> & A1 & A2 & A3)] Hi Hg].
  - split; [constructor|]. exists [], [], [], []. repeat split; constructor.
  - split; [apply Forall2_app; [exact IH1|now constructor]|]. destruct (fly i j) eqn:Fl.
    + exists l1, (l2 ++ [i]), m1, (m2 ++ [j]). rewrite !app_assoc. repeat split; [exact A1|apply Forall2_app; [exact A2|now constructor]|]. rewrite orb_true_r. discriminate.
    + destruct g; [now specialize (Hg eq_refl)|]. rewrite (A3 eq_refl) in *. inversion A2; subst. exists (l1 ++ [i]), [], (m1 ++ [j]), []. rewrite !app_nil_r. repeat split; [|constructor].
      apply Forall2_app; [exact A1|now constructor].
Qed.
End After.

(** ** The two fields *)
From Verif Require Split Swap RegexProofs SyntaxProofs.
Lemma wt_ends t c : wt t -> t_base t <> F15_BREAK_END -> ends c (t_sub t) = false.
Proof.
  intros W N. destruct (ends c (t_sub t)) eqn:E; [|reflexivity]. exfalso. apply N.
  assert (K : forall sb x, t_sub t = sb -> sb <> F15_SB_UNKNOWN ->
    forallb (fun sh => RegexProofs.shape_incl sh (map (fun c => [(c, c)]) x)) (RegexProofs.shapes_with (fun T => sub_eqb (snd T) sb)) = true -> fst (classify x) = F15_BREAK_END -> t_base t = F15_BREAK_END).
  { intros sb x E1 E2 E3 E4. rewrite <- (Swap.keyword_text t sb x W E1 E2 E3) in E4. unfold wt in W. rewrite W in E4. exact E4. }
  destruct c, (t_sub t) eqn:Es; try discriminate E.
  - apply (K F15_SB_IFR ($"IFR")); [reflexivity|discriminate|vm_compute; reflexivity|vm_compute; reflexivity].
  - apply (K F15_SB_GAT ($"GAT")); [reflexivity|discriminate|vm_compute; reflexivity|vm_compute; reflexivity].
  - apply (K F15_SB_IFPSTART ($"IFPSTART")); [reflexivity|discriminate|vm_compute; reflexivity|vm_compute; reflexivity].
Qed.
(** One field up to the point. *)
Notation recorded_elsewhere a := (oks (fun z => z <> a) (fun _ => True)).
Lemma one_side L x p R s1 : (forall b, ends b (t_sub p) = false) -> Forall (fun t => t_start t <> t_start p) R ->
  Forall (fun t => t_start t < t_start p /\ t_base t <> F15_TOO_LONG) (L ++ [x]) -> 0 < t_start p -> stands_alone x p ->
  begin (L ++ x :: p :: R) = Done s1 -> past p R s1 \/ recorded_elsewhere (t_start p) s1.
Proof.
  intros Ne La Be Zp SA E. assert (Bp : t_base p = F15_POINT) by apply SA.
  assert (Be' : Forall (okt (fun z => z < t_start p) (fun z => z <= t_start p) (fun _ => False)) (L ++ [x])).
  { eapply Forall_impl; [|exact Be]. cbn. intros t [A1 A2]. repeat split; [exact A1|lia|exact A2]. }
  destruct (L ++ [x]) as [|t M] eqn:EM; [destruct L; discriminate|].
  assert (Es : L ++ x :: p :: R = t :: M ++ p :: R) by (change (x :: p :: R) with ([x] ++ p :: R); rewrite app_assoc, EM; reflexivity).
  assert (SA' : stands_alone (last M t) p).
  { replace (last M t) with x; [exact SA|]. assert (X : last (t :: M) t = x) by (rewrite <- EM; apply last_last). rewrite <- X. destruct M as [|m M]; reflexivity. }
  rewrite Es in E. inversion Be' as [|? ? Tt TM]; subst.
  assert (B0 : oks (fun z => z < t_start p) (fun z => z <= t_start p) blank_notes) by (constructor; cbn; [constructor|exact Zp|constructor]).
  assert (Hd : head_ok (fun z => z <= t_start p) (M ++ p :: R)) by (destruct M as [|z M]; [cbn; lia|]; inversion TM as [|? ? Tz]; apply Tz).
  unfold begin in E.
  assert (G1 : forall n, match start t [] blank_notes (M ++ p :: R) with Goes k s ts' => play n k s ts' | Breaks s => Broken s end = Done s1 -> past p R s1 \/ recorded_elsewhere (t_start p) s1).
  { intros n E'. pose proof (okr_start _ _ _ t [] blank_notes (M ++ p :: R) Tt ltac:(constructor) B0 Hd) as O. pose proof (shape_start t [] blank_notes (M ++ p :: R) ltac:(constructor)) as Sh.
    destruct (start t [] blank_notes (M ++ p :: R)) as [k s ts'|]; [|discriminate E']. destruct O as [O1 O2], Sh as [-> Sh]. exact (reach p R Ne La n t k s M s1 Bp Sh O1 O2 TM SA' E'). }
  assert (G2 : forall n, play n [JSync] (report t [1] blank_notes) (M ++ p :: R) = Done s1 -> past p R s1 \/ recorded_elsewhere (t_start p) s1).
  { intros n E'. refine (reach p R Ne La n t [JSync] _ M s1 Bp _ _ _ TM SA' E'); [cbn; auto|repeat constructor|apply oks_report; [exact B0|apply Tt]]. }
  destruct (t_base t); first [exact (G1 _ E)|exact (G2 _ E)].
Qed.

Lemma filter_all {A} (f : A -> bool) l : Forall (fun x => f x = true) l -> filter f l = l.
Proof. induction 1 as [|x l H F IH]; [reflexivity|]. cbn. now rewrite H, IH. Qed.
Lemma filter_none {A} (f : A -> bool) l : Forall (fun x => f x = false) l -> filter f l = [].
Proof. induction 1 as [|x l H F IH]; [reflexivity|]. cbn. now rewrite H, IH. Qed.

(** The same element at another place. *)
Definition again (a b : Z) (t u : token) : Prop :=
  t_text u = t_text t /\ t_base u = t_base t /\ t_sub u = t_sub t /\ (a < t_start t /\ b < t_start u) /\ (t_base t <> F15_BREAK_END /\ forall c, ends c (t_sub t) = false).
Lemma two_sides p p' R R' s1 z1 : t_text p' = t_text p -> t_base p' = t_base p -> t_sub p' = t_sub p -> Forall2 (again (t_start p) (t_start p')) R R' -> past p R s1 -> past p' R' z1 ->
  exists g l m e f, run (t_start p) (t_start p') g l m /\ filter (fun i => t_start p <=? i_start i) (all_items s1) = l /\ filter (fun i => t_start p' <=? i_start i) (all_items z1) = m /\
    (exists i r, all_items s1 = i :: r /\ i_start i < t_start p) /\ (exists i r, all_items z1 = i :: r /\ i_start i < t_start p') /\
    filter (fun q => t_start p <? t_start (fst q)) (n_reports s1) = e /\ filter (fun q => t_start p' <? t_start (fst q)) (n_reports z1) = f /\
    Forall2 (fun q h => again (t_start p) (t_start p') (fst q) (fst h) /\ snd q = snd h) e f.
Proof.
  intros Et Eb Es F (n & k0 & s0 & E1 & K1 & O1) (n' & q0 & z0 & E2 & K2 & O2). set (a := t_start p) in *. set (b := t_start p') in *.
  assert (Q1 : forall t u, again a b t u -> t_text u = t_text t) by (now intros t u (X & _)).
  assert (Q2 : forall t u, again a b t u -> t_base u = t_base t) by (now intros t u (_ & X & _)).
  assert (Q3 : forall t u, again a b t u -> t_sub u = t_sub t) by (now intros t u (_ & _ & X & _)).
  assert (Q4 : forall t u, again a b t u -> a < t_start t /\ b < t_start u) by (now intros t u (_ & _ & _ & X & _)).
  assert (Q5 : forall t u, again a b t u -> t_base t <> F15_BREAK_END /\ forall c, ends c (t_sub t) = false) by (now intros t u (_ & _ & _ & _ & X)).
  assert (N1 : forall s, all_items s <> []) by (intro s; unfold all_items; destruct (n_before s); discriminate).
  assert (Hs : S (again a b) a b (all_items s0) (all_items z0) (n_reports (point p s0)) (n_reports (point p' z0)) (point p s0) (point p' z0)).
  { constructor.
    - exists false, [], []. rewrite !app_nil_r. repeat split; [constructor|discriminate].
    - constructor; cbn; try congruence. unfold a, b. lia.
    - exists [], []. rewrite !app_nil_r. repeat split. constructor. }
  assert (Hr : Local.R (again a b) a b (all_items s0) (all_items z0) (n_reports (point p s0)) (n_reports (point p' z0)) k0 q0 (Goes (JPoint :: k0) (point p s0) R) (Goes (JPoint :: q0) (point p' z0) R')).
  { apply (R_goes _ _ _ _ _ _ _ _ _ [JPoint] [JPoint]); [repeat constructor|exact Hs|exact F|right; exact Logic.I]. }
  destruct (play_S _ a b _ _ _ _ (N1 s0) (N1 z0) Q1 Q2 Q3 Q4 Q5 k0 q0 n n' _ _ _ _ _ _ s1 z1 Hr E1 E2) as (s2 & z2 & m & m' & [(g & l & r & A1 & A2 & A3 & A4) A5 (e & f & A6 & A7 & A8)] & D1 & D2).
  destruct (drain p m k0 s2 s1 K1 D1) as (X & Y & X1 & X2 & X3 & X4). destruct (drain p' m' q0 z2 z1 K2 D2) as (X' & Y' & X1' & X2' & X3' & X4').
  exists (g || fly (n_last s2) (n_last z2)), (l ++ [n_last s2]), (r ++ [n_last z2]), e, f.
  assert (Ru : run a b (g || fly (n_last s2) (n_last z2)) (l ++ [n_last s2]) (r ++ [n_last z2])) by (now constructor).
  assert (Bs : forall q s, oks (fun z => z < t_start q) (fun z => z <= t_start q) s -> Forall (fun i => i_start i < t_start q) (all_items s)).
  { intros q s [H1 H2 _]. apply Forall_app. split; [exact H1|]. now constructor. }
  pose proof (Bs p s0 O1) as B1. pose proof (Bs p' z0 O2) as B2.
  destruct (run_split a b _ _ _ Ru) as [Fi _].
  assert (L1 : Forall (fun i => a <= i_start i) (l ++ [n_last s2])).
  { clear - Fi. induction Fi as [|i j v w H F IH]; constructor; [apply H|exact IH]. }
  assert (L2 : Forall (fun i => b <= i_start i) (r ++ [n_last z2])).
  { clear - Fi. induction Fi as [|i j v w H F IH]; constructor; [apply H|exact IH]. }
  assert (C1 : all_items s1 = all_items s0 ++ (l ++ [n_last s2]) ++ X) by (rewrite X1; unfold all_items at 1; rewrite A1, <- !app_assoc; reflexivity).
  assert (C2 : all_items z1 = all_items z0 ++ (r ++ [n_last z2]) ++ X') by (rewrite X1'; unfold all_items at 1; rewrite A2, <- !app_assoc; reflexivity).
  split; [exact Ru|]. split; [|split; [|split; [|split; [|split; [|split; [|exact A8]]]]]].
  - rewrite C1, filter_app, filter_app. rewrite (filter_none _ (all_items s0)), (filter_all _ (l ++ _)), (filter_none _ X); [now rewrite app_nil_r|..]; (eapply Forall_impl; [|eassumption]); cbn; intros; subst a; lia.
  - rewrite C2, filter_app, filter_app. rewrite (filter_none _ (all_items z0)), (filter_all _ (r ++ _)), (filter_none _ X'); [now rewrite app_nil_r|..]; (eapply Forall_impl; [|eassumption]); cbn; intros; subst b; lia.
  - rewrite C1. destruct (all_items s0) as [|i w] eqn:Ei; [now apply N1 in Ei|]. exists i, (w ++ (l ++ [n_last s2]) ++ X). split; [reflexivity|]. now inversion B1.
  - rewrite C2. destruct (all_items z0) as [|i w] eqn:Ei; [now apply N1 in Ei|]. exists i, (w ++ (r ++ [n_last z2]) ++ X'). split; [reflexivity|]. now inversion B2.
  - rewrite X3, A6, !filter_app. rewrite (filter_none _ (n_reports (point p s0))), (filter_all _ e), (filter_none _ Y); [now rewrite app_nil_r| | |].
    + eapply Forall_impl; [|exact X4]. cbn. intros. subst a. lia.
    + clear - A8 Q4. induction A8 as [|q h v w [H _] F IH]; constructor; [|exact IH]. apply Q4 in H. lia.
    + assert (O : oks (fun z => z <= a) (fun z => z <= a) (point p s0)).
      { apply (oks_point _ _ (fun _ => True)); [|repeat split; unfold a; lia]. destruct O1 as [O3 O4 O5]. constructor; [|fold a in O4; lia|exact O5]. eapply Forall_impl; [|exact O3]. cbn. intros. subst a. lia. }
      eapply Forall_impl; [|apply (o_reports _ _ _ O)]. cbn. intros. lia.
  - rewrite X3', A7, !filter_app. rewrite (filter_none _ (n_reports (point p' z0))), (filter_all _ f), (filter_none _ Y'); [now rewrite app_nil_r| | |].
    + eapply Forall_impl; [|exact X4']. cbn. intros. subst b. lia.
    + clear - A8 Q4. induction A8 as [|q h v w [H _] F IH]; constructor; [|exact IH]. apply Q4 in H. lia.
    + assert (O : oks (fun z => z <= b) (fun z => z <= b) (point p' z0)).
      { apply (oks_point _ _ (fun _ => True)); [|repeat split; unfold b; lia]. destruct O2 as [O3 O4 O5]. constructor; [|fold b in O4; lia|exact O5]. eapply Forall_impl; [|exact O3]. cbn. intros. subst b. lia. }
      eapply Forall_impl; [|apply (o_reports _ _ _ O)]. cbn. intros. lia.
Qed.

(** ** Records and errors *)
Section Fields.
Variable G : geodesic.
Definition leg_only (r q : rrec) : Prop := exists x y, q = set_r_dist y (set_r_brg x r).
Lemma legs_only l : Forall2 leg_only l (with_legs G l).
Proof.
  induction l as [|r l IH]; cbn [with_legs]; constructor; [|exact IH]. unfold with_leg. destruct (if r_llv r then next_located l else None) as [q|].
  - cbv zeta. eexists _, _. reflexivity.
  - exists (r_brg r), (r_dist r). destruct r. reflexivity.
Qed.
Lemma from_only a l m : Forall2 leg_only l m -> Forall2 leg_only (from_on a l) (from_on a m).
Proof.
  induction 1 as [|r q l m (x & y & ->) F IH]; [constructor|]. unfold from_on in *. cbn [filter].
  change (r_start (set_r_dist y (set_r_brg x r))) with (r_start r). destruct (a <=? r_start r); [|exact IH]. constructor; [now exists x, y|exact IH].
Qed.
Lemma from_items a l : from_on a (map (record_of G) l) = map (record_of G) (filter (fun i => a <=? i_start i) l).
Proof. induction l as [|i l IH]; [reflexivity|]. unfold from_on in *. cbn [map filter]. change (r_start (record_of G i)) with (i_start i). destruct (a <=? i_start i); cbn [map]; now rewrite IH. Qed.
Lemma after_errors a l : after a (map error_of l) = map error_of (filter (fun q => a <? t_start (fst q)) l).
Proof. induction l as [|i l IH]; [reflexivity|]. unfold after in *. cbn [map filter]. change (r_start (error_of i)) with (t_start (fst i)). destruct (a <? t_start (fst i)); cbn [map]; now rewrite IH. Qed.
Lemma record_same a b i j : I a b i j -> same_element (record_of G i) (record_of G j).
Proof.
  intros []. unfold same_element, record_of. cbv zeta. cbn [r_name r_base r_sub r_break r_rules r_err r_stay r_cto r_cto_si r_lat r_lon r_llv].
  rewrite I_name0, I_base0, I_sub0, I_rules0, I_text0, I_stay0, I_target0, I_si0, I_loc0. repeat split.
Qed.
Lemma fly_same i j : fly i j = true -> same_flight (record_of G i) (record_of G j).
Proof.
  unfold fly. intro H. apply andb_true_iff in H as [H1 H2]. apply pstr_eqb_eq in H1. apply pstr_eqb_eq in H2. unfold same_flight, record_of. cbn. rewrite H1, H2. repeat split.
Qed.
Lemma fly_other i j : fly i j = false -> other_flight (record_of G i) (record_of G j).
Proof.
  unfold fly, other_flight. cbn. intro H. apply andb_false_iff in H as [H|H]; [left|right]; intro X; rewrite X, pstr_eqb_refl in H; discriminate.
Qed.
Lemma legs_pair (Q Q' : rrec -> rrec -> Prop) (K : forall r q x y x' y', Q r q -> Q' (set_r_dist y (set_r_brg x r)) (set_r_dist y' (set_r_brg x' q))) :
  forall l m l' m', Forall2 Q l m -> Forall2 leg_only l l' -> Forall2 leg_only m m' -> Forall2 Q' l' m'.
Proof.
  intros l m l' m' F. revert l' m'. induction F as [|r q l m H F IH]; intros l' m' A C; inversion A as [|? ? ? ? (x & y & ->) A']; inversion C as [|? ? ? ? (x' & y' & ->) C']; subst; constructor; auto.
Qed.
Lemma F2_map {A C} (Q : A -> A -> Prop) (Q' : C -> C -> Prop) (h : A -> C) l m : (forall i j, Q i j -> Q' (h i) (h j)) -> Forall2 Q l m -> Forall2 Q' (map h l) (map h m).
Proof. intros K F. induction F; constructor; auto. Qed.
Lemma same_there a b g l m L M : run a b g l m -> Forall2 leg_only (map (record_of G) l) L -> Forall2 leg_only (map (record_of G) m) M -> same_from_there L M.
Proof.
  intros R A C. destruct (run_split a b g l m R) as (F & l1 & l2 & m1 & m2 & -> & -> & F1 & F2 & _). split.
  - refine (legs_pair same_element same_element _ _ _ _ _ (F2_map _ _ (record_of G) _ _ (record_same a b) F) A C). intros r q x y x' y' H. exact H.
  - rewrite !map_app in A, C. apply Forall2_app_inv_l in A as (L1 & L2 & A1 & A2 & ->). apply Forall2_app_inv_l in C as (M1 & M2 & C1 & C2 & ->).
    exists L1, L2, M1, M2. split; [reflexivity|]. split; [reflexivity|]. split.
    + refine (legs_pair other_flight other_flight _ _ _ _ _ (F2_map _ _ (record_of G) _ _ fly_other F1) A1 C1). intros r q x y x' y' H. exact H.
    + refine (legs_pair same_flight same_flight _ _ _ _ _ (F2_map _ _ (record_of G) _ _ fly_same F2) A2 C2). intros r q x y x' y' H. exact H.
Qed.
(** The end of the field changes nothing after a point. *)
Lemma conclude_from a ts s : 0 < a -> (exists i r, all_items s = i :: r /\ i_start i < a) ->
  filter (fun i => a <=? i_start i) (fst (conclude ts s)) = filter (fun i => a <=? i_start i) (all_items s).
Proof.
  intros Za (i & r & Ei & Hi). unfold conclude. cbv zeta. cbn [fst]. fold (all_items s). rewrite filter_app, Ei. cbn [filter n_last rules with_last aero i_start].
  replace (a <=? 0) with false by lia. rewrite app_nil_r. destruct ts as [|t ts]; [reflexivity|]. destruct (base_eqb (t_base t) F15_SPEED_VFR); [|reflexivity].
  cbn [filter n_last rules with_last i_start]. now replace (a <=? i_start i) with false by lia.
Qed.
Lemma conclude_reports t u ts s : snd (conclude (t :: u :: ts) s) = n_reports s.
Proof. reflexivity. Qed.
Lemma conclude_elsewhere a ts s : 0 < a -> oks (fun z => z <> a) (fun _ => True) s -> Forall (fun i => i_start i <> a) (fst (conclude ts s)).
Proof.
  intros Za [A C _]. unfold conclude. cbv zeta. cbn [fst].
  assert (X : Forall (fun i => i_start i <> a) (n_before s ++ [n_last s])) by (apply Forall_app; split; [exact A|now constructor]).
  apply Forall_app. split; [|repeat constructor; cbn; lia]. destruct ts as [|t ts]; [exact X|]. destruct (n_before s ++ [n_last s]) as [|i r]; [exact X|].
  destruct (base_eqb (t_base t) F15_SPEED_VFR); [|exact X]. inversion X; subst. constructor; assumption.
Qed.

(** What is known of a field in which a point is recorded. *)
Lemma field_past depth f b s A x p R : field_tokens f = A ++ x :: p :: R -> parse_field15 G depth f = Ok b s -> stands_alone x p -> Forall (fun t => ~ too_long t) (A ++ [x]) ->
  (exists r, In r (e_recs (s_ers s)) /\ r_start r = t_start p) ->
  0 < t_start p /\ exists s1, past p R s1 /\ Forall2 leg_only (map (record_of G) (fst (conclude (field_tokens f) s1))) (e_recs (s_ers s)) /\ e_errs (s_ers s) = map error_of (snd (conclude (field_tokens f) s1)).
Proof.
  intros Ef Ok SA Nl (r & Hr & Er).
  assert (Ef' : field_tokens f = (A ++ [x]) ++ p :: R) by (rewrite <- app_assoc; exact Ef).
  destruct (Split.field_places f (A ++ [x]) p R Ef' ltac:(destruct A; discriminate)) as (P1 & _ & P3). split; [exact P3|].
  assert (Nf : field_tokens f <> []) by (rewrite Ef; destruct A; discriminate).
  destruct (complete G depth f b s Nf Ok) as (l & e & Rd & _ & Es). unfold reading in Rd.
  destruct (begin (field_tokens f)) as [s1| |] eqn:Bg; try discriminate Rd. destruct (conclude (field_tokens f) s1) as [l' e'] eqn:Ec. injection Rd as <- <-.
  assert (Lg : Forall2 leg_only (map (record_of G) l') (e_recs (s_ers s))) by (rewrite Es; apply legs_only).
  exists s1. rewrite Ec. cbn [fst snd]. split; [|split; [exact Lg|now rewrite Es]].
  pose proof (field_wt f) as W. rewrite Ef, Forall_forall in W.
  assert (Wp : wt p) by (apply W; apply in_or_app; right; right; now left).
  assert (Bp : t_base p = F15_POINT) by apply SA.
  rewrite Ef in Bg. destruct (one_side A x p R s1) as [H|H]; try assumption.
  - intro c. apply wt_ends; [exact Wp|]. rewrite Bp. discriminate.
  - apply Forall_forall. intros t Ht. apply in_split in Ht as (R1 & R2 & ->).
    destruct (Split.field_places f (A ++ x :: p :: R1) t R2) as (Q1 & _); [rewrite Ef, <- app_assoc; reflexivity|destruct A; discriminate|].
    specialize (Q1 p). assert (t_start p < t_start t) by (apply Q1, in_or_app; right; right; now left). lia.
  - rewrite Forall_forall in Nl |- *. intros t Ht. split; [now apply P1|exact (Nl t Ht)].
  - exfalso. pose proof (conclude_elsewhere (t_start p) (field_tokens f) s1 P3 H) as C. rewrite Ec in C. cbn [fst] in C.
    assert (X : Forall (fun q => r_start q <> t_start p) (e_recs (s_ers s))).
    { clear - Lg C. revert Lg C. generalize (e_recs (s_ers s)). induction l' as [|i l IH]; intros rs F C; cbn [map] in F; inversion F as [|? ? ? ? (y & z & ->) F']; subst; constructor; inversion C; subst; [assumption|now apply IH]. }
    rewrite Forall_forall in X. exact (X r Hr Er).
Qed.
Theorem local depth depth' f f' b b' s s' A x p R A' x' p' R' :
  field_tokens f = A ++ x :: p :: R -> field_tokens f' = A' ++ x' :: p' :: R' -> map t_text (p :: R) = map t_text (p' :: R') ->
  parse_field15 G depth f = Ok b s -> parse_field15 G depth' f' = Ok b' s' ->
  stands_alone x p -> stands_alone x' p' -> Forall (fun t => ~ too_long t) (A ++ [x]) -> Forall (fun t => ~ too_long t) (A' ++ [x']) ->
  Forall (fun t => ~ ends_a_section t) R ->
  (exists r, In r (e_recs (s_ers s)) /\ r_start r = t_start p) -> (exists r, In r (e_recs (s_ers s')) /\ r_start r = t_start p') ->
  same_from_there (from_on (t_start p) (e_recs (s_ers s))) (from_on (t_start p') (e_recs (s_ers s'))) /\
  Forall2 same_error (after (t_start p) (e_errs (s_ers s))) (after (t_start p') (e_errs (s_ers s'))).
Proof.
  intros Ef Ef' Tx Ok Ok' SA SA' Nl Nl' Ne Re Re'.
  destruct (field_past depth f b s A x p R Ef Ok SA Nl Re) as (Zp & s1 & H1 & L1 & E1).
  destruct (field_past depth' f' b' s' A' x' p' R' Ef' Ok' SA' Nl' Re') as (Zp' & z1 & H2 & L2 & E2).
  pose proof (field_wt f) as W. pose proof (field_wt f') as W'. rewrite Ef in W. rewrite Ef' in W'.
  apply Forall_app in W as [_ W]. apply Forall_app in W' as [_ W']. inversion W as [|? ? _ W1]; subst. inversion W' as [|? ? _ W1']; subst.
  assert (Sm : forall t u, wt t -> wt u -> t_text t = t_text u -> t_base u = t_base t /\ t_sub u = t_sub t) by (unfold wt; intros t u X Y Z; rewrite Z, Y in X; injection X; auto).
  assert (P1 : forall t, In t R -> t_start p < t_start t).
  { intros t Ht. apply in_split in Ht as (R1 & R2 & ->).
    destruct (Split.field_places f (A ++ x :: p :: R1) t R2) as (Q1 & _); [rewrite Ef, <- app_assoc; reflexivity|destruct A; discriminate|]. apply Q1, in_or_app. right. right. now left. }
  assert (P2 : forall t, In t R' -> t_start p' < t_start t).
  { intros t Ht. apply in_split in Ht as (R1 & R2 & ->).
    destruct (Split.field_places f' (A' ++ x' :: p' :: R1) t R2) as (Q1 & _); [rewrite Ef', <- app_assoc; reflexivity|destruct A'; discriminate|]. apply Q1, in_or_app. right. right. now left. }
  cbn [map] in Tx. injection Tx as Tp Tr. inversion W1 as [|? ? [Wp _] W2]; subst. inversion W1' as [|? ? [Wp' _] W2']; subst.
  destruct (Sm p p' Wp Wp' Tp) as [Bp Sp].
  assert (Ag : Forall2 (again (t_start p) (t_start p')) R R').
  { clear - Tr W2 W2' P1 P2 Ne Sm. revert R' Tr W2' P2. induction R as [|t R IH]; intros [|u R'] Tr W2' P2; try discriminate Tr; constructor.
    - cbn [map] in Tr. injection Tr as T1 _. inversion W2 as [|? ? [Wt _]]; subst. inversion W2' as [|? ? [Wu _]]; subst. destruct (Sm t u Wt Wu T1) as [B1 S1]. inversion Ne as [|? ? Nt]; subst.
      split; [now symmetry|]. split; [exact B1|]. split; [exact S1|]. split; [split; [apply P1; now left|apply P2; now left]|]. split; [exact Nt|]. intro c. now apply wt_ends.
    - cbn [map] in Tr. injection Tr as _ T2. inversion W2; subst. inversion W2'; subst. inversion Ne; subst. apply IH; auto; intros t' Ht'; [apply P1|apply P2]; now right. }
  destruct (two_sides p p' R R' s1 z1 (eq_sym Tp) Bp Sp Ag H1 H2) as (g & l & m & e & h & Ru & El & Em & Fi & Fi' & Ee & Eh & Er).
  split.
  - apply (same_there (t_start p) (t_start p') g l m _ _ Ru).
    + rewrite <- El, <- (conclude_from _ (field_tokens f) s1 Zp Fi), <- from_items. now apply from_only.
    + rewrite <- Em, <- (conclude_from _ (field_tokens f') z1 Zp' Fi'), <- from_items. now apply from_only.
  - rewrite E1, E2, !after_errors. 
    assert (C1 : snd (conclude (field_tokens f) s1) = n_reports s1) by (rewrite Ef; destruct A as [|y [|w A]]; reflexivity).
    assert (C2 : snd (conclude (field_tokens f') z1) = n_reports z1) by (rewrite Ef'; destruct A' as [|y [|w A']]; reflexivity).
    rewrite C1, C2, Ee, Eh. refine (F2_map _ _ error_of _ _ _ Er).
    intros [t n] [u n'] [(X1 & X2 & X3 & _) X4]. cbn [fst snd] in *. subst n'. unfold same_error, error_of. cbn. rewrite X1, X2, X3. repeat split.
Qed.
End Fields.
