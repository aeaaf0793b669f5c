(** * Flow: the reading machine looks at the figures of an element only to store them. *)
From Coq Require Import ZArith NArith List Bool String Lia.
From Verif Require Import RegexProofs.
From Verif Require Import PyBase PyFloat Enums ErrorTable SyntaxTable Tokenizer Ers Utils Parser SpecTokenizer SpecNum SpecParser SpecGrammar SpecAccept SpecDiagnosis SpecReader SpecComplete SpecRename SpecFlow.
From Verif Require Import TokenizerProofs PerfEq Describe Reader ReaderFacts CompleteFacts.
From Verif Require Rename.
Import List ListNotations.
Local Open Scope list_scope.
Local Open Scope Z_scope.

(** The sub types the machine looks at. *)
Definition plain_sub (sb : sub_type) : bool :=
  match sb with
  | F15_SB_PRP_BD | F15_SB_LL_DEG | F15_SB_LL_MIN | F15_SB_LLBD_DEG | F15_SB_LLBD_MIN
  | F15_SB_OAT | F15_SB_VFR | F15_SB_IFPSTOP | F15_SB_IFR | F15_SB_GAT | F15_SB_IFPSTART => false
  | _ => true
  end.
Definition speed_base (b : base_type) : bool :=
  match b with F15_SPEED_VFR | F15_SPEED_ALTITUDE | F15_SPEED_ALTITUDE_ALTITUDE | F15_SPEED_ALTITUDE_PLUS => true | _ => false end.
Definition kin_sub (b : base_type) (x y : sub_type) : Prop :=
  y = x \/ (speed_base b = true /\ plain_sub x = true /\ plain_sub y = true) \/ (b = F15_POINT /\ has_coordinates x = true /\ has_coordinates y = true).
Section P.
Variable G : geodesic.
Variable P : token -> token -> Prop.
Variables Vs Vc Vt : Prop.
(** What speed and level of two records have to do with each other, as texts; and the targets of climbs. *)
Variable RV : pstr -> pstr -> pstr -> pstr -> Prop.
Variable RT : pstr -> pynum -> pstr -> pynum -> Prop.
(** What the names of two records with coordinates have to do with each other. *)
Variable RC : pstr -> pstr -> Prop.
Hypothesis RV_none : RV [] [] [] [].
Hypothesis RT_none : RT [] PyZeroFloat [] PyZeroFloat.
Hypothesis P_base : forall t u, P t u -> t_base u = t_base t.
Hypothesis P_sub : forall t u, P t u -> kin_sub (t_base t) (t_sub t) (t_sub u).
Hypothesis P_text : forall t u, P t u -> t_text t <> [] /\ t_text u <> [].
Hypothesis P_proc : forall t u, P t u -> t_base t = F15_SID_STAR ->
  (t_text t <> $"SID" /\ t_text t <> $"STAR") /\ (t_text u <> $"SID" /\ t_text u <> $"STAR").
Hypothesis P_fixed : forall t u, P t u -> t_base t = F15_SID \/ t_base t = F15_STAR -> t_text u = t_text t.
Hypothesis P_angles : forall t u, P t u -> angle_faults u = angle_faults t.
Hypothesis P_levels : forall t u, P t u -> speed_base (t_base t) = true -> t_base t <> F15_SPEED_VFR -> level_faults u = level_faults t /\ unconvertible u = unconvertible t.
Hypothesis P_speeds : Vs -> forall t u, P t u -> speed_base (t_base t) = true -> t_text u = t_text t /\ t_sub u = t_sub t.
Hypothesis P_coords : forall t u, P t u -> has_coordinates (t_sub t) = true -> RC (t_text t) (t_text u).
Hypothesis RC_same : Vc -> forall a b, RC a b -> coordinates G b = coordinates G a.
Hypothesis P_stays : Vt -> forall t u, P t u -> t_base t = F15_STAY_TIME -> t_text u = t_text t.
Hypothesis P_vfr : forall t u, P t u -> t_base t = F15_SPEED_VFR -> RV (speed_part (t_text t)) ($"F050") (speed_part (t_text u)) ($"F050").
Hypothesis P_rv : forall t u, P t u -> speed_base (t_base t) = true -> t_base t <> F15_SPEED_VFR ->
  RV (speed_part (t_text t)) (first_level (t_text t)) (speed_part (t_text u)) (first_level (t_text u)).
Hypothesis P_plus : forall t u a x b y, P t u -> t_base t = F15_SPEED_ALTITUDE_PLUS -> RT a x b y -> RT (second_level (t_text t)) x (second_level (t_text u)) y.
Hypothesis P_target : forall t u, P t u -> t_base t = F15_SPEED_ALTITUDE_ALTITUDE ->
  RT (stored_target (t_text t)) (PyInt (level_value (stored_target (t_text t)))) (stored_target (t_text u)) (PyInt (level_value (stored_target (t_text u)))).

Lemma p_base t u : P t u -> t_base u = t_base t.
Proof. exact (P_base t u). Qed.
Lemma kin_computed b x y : kin_sub b x y -> computed_point y = computed_point x.
Proof.
  assert (K : forall x, plain_sub x = true -> computed_point x = false) by (intros []; try discriminate; reflexivity).
  assert (L : forall x, has_coordinates x = true -> computed_point x = true) by (intros []; try discriminate; reflexivity).
  intros [ -> |[(_ & X & Y)|(_ & X & Y)]]; [reflexivity|now rewrite (K x X), (K y Y)|now rewrite (L x X), (L y Y)].
Qed.
Lemma kin_coordinates b x y : kin_sub b x y -> has_coordinates y = has_coordinates x.
Proof.
  assert (K : forall x, plain_sub x = true -> has_coordinates x = false) by (intros []; try discriminate; reflexivity).
  intros [ -> |[(_ & X & Y)|(_ & X & Y)]]; [reflexivity|now rewrite (K x X), (K y Y)|now rewrite X, Y].
Qed.
Lemma kin_ends b k x y : kin_sub b x y -> ends k y = ends k x.
Proof.
  assert (K : forall x, plain_sub x = true -> ends k x = false) by (destruct k; intros []; try discriminate; reflexivity).
  assert (L : forall x, has_coordinates x = true -> ends k x = false) by (destruct k; intros []; try discriminate; reflexivity).
  intros [ -> |[(_ & X & Y)|(_ & X & Y)]]; [reflexivity|now rewrite (K x X), (K y Y)|now rewrite (L x X), (L y Y)].
Qed.
Definition loose (b : base_type) : bool := match b with F15_POINT => true | _ => speed_base b end.
Lemma sub_fixed t u : P t u -> loose (t_base t) = false -> t_sub u = t_sub t.
Proof. intros Q H. destruct (P_sub t u Q) as [X|[(X & _)|(X & _)]]; [exact X| |rewrite X in H; discriminate H]. destruct (t_base t); discriminate. Qed.

(** ** Items *)
Definition origin (i j : item) : Prop :=
  (i_name i = i_name j /\ (i_start i, i_end i) = (0, 0) /\ (i_start j, i_end j) = (0, 0)) \/
  exists t u, P t u /\ (i_start i = t_start t /\ i_end i = t_end t) /\ (i_start j = t_start u /\ i_end j = t_end u) /\
    (i_name i = t_text t /\ i_name j = t_text u \/ i_name i = $"VFR" /\ i_name j = $"VFR").
Definition words (a b : pstr) : Prop := exists l m, Forall2 P l m /\ a = join_sp (map t_text l) /\ b = join_sp (map t_text m).
Record I (i j : item) : Prop := mkI {
  I_base : i_base j = i_base i; I_sub : kin_sub (i_base i) (i_sub i) (i_sub j); I_rules : i_rules j = i_rules i; I_stay : Vt -> i_stay j = i_stay i;
  I_speed : Vs -> i_speed j = i_speed i /\ i_level j = i_level i /\ i_target j = i_target i /\ i_target_si j = i_target_si i /\ (i_base i <> F15_POINT -> i_sub j = i_sub i);
  I_loc : i_located j = i_located i; I_name : i_located i = true -> RC (i_name i) (i_name j); I_origin : origin i j; I_words : words (i_text i) (i_text j);
  I_rv : RV (i_speed i) (i_level i) (i_speed j) (i_level j); I_rt : RT (i_target i) (i_target_si i) (i_target j) (i_target_si j) }.
Record S (s z : notes) : Prop := mkS {
  S_before : Forall2 I (n_before s) (n_before z); S_last : I (n_last s) (n_last z);
  S_reports : Forall2 (fun q p => P (fst q) (fst p) /\ snd q = snd p) (n_reports s) (n_reports z) }.

Lemma words_nil : words [] [].
Proof. exists [], []. repeat split; constructor. Qed.
Lemma join_snoc l x : l <> [] -> join_sp (l ++ [x]) = join_sp l ++ 32%N :: x.
Proof.
  induction l as [|a [|b l] IH]; intro H; [congruence|reflexivity|]. cbn [app join_sp] in *. rewrite IH by discriminate. now rewrite <- app_assoc.
Qed.
Lemma join_nil l : join_sp l = [] -> Forall (fun x => x <> []) l -> l = [].
Proof. destruct l as [|a [|b l]]; intros H F; [reflexivity| |]; inversion F; cbn [join_sp] in H; [congruence|]. destruct a; discriminate. Qed.
Definition app_word (y x : pstr) : pstr := match y with [] => x | n :: l => (n :: l) ++ 32%N :: x end.
Lemma app_word_join l x : Forall (fun y => y <> []) l -> app_word (join_sp l) x = join_sp (l ++ [x]).
Proof.
  intro F. destruct l as [|a l]; [reflexivity|]. rewrite join_snoc by discriminate. unfold app_word.
  destruct (join_sp (a :: l)) eqn:E; [|reflexivity]. apply join_nil in E; [discriminate|exact F].
Qed.
Lemma words_app a b t u : words a b -> P t u -> words (app_word a (t_text t)) (app_word b (t_text u)).
Proof.
  intros (l & m & F & -> & ->) H. exists (l ++ [t]), (m ++ [u]). split; [apply Forall2_app; [exact F|constructor; [exact H|constructor]]|].
  rewrite !map_app. cbn [map]. split; symmetry; rewrite app_word_join; try reflexivity; apply Forall_map; clear - F P_text; induction F as [|x y l m H _ IH]; constructor; auto; now apply (P_text x y H).
Qed.

Lemma with_S f g s z : S s z -> I (f (n_last s)) (g (n_last z)) -> S (with_last f s) (with_last g z).
Proof. intros [A B C] H. constructor; assumption. Qed.
Lemma rules_S r s z : S s z -> S (rules r s) (rules r z).
Proof. intro H. apply with_S; [exact H|]. destruct (S_last _ _ H). now constructor. Qed.
Lemma types_S b sb s z : S s z -> S (types b sb s) (types b sb z).
Proof. intro H. apply with_S; [exact H|]. destruct (S_last _ _ H). constructor; cbn; try assumption; [reflexivity|now left|]. intro V. destruct (I_speed0 V) as (? & ? & ? & ? & ?). auto. Qed.
Lemma stays_S m m' s z : (Vt -> m' = m) -> S s z -> S (stays m s) (stays m' z).
Proof. intros M H. apply with_S; [exact H|]. destruct (S_last _ _ H). now constructor. Qed.
Lemma flies_I sp lv sp' lv' i j : (Vs -> sp' = sp /\ lv' = lv) -> RV sp lv sp' lv' -> I i j -> I (flies sp lv i) (flies sp' lv' j).
Proof. intros E Rv H. destruct H. constructor; try assumption. cbn. intro V. destruct (E V), (I_speed0 V) as (? & ? & ? & ? & ?). auto. Qed.
Lemma climbs_I a b a' b' i j : (Vs -> a' = a /\ b' = b) -> RT a b a' b' -> I i j -> I (climbs a b i) (climbs a' b' j).
Proof. intros E Rt H. destruct H. constructor; try assumption. cbn. intro V. destruct (E V), (I_speed0 V) as (? & ? & ? & ? & ?). auto. Qed.
Lemma texts_S t u s z : P t u -> S s z -> S (SpecReader.texts (t_text t) s) (SpecReader.texts (t_text u) z).
Proof.
  intros Q H. apply with_S; [exact H|]. destruct (S_last _ _ H). constructor; try assumption. cbn [i_text]. exact (words_app _ _ t u I_words0 Q).
Qed.
Lemma new_I n m t u i j : P t u -> I i j -> (n = t_text t /\ m = t_text u \/ n = $"VFR" /\ m = $"VFR") -> I (new_item n t i) (new_item m u j).
Proof.
  intros Q B N. destruct B. constructor; cbn; auto; try discriminate; [| |apply words_nil].
  - intro V. destruct (I_speed0 V) as (? & ? & ? & ? & ?). repeat split; try assumption.
    intro NP. destruct (P_sub t u Q) as [X|[(X & _)|(X & _)]]; [exact X|now apply (P_speeds V)|contradiction].
  - right. exists t, u. auto 6.
Qed.
Lemma add_S t u s z : P t u -> S s z -> S (add t s) (add u z).
Proof.
  intros Q [A B C]. constructor; cbn [n_before n_last n_reports add add_as].
  - apply Forall2_app; [exact A|constructor; [exact B|constructor]].
  - apply new_I; auto.
  - exact C.
Qed.
Lemma add_vfr_S t u s z : P t u -> S s z -> S (add_as ($"VFR") t s) (add_as ($"VFR") u z).
Proof.
  intros Q [A B C]. constructor; cbn [n_before n_last n_reports add_as].
  - apply Forall2_app; [exact A|constructor; [exact B|constructor]].
  - apply new_I; auto.
  - exact C.
Qed.
Lemma report_S t u ms s z : P t u -> S s z -> S (report t ms s) (report u ms z).
Proof.
  intros Q [A B C]. constructor; cbn [n_before n_last n_reports report]; try assumption. apply Forall2_app; [exact C|].
  clear C. induction ms as [|m ms IH]; constructor; [split; [exact Q|reflexivity]|exact IH].
Qed.
Lemma located_S t u s z : P t u -> S s z -> i_name (n_last s) = t_text t -> i_name (n_last z) = t_text u -> S (locates t s) (locates u z).
Proof.
  intros Q H N1 N2. apply with_S; [exact H|]. destruct (S_last _ _ H). constructor; cbn; auto.
  - rewrite (kin_coordinates _ _ _ (P_sub t u Q)). now rewrite I_loc0.
  - intros L. apply orb_true_iff in L as [L|L]; [|auto]. rewrite N1, N2. now apply (P_coords t u Q).
Qed.
Lemma point_S t u s z : P t u -> S s z -> S (point t s) (point u z).
Proof.
  intros Q H. unfold point. rewrite (P_angles t u Q). apply report_S; [exact Q|]. apply located_S; [exact Q|now apply rules_S, add_S|reflexivity|reflexivity].
Qed.
(** Speeds are read. *)
Lemma vfr_S t u s z : P t u -> t_base t = F15_SPEED_VFR -> S s z -> S (vfr t s) (vfr u z).
Proof.
  intros Q Bv H. assert (B : speed_base (t_base t) = true) by now rewrite Bv. pose proof (P_vfr t u Q Bv) as Rv. unfold vfr. cbv zeta. assert (X : Vs -> speed_part (t_text u) = speed_part (t_text t) /\ $"F050" = $"F050") by (intro V; destruct (P_speeds V t u Q B) as [-> _]; auto).
  apply rules_S. apply with_S.
  - apply add_vfr_S; [exact Q|]. apply with_S; [exact H|]. apply flies_I; [exact X|exact Rv|apply H].
  - apply flies_I; [exact X|exact Rv|]. apply S_last. apply add_vfr_S; [exact Q|]. apply with_S; [exact H|]. apply flies_I; [exact X|exact Rv|apply H].
Qed.
Lemma speeds_S t u s z : P t u -> speed_base (t_base t) = true -> t_base t <> F15_SPEED_VFR -> S s z -> S (speeds t s) (speeds u z).
Proof.
  intros Q B NV H. unfold speeds. cbv zeta. destruct (P_levels t u Q B NV) as [-> _]. rewrite (p_base t u Q). apply report_S; [exact Q|]. apply rules_S. apply with_S; [exact H|].
  assert (K : I (flies (speed_part (t_text t)) (first_level (t_text t)) (n_last s)) (flies (speed_part (t_text u)) (first_level (t_text u)) (n_last z))).
  { apply flies_I; [|now apply P_rv|apply H]. intro V. destruct (P_speeds V t u Q B) as [-> _]. auto. }
  destruct (t_base t) eqn:Bt; try exact K; apply climbs_I; try exact K.
  - intro V. rewrite <- Bt in B. destruct (P_speeds V t u Q B) as [-> _]. auto.
  - now apply P_target.
  - intro V. rewrite <- Bt in B. destruct (P_speeds V t u Q B) as [-> _]. split; [reflexivity|]. apply (I_speed _ _ K V).
  - exact (P_plus t u _ _ _ _ Q Bt (I_rt _ _ K)).
Qed.

(** ** Jobs *)
Inductive J : job -> job -> Prop :=
| J_adep : J JAdep JAdep | J_dct : J JDct JDct | J_route : J JRoute JRoute | J_sid : J JSid JSid | J_stay : J JStay JStay | J_point : J JPoint JPoint
| J_c t u : P t u -> J (JC t) (JC u)
| J_slash t u : P t u -> J (JSlash t) (JSlash u)
| J_climb t u a b : P t u -> P a b -> J (JClimb t a) (JClimb u b)
| J_climbpt t u : P t u -> J (JClimbPt t) (JClimbPt u)
| J_climbsl t u : P t u -> J (JClimbSl t) (JClimbSl u)
| J_staytok t u : P t u -> J (JStayTok t) (JStayTok u)
| J_staysl t u : P t u -> J (JStaySl t) (JStaySl u)
| J_text : J JText JText | J_begin : J JBegin JBegin
| J_word t u : P t u -> J (JWord t) (JWord u)
| J_join : J JJoin JJoin | J_trunc : J JTruncate JTruncate | J_sync : J JSync JSync
| J_syncsl t u : P t u -> J (JSyncSl t) (JSyncSl u)
| J_aspoint : J JAsPoint JAsPoint
| J_take t u : P t u -> J (JTake t) (JTake u).
Definition nojoin (j : job) : bool := match j with JJoin => false | _ => true end.
Definition deep (k : list job) (ts : list token) : Prop :=
  match k with
  | JJoin :: k' => resume KVfr ts = Resumes /\ forallb nojoin k' = true
  | _ => forallb nojoin k = true
  end.
Inductive R : result -> result -> Prop :=
| R_goes k q s z ts us : Forall2 J k q -> S s z -> Forall2 P ts us -> deep k ts -> R (Goes k s ts) (Goes q z us)
| R_breaks s z : S s z -> R (Breaks s) (Breaks z).

Ltac two := repeat first [assumption | constructor].
Lemma only_same s z : S s z -> only_adep z = only_adep s.
Proof. intros [A _ _]. unfold only_adep. destruct A; reflexivity. Qed.
Lemma section_same s z : S s z -> in_section z = in_section s.
Proof. intro H. unfold in_section. now rewrite (I_rules _ _ (S_last _ _ H)). Qed.
Lemma deep_no k ts : forallb nojoin k = true -> deep k ts.
Proof. destruct k as [|j k]; intro H; [exact H|]. destruct j; try exact H. discriminate H. Qed.
Lemma R_no k q s z ts us : Forall2 J k q -> S s z -> Forall2 P ts us -> forallb nojoin k = true -> R (Goes k s ts) (Goes q z us).
Proof. intros. constructor; try assumption. now apply deep_no. Qed.
Lemma resume_same b ts us : Forall2 P ts us -> resume b us = resume b ts.
Proof.
  intro F. unfold resume. destruct F as [|t u ts us Q F]; [reflexivity|]. rewrite (p_base _ _ Q). destruct (t_base t); try reflexivity. destruct b; try reflexivity.
  destruct F as [|t1 u1 ts us Q1 F]; [reflexivity|]. rewrite (p_base _ _ Q1). destruct (t_base t1); try reflexivity.
  destruct F as [|t2 u2 ts us Q2 F]; [reflexivity|]. now rewrite (p_base _ _ Q2).
Qed.
Lemma leave_R b k q s z ts us : Forall2 J k q -> S s z -> Forall2 P ts us -> forallb nojoin k = true -> R (leave b k s ts) (leave b q z us).
Proof.
  intros K H F N. unfold leave. rewrite (resume_same b _ _ F). destruct (resume b ts) eqn:E.
  - now apply R_no.
  - destruct b; [|apply R_no; try assumption; cbn [app]; two..]. constructor; try assumption; cbn [app]; [two|]. cbn [deep]. now split.
  - destruct F as [|t u ts us Q F]; [now apply R_no|]. apply R_no; [two|now apply report_S|two|exact N].
Qed.
Lemma sid_same t u : P t u -> t_base t = F15_SID \/ t_base t = F15_SID_STAR -> sid_sub u = sid_sub t.
Proof.
  intros Q [B|B]; unfold sid_sub.
  - rewrite (P_fixed t u Q) by auto. reflexivity.
  - destruct (P_proc t u Q B) as [[A _] [C _]]. destruct (pstr_eqb (t_text t) _) eqn:E1; [apply pstr_eqb_eq in E1; contradiction|].
    destruct (pstr_eqb (t_text u) _) eqn:E2; [apply pstr_eqb_eq in E2; contradiction|reflexivity].
Qed.
Lemma star_same t u : P t u -> t_base t = F15_STAR \/ t_base t = F15_SID_STAR -> star_sub u = star_sub t.
Proof.
  intros Q [B|B]; unfold star_sub.
  - rewrite (P_fixed t u Q) by auto. reflexivity.
  - destruct (P_proc t u Q B) as [[_ A] [_ C]]. destruct (pstr_eqb (t_text t) _) eqn:E1; [apply pstr_eqb_eq in E1; contradiction|].
    destruct (pstr_eqb (t_text u) _) eqn:E2; [apply pstr_eqb_eq in E2; contradiction|reflexivity].
Qed.
Lemma last_R t u k q s z ts us : P t u -> t_base t = F15_STAR \/ t_base t = F15_SID_STAR -> Forall2 J k q -> S s z -> Forall2 P ts us -> forallb nojoin k = true -> R (the_last t k s ts) (the_last u q z us).
Proof.
  intros Q B K H F N. unfold the_last. destruct F as [|x y ts us X F].
  - rewrite (star_same t u Q B). apply R_no; [exact K|now apply types_S|constructor|exact N].
  - apply R_no; [two|now apply report_S|two|exact N].
Qed.
Lemma begins_same t u : P t u -> t_base t = F15_BREAK_START -> t_sub u = t_sub t.
Proof. intros Q B. apply sub_fixed; [exact Q|now rewrite B]. Qed.
Lemma start_R t u k q s z ts us : P t u -> Forall2 J k q -> S s z -> Forall2 P ts us -> forallb nojoin k = true -> R (start t k s ts) (start u q z us).
Proof.
  intros Q K H F N. unfold start. rewrite (p_base t u Q), (only_same s z H). pose proof (P_levels t u Q) as L. pose proof (begins_same t u Q) as Bs.
  destruct (t_base t) eqn:B; cbn [speed_base] in L;
    try (apply R_no; [two|first [now apply point_S|now apply vfr_S|now apply rules_S, add_S|now apply add_S|assumption]|two|exact N]).
  - apply R_no; [two| |two|exact N]. rewrite Bs by reflexivity. destruct (begins (t_sub t)); [now apply rules_S, add_S|now apply add_S].
  - destruct (only_adep s); [|apply last_R; auto; now apply add_S]. rewrite (sid_same t u Q) by auto. apply R_no; [two|now apply types_S, add_S|two|exact N].
  - apply R_no; [destruct (only_adep s); two|apply speeds_S; [exact Q|now rewrite B|rewrite B; discriminate|exact H]|two|destruct (only_adep s); exact N].
  - destruct L as [_ ->]; [reflexivity|discriminate|]. destruct (unconvertible t); [now constructor|].
    apply R_no; [two|apply speeds_S; [exact Q|now rewrite B|rewrite B; discriminate|exact H]|two|exact N].
  - destruct L as [_ ->]; [reflexivity|discriminate|]. destruct (unconvertible t); [now constructor|].
    apply R_no; [two|apply speeds_S; [exact Q|now rewrite B|rewrite B; discriminate|exact H]|two|exact N].
  - destruct (only_adep s); [rewrite (sid_same t u Q) by auto; apply R_no; [two|now apply types_S, add_S|two|exact N]|].
    apply R_no; [two|apply report_S; [exact Q|now apply add_S]|two|exact N].
  - apply last_R; auto. now apply add_S.
Qed.
Lemma spot_sub s z : S s z -> computed_point (i_sub (n_last z)) = computed_point (i_sub (n_last s)).
Proof. intro H. exact (kin_computed _ _ _ (I_sub _ _ (S_last _ _ H))). Qed.
Lemma suits_same i j t u s z : J i j -> P t u -> S s z -> suits j u z = suits i t s.
Proof.
  intros K Q H. unfold suits, spot. cbv zeta. rewrite (spot_sub s z H). destruct K; unfold fits, base_eqb; rewrite ?(p_base t u Q), ?(kin_computed _ _ _ (P_sub t u Q)); reflexivity.
Qed.
Lemma misplaced_same i j t u s z : J i j -> P t u -> S s z -> misplaced (spot j z) u = misplaced (spot i s) t.
Proof.
  intros K Q H. unfold spot. cbv zeta. rewrite (spot_sub s z H). unfold misplaced, stray_end. rewrite (p_base t u Q). pose proof (sub_fixed t u Q) as X.
  destruct (t_base t); cbn [loose speed_base] in X; try rewrite (X eq_refl); destruct K; reflexivity.
Qed.
Lemma wrong_R i j t u k q s z ts us : J i j -> P t u -> Forall2 J k q -> S s z -> Forall2 P ts us -> forallb nojoin k = true -> R (wrong i t k s ts) (wrong j u q z us).
Proof. intros A Q K H F N. unfold wrong. rewrite (misplaced_same i j t u s z A Q H). apply R_no; [two|now apply report_S|exact F|exact N]. Qed.
Lemma ends_same t u s z : P t u -> S s z -> ends_here z u = ends_here s t.
Proof. intros Q H. unfold ends_here. rewrite (section_same s z H). destruct (in_section s); [|reflexivity]. now rewrite (kin_ends _ _ _ _ (P_sub t u Q)). Qed.
Lemma text_R i j t u k q s z ts us : i = JText \/ i = JBegin -> J i j -> P t u -> Forall2 J k q -> S s z -> Forall2 P ts us -> forallb nojoin k = true -> R (read i t k s ts) (read j u q z us).
Proof.
  intros I0 A Q K H F N. pose proof (texts_S t u s z Q H) as X. pose proof (ends_same t u _ _ Q X) as Y.
  destruct I0 as [ -> | -> ]; inversion A; subst; unfold read; rewrite (p_base t u Q); cbv zeta; rewrite Y;
    (destruct (base_eqb (t_base t) F15_TOO_LONG); [apply R_no; [cbn [app]; two|now apply report_S|exact F|exact N]|]);
    (destruct (ends_here _ t); [apply leave_R; try assumption; two|apply R_no; two]).
Qed.
Lemma read_R i j t u k q s z ts us : J i j -> P t u -> Forall2 J k q -> S s z -> Forall2 P ts us -> deep (i :: k) (t :: ts) -> R (read i t k s ts) (read j u q z us).
Proof.
  intros A Q K H F N. pose proof (suits_same i j t u s z A Q H) as Su.
  assert (W : nojoin i = true -> forall k1 q1, Forall2 J k1 q1 -> forallb nojoin k1 = true -> R (wrong i t k1 s ts) (wrong j u q1 z us)) by (intros; now apply wrong_R).
  destruct A; cbn [deep forallb nojoin andb] in N; try (now apply text_R; two; auto);
    try (unfold read; rewrite Su; destruct (suits _ t s) eqn:E; rewrite ?(p_base t u Q);
         [ first [ now apply start_R
                 | destruct (base_eqb (t_base t) F15_SLASH); [apply R_no; two|first [now apply start_R|apply start_R; try assumption; now apply add_S]]
                 | apply R_no; two; fail
                 | idtac ]
         | destruct (t_base t); first [apply W; two; fail | idtac] ]; fail).
  - unfold read. rewrite Su. destruct (suits _ t s) eqn:E.
    + rewrite (P_angles t u Q). apply R_no; [two|apply report_S; [exact Q|]; apply located_S; [exact Q|now apply add_S|reflexivity|reflexivity]|exact F|exact N].
    + apply W; two.
  - unfold read. rewrite Su. destruct (suits _ t s) eqn:E; [apply start_R; two|]. apply W; two.
  - unfold read. rewrite Su. destruct (suits _ t s) eqn:E.
    + apply R_no; [two| |exact F|exact N]. apply stays_S; [|exact H]. intro V. rewrite (P_stays V t u Q); [reflexivity|]. unfold suits, fits, spot in E. cbn in E. destruct (t_base t); try discriminate E. reflexivity.
    + apply W; two.
  - destruct N as [N1 N2]. unfold read. unfold resume in N1. destruct (t_base t) eqn:B; try discriminate N1. 
    destruct F as [|sl sl' ts us Q1 F]; [discriminate|]. destruct (t_base sl); try discriminate. destruct F as [|sp sp' ts us Q2 F]; [discriminate|].
    rewrite (p_base _ _ Q2). assert (X : speed_base (t_base sp) = true) by (destruct (t_base sp); try discriminate N1; reflexivity).
    destruct (base_eqb (t_base sp) F15_SPEED_VFR) eqn:Ev.
    + apply R_no; [two|apply vfr_S; [exact Q2|now apply base_eqb_eq|now apply rules_S, add_S]|exact F|exact N2].
    + apply R_no; [two|apply speeds_S; [exact Q2|exact X|intro Y; rewrite Y in Ev; discriminate Ev|now apply point_S]|exact F|exact N2].
  - apply W; two.
  - unfold read. unfold end_kind. rewrite (p_base t u Q). pose proof (sub_fixed t u Q) as X.
    destruct (t_base t); cbn [loose speed_base] in X; first [now apply start_R|apply R_no; [two|now apply report_S|exact F|exact N]|rewrite (X eq_refl); now apply leave_R|apply R_no; two].
  - unfold read. rewrite (p_base t u Q). destruct (t_base t); first [now apply start_R|apply R_no; [two|now apply report_S|exact F|exact N]].
  - unfold read. apply R_no; [two|now apply point_S|exact F|exact N].
Qed.
Lemma at_end_S i j s z : J i j -> S s z -> S (at_end i s) (at_end j z).
Proof. intros A H. destruct A; cbn [at_end]; try exact H; try (now apply report_S); [now apply add_S|apply report_S; [assumption|now apply add_S]]. Qed.
Lemma deep_tail j k ts : deep (j :: k) ts -> forallb nojoin k = true.
Proof. destruct j; cbn [deep forallb nojoin andb]; try (intro H; exact H). now intros [_ H]. Qed.
Lemma step_R k q s z ts us : R (Goes k s ts) (Goes q z us) -> R (step1 k s ts) (step1 q z us).
Proof.
  intro H. inversion H as [? ? ? ? ? ? K Sz F D|]; subst. destruct K as [|i j k q A K]; [exact H|].
  pose proof (deep_tail _ _ _ D) as N.
  destruct A; unfold step1; fold step1; try (destruct F as [|t' u' ts us Q F]; [apply R_no; [exact K|apply at_end_S; two|constructor|exact N]|apply read_R; two]).
  - apply R_no; [exact K|now apply texts_S|exact F|exact N].
  - apply R_no; [two|now apply point_S|exact F|exact N].
Qed.
Inductive E : ending -> ending -> Prop :=
| E_done s z : S s z -> E (Done s) (Done z) | E_broken s z : S s z -> E (Broken s) (Broken z) | E_un : E Unfinished Unfinished.
Lemma play_E n : forall k q s z ts us, R (Goes k s ts) (Goes q z us) -> E (play n k s ts) (play n q z us).
Proof.
  induction n as [|n IH]; intros k q s z ts us H; pose proof (step_R _ _ _ _ _ _ H) as X; inversion H as [? ? ? ? ? ? K Sz F D|]; subst;
    destruct K as [|i j k q A K]; cbn [play]; try (now constructor).
  remember (step1 (i :: k) s ts) as r1. remember (step1 (j :: q) z us) as r2. destruct X; [|now constructor]. apply IH. now constructor.
Qed.
Lemma aero_I name : I (aero name) (aero name).
Proof. constructor; try reflexivity; [now left|auto|discriminate|left; repeat split|apply words_nil|exact RV_none|exact RT_none]. Qed.
Lemma blank_S : S blank_notes blank_notes.
Proof. constructor; cbn; [constructor|apply aero_I|constructor]. Qed.
Lemma patience_same ts us : Forall2 P ts us -> patience us = patience ts.
Proof. intro F. unfold patience. now rewrite (Rename.F2_length _ _ _ F). Qed.
Lemma begin_E ts us : Forall2 P ts us -> E (begin ts) (begin us).
Proof.
  intro F. pose proof (patience_same _ _ F) as Pt. destruct F as [|t u ts us Q F]; [cbn; constructor; apply blank_S|].
  unfold begin. rewrite (p_base t u Q), Pt.
  assert (A : E (match start t [] blank_notes ts with Goes k s ts' => play (patience (t :: ts)) k s ts' | Breaks s => Broken s end)
                (match start u [] blank_notes us with Goes k s ts' => play (patience (t :: ts)) k s ts' | Breaks s => Broken s end)).
  { pose proof (start_R t u [] [] blank_notes blank_notes ts us Q ltac:(constructor) blank_S F eq_refl) as X.
    remember (start t [] blank_notes ts) as r1. remember (start u [] blank_notes us) as r2. destruct X; [apply play_E; now constructor|now constructor]. }
  assert (B : E (play (patience (t :: ts)) [JSync] (report t [1] blank_notes) ts) (play (patience (t :: ts)) [JSync] (report u [1] blank_notes) us)).
  { apply play_E, R_no; [two|apply report_S; [exact Q|apply blank_S]|exact F|reflexivity]. }
  destruct (t_base t); first [exact A|exact B].
Qed.
Lemma conclude_S ts us s z : Forall2 P ts us -> S s z ->
  Forall2 I (fst (conclude ts s)) (fst (conclude us z)) /\ Forall2 (fun q p => P (fst q) (fst p) /\ snd q = snd p) (snd (conclude ts s)) (snd (conclude us z)).
Proof.
  intros F H. unfold conclude. cbv zeta. cbn [fst snd].
  assert (A : Forall2 I (n_before s ++ [n_last s]) (n_before z ++ [n_last z])) by (apply Forall2_app; [apply H|constructor; [apply H|constructor]]).
  set (l := n_before s ++ [n_last s]) in *. set (m := n_before z ++ [n_last z]) in *.
  set (l' := match ts with [] => l | t :: _ => _ end). set (m' := match us with [] => m | t :: _ => _ end).
  assert (B : Forall2 I l' m').
  { unfold l', m'. destruct F as [|t u ts us Q F]; [exact A|]. clearbody l m. destruct A as [|i j l0 m0 A0 A]; [constructor|]. rewrite (p_base t u Q).
    destruct (base_eqb (t_base t) F15_SPEED_VFR); [|now constructor]. constructor; [|exact A]. destruct A0. now constructor. }
  assert (La : i_rules (last m' (aero [])) = i_rules (last l' (aero []))).
  { assert (X : I (last l' (aero [])) (last m' (aero []))); [|apply X]. clearbody l' m'. clear - B RV_none RT_none. induction B as [|i j l0 m0 A B IH]; [apply aero_I|].
    destruct B; [exact A|exact IH]. }
  split.
  - apply Forall2_app; [exact B|]. constructor; [|constructor]. rewrite La. pose proof (aero_I ($"ADES")) as [ ]. now constructor.
  - pose proof (S_reports _ _ H) as C. destruct F as [|t u ts us Q F]; [exact C|]. destruct F; [|exact C]. rewrite (p_base t u Q).
    destruct (base_eqb (t_base t) F15_SPEED_ALTITUDE); [|exact C]. apply (S_reports _ _ (report_S t u [49] s z Q H)).
Qed.
Lemma reading_same ts us : Forall2 P ts us ->
  match reading ts, reading us with
  | Some (Gives l e), Some (Gives m f) => Forall2 I l m /\ Forall2 (fun q p => P (fst q) (fst p) /\ snd q = snd p) e f
  | Some Raises, Some Raises => True
  | None, None => True
  | _, _ => False
  end.
Proof.
  intro F. unfold reading. destruct (begin_E ts us F) as [s z H|s z H|]; auto. pose proof (conclude_S ts us s z F H) as [A B].
  destruct (conclude ts s), (conclude us z). now split.
Qed.

(** ** Records *)
Definition in_si (r : rrec) : Prop :=
  r_alt_si r = value_or_zero (r_alt r) (level_of (r_alt r)) /\ r_speed_si r = value_or_zero (r_speed r) (speed_of (r_speed r) (level_of (r_alt r))).
Definition K (r q : rrec) : Prop :=
  same_shape P r q /\ (Vs -> same_performance r q) /\ (Vc -> same_places r q) /\ (Vt -> same_stay r q) /\
  RV (r_speed r) (r_alt r) (r_speed q) (r_alt q) /\ RT (r_cto r) (r_cto_si r) (r_cto q) (r_cto_si q) /\ in_si r /\ in_si q.
Lemma coordinate_sub x : has_coordinates x = true -> In x [F15_SB_LL_DEG; F15_SB_LL_MIN; F15_SB_LLBD_DEG; F15_SB_LLBD_MIN].
Proof. destruct x; try discriminate; cbn; tauto. Qed.
Lemma kin_base b x y : kin_sub b x y -> x = y \/ In b [F15_SPEED_VFR; F15_SPEED_ALTITUDE; F15_SPEED_ALTITUDE_ALTITUDE; F15_SPEED_ALTITUDE_PLUS] \/
  In x [F15_SB_LL_DEG; F15_SB_LL_MIN; F15_SB_LLBD_DEG; F15_SB_LLBD_MIN] /\ In y [F15_SB_LL_DEG; F15_SB_LL_MIN; F15_SB_LLBD_DEG; F15_SB_LLBD_MIN].
Proof. intros [X|[(X & _)|(_ & X & Y)]]; [now left|right; left|right; right; split; now apply coordinate_sub]. destruct b; try discriminate X; cbn; tauto. Qed.
Lemma record_same i j : I i j -> K (record_of G i) (record_of G j).
Proof.
  intros []. unfold record_of. cbv zeta. split; [|split; [|split; [|split; [|split; [exact I_rv0|split; [exact I_rt0|repeat split]]]]]].
  - unfold same_shape. cbn [r_base r_sub r_rules r_err r_llv]. split; [now symmetry|]. split; [now apply kin_base|]. split; [now symmetry|]. split; [reflexivity|]. split; [now symmetry|].
    split; [exact I_origin0|exact I_words0].
  - intro V. destruct (I_speed0 V) as (-> & -> & -> & -> & X). repeat split. cbn. intro N. symmetry. now apply X.
  - intro V. unfold same_places. cbn [r_lat r_lon r_brg r_dist]. rewrite I_loc0. destruct (i_located i); [rewrite (RC_same V _ _ (I_name0 eq_refl))|]; repeat split.
  - intro V. unfold same_stay. cbn [r_stay]. now rewrite (I_stay0 V).
Qed.
Lemma next_same rest rest' : Forall2 K rest rest' ->
  match next_located rest, next_located rest' with Some p, Some q => Vc -> r_lat p = r_lat q /\ r_lon p = r_lon q | None, None => True | _, _ => False end.
Proof.
  intro F. unfold next_located. destruct F as [|p q l m [(_ & _ & _ & _ & A & _) (_ & B & _)] F]; [exact Logic.I|].
  rewrite A. destruct (r_llv q); [intro V; destruct (B V) as (? & ? & _); now split|].
  destruct F as [|p' q' l m [(_ & _ & _ & _ & A' & _) (_ & B' & _)] F]; [exact Logic.I|]. rewrite A'. destruct (r_llv q'); [intro V; destruct (B' V) as (? & ? & _); now split|exact Logic.I].
Qed.
Lemma leg_same r q rest rest' : K r q -> Forall2 K rest rest' -> K (with_leg G r rest) (with_leg G q rest').
Proof.
  intros A F. pose proof (next_same rest rest' F) as N. pose proof A as (Sh & Pf & Pl & St & Rest). destruct Sh as (S1 & S2 & S3 & S4 & S5 & S6 & S7). unfold with_leg.
  rewrite S5. destruct (r_llv q) eqn:Eq; [|exact A]. destruct (next_located rest) as [p|], (next_located rest') as [p'|]; try contradiction; [|exact A].
  cbv zeta. split; [|split; [|split; [|split; [|exact Rest]]]].
  - repeat split; try assumption. cbn. congruence.
  - exact Pf.
  - intro V. destruct (Pl V) as (E1 & E2 & _), (N V) as [N1 N2]. unfold same_places. cbn. rewrite E1, E2, N1, N2. repeat split.
  - exact St.
Qed.
Lemma legs_same l m : Forall2 K l m -> Forall2 K (with_legs G l) (with_legs G m).
Proof. induction 1 as [|r q l m A F IH]; cbn [with_legs]; constructor; [now apply leg_same|exact IH]. Qed.
Lemma route_same l m : Forall2 I l m -> Forall2 K (route_of G l) (route_of G m).
Proof. intro F. apply legs_same. induction F; cbn [map]; constructor; [now apply record_same|assumption]. Qed.
Lemma letter_same l m : Forall2 I l m -> letter m = letter l.
Proof.
  intro F. assert (X : forall r, existsb (fun i => pstr_eqb (i_rules i) r) m = existsb (fun i => pstr_eqb (i_rules i) r) l).
  { intro r. induction F as [|i j l m A F IH]; [reflexivity|]. cbn [existsb]. now rewrite IH, (I_rules _ _ A). }
  unfold letter. cbv zeta. rewrite !X. destruct F as [|i j l m A F]; [reflexivity|]. now rewrite (I_rules _ _ A).
Qed.
End P.


(** ** Types *)
Definition angled (sb : sub_type) : bool :=
  match sb with F15_SB_PRP_BD | F15_SB_LL_DEG | F15_SB_LL_MIN | F15_SB_LLBD_DEG | F15_SB_LLBD_MIN => true | _ => false end.
Definition types_good (x : base_type * sub_type) : bool :=
  (negb (speed_base (fst x)) || plain_sub (snd x)) && (base_eqb (fst x) F15_POINT || negb (angled (snd x))).
Lemma wt_good t : wt t -> types_good (t_base t, t_sub t) = true.
Proof.
  unfold wt. intro H. rewrite <- H. unfold classify. destruct (_ <? _)%Z; [reflexivity|].
  assert (X : forallb (fun x => types_good (sr_types x)) shape_table = true) by (vm_compute; reflexivity).
  destruct (typed_in_table (t_text t)) as [ -> |(x & Hx & <- & _)]; [reflexivity|]. rewrite forallb_forall in X. exact (X x Hx).
Qed.
Lemma no_angle t : wt t -> t_base t <> F15_POINT -> angle_faults t = [].
Proof.
  intros H N. pose proof (wt_good t H) as X. unfold types_good in X. apply andb_true_iff in X as [_ X]. cbn [fst snd] in X.
  destruct (base_eqb (t_base t) F15_POINT) eqn:E; [apply base_eqb_eq in E; contradiction|]. cbn [orb] in X. unfold angle_faults. cbv zeta. destruct (t_sub t); try discriminate X; reflexivity.
Qed.
Lemma speed_plain t : wt t -> speed_base (t_base t) = true -> plain_sub (t_sub t) = true.
Proof.
  intros H N. pose proof (wt_good t H) as X. unfold types_good in X. apply andb_true_iff in X as [X _]. cbn [fst snd] in X. rewrite N in X. exact X.
Qed.
Lemma is_speed_base t : is_speed t -> speed_base (t_base t) = true.
Proof. unfold is_speed. intros [X|[X|[X|[X|[]]]]]; rewrite <- X; reflexivity. Qed.
Lemma speed_base_is t : speed_base (t_base t) = true -> is_speed t.
Proof. unfold is_speed. destruct (t_base t); try discriminate; cbn; tauto. Qed.
Lemma is_coordinate_sub t : is_coordinate t -> has_coordinates (t_sub t) = true.
Proof. unfold is_coordinate. intros [X|[X|[X|[X|[]]]]]; rewrite <- X; reflexivity. Qed.
Lemma coordinate_point t : wt t -> has_coordinates (t_sub t) = true -> t_base t = F15_POINT.
Proof.
  intros H N. pose proof (wt_good t H) as X. unfold types_good in X. apply andb_true_iff in X as [_ X]. cbn [fst snd] in X.
  apply orb_true_iff in X as [X|X]; [now apply base_eqb_eq|]. destruct (t_sub t); discriminate.
Qed.
Lemma same_text t u : wt t -> wt u -> t_text t = t_text u -> t_base t = t_base u /\ t_sub t = t_sub u.
Proof. unfold wt. intros A B E. rewrite E, B in A. now injection A as -> ->. Qed.

(** ** Fields *)
Section Counter.
Variables t u : token.
Hypothesis Wt : wt t.
Hypothesis Wu : wt u.
Hypothesis C : counterpart t u.
Lemma c_base : t_base u = t_base t.
Proof. now destruct C as (-> & _). Qed.
Lemma c_sub : kin_sub (t_base t) (t_sub t) (t_sub u).
Proof.
  destruct C as (B & [X|[X|[X Y]]] & _); [now left| |].
  - apply is_speed_base in X. right. left. split; [exact X|]. split; [now apply speed_plain|]. apply speed_plain; [exact Wu|congruence].
  - right. right. apply is_coordinate_sub in X, Y. split; [now apply coordinate_point|now split].
Qed.
Lemma c_figures : t_text t = t_text u \/ freely_named (t_base t) (t_sub t) = true \/ figures_in_order t /\ figures_in_order u.
Proof. apply C. Qed.
Lemma c_fixed : t_base t = F15_SID \/ t_base t = F15_STAR -> t_text u = t_text t.
Proof.
  intro B. destruct c_figures as [X|[X|[X _]]]; [now symmetry| |].
  - unfold freely_named in X. destruct B as [B|B]; rewrite B in X; destruct (t_sub t); discriminate X.
  - unfold figures_in_order in X. destruct B as [B|B]; rewrite B in X; destruct X.
Qed.
Lemma c_angles : angle_faults u = angle_faults t.
Proof.
  destruct (base_eqb (t_base t) F15_POINT) eqn:E.
  - apply base_eqb_eq in E. destruct c_figures as [X|[X|[X Y]]].
    + destruct (same_text t u Wt Wu X) as [_ B]. unfold angle_faults. cbv zeta. now rewrite X, B.
    + destruct c_sub as [B|[(B & _)|(_ & B & _)]]; [|rewrite E in B; discriminate B|unfold freely_named in X; destruct (t_sub t); discriminate].
      unfold angle_faults. cbv zeta. rewrite B. unfold freely_named in X. destruct (t_sub t); try discriminate X; reflexivity.
    + unfold figures_in_order in X, Y. rewrite c_base in Y. rewrite E in X, Y. congruence.
  - assert (N : t_base t <> F15_POINT) by (intro B; rewrite B in E; discriminate E). rewrite (no_angle t Wt N). apply no_angle; [exact Wu|]. now rewrite c_base.
Qed.
Lemma c_levels : speed_base (t_base t) = true -> t_base t <> F15_SPEED_VFR -> level_faults u = level_faults t /\ unconvertible u = unconvertible t.
Proof.
  intros B N. destruct c_figures as [X|[X|[X Y]]].
  - destruct (same_text t u Wt Wu X) as [B1 B2]. unfold level_faults, unconvertible. now rewrite X, B1, B2.
  - unfold freely_named in X. destruct (t_base t); try discriminate B; destruct (t_sub t); discriminate X.
  - unfold figures_in_order in X, Y. rewrite c_base in Y. destruct (t_base t); try discriminate B; try contradiction; destruct X, Y; split; congruence.
Qed.
End Counter.

Lemma opposite_all f g : same_structure f g -> Forall2 (opposite f g) (field_tokens f) (field_tokens g).
Proof.
  unfold same_structure, opposite. intro F.
  assert (K : forall a b pa pb, Forall2 counterpart a b -> Datatypes.length pa = Datatypes.length pb -> Forall2 (fun t u => exists n, nth_error (pa ++ a) n = Some t /\ nth_error (pb ++ b) n = Some u) a b).
  { clear. intros a b pa pb F. revert pa pb. induction F as [|t u a b A F IH]; intros pa pb L; [constructor|]. constructor.
    - exists (Datatypes.length pa). split; [|rewrite L]; rewrite nth_error_app2, Nat.sub_diag by lia; reflexivity.
    - specialize (IH (pa ++ [t]) (pb ++ [u])). rewrite !app_length, <- !app_assoc in IH. apply IH. now rewrite L. }
  exact (K _ _ [] [] F eq_refl).
Qed.
Lemma opposite_counter f g t u : same_structure f g -> opposite f g t u -> counterpart t u.
Proof.
  unfold same_structure, opposite. intros F (n & A & B). revert n A B. induction F as [|x y a b H F IH]; intros [|n] A B; try discriminate; cbn in A, B; [congruence|eauto].
Qed.
Lemma opposite_wt f g t u : opposite f g t u -> (wt t /\ t_text t <> []) /\ (wt u /\ t_text u <> []).
Proof.
  intros (n & A & B). pose proof (field_wt f) as X. pose proof (field_wt g) as Y. rewrite Forall_forall in X, Y. split; [apply X|apply Y]; eapply nth_error_In; eassumption.
Qed.
Lemma F2_split {A B} (Q R : A -> B -> Prop) l m : (forall a b, Q a b -> R a b) -> Forall2 Q l m -> Forall2 R l m.
Proof. intros H F. induction F; constructor; auto. Qed.

Section Field.
Variable G : geodesic.
Local Open Scope nat_scope.
Lemma same_structure_n f g : same_structure f g -> n_tokens g = n_tokens f.
Proof. intro F. pose proof (Rename.F2_length _ _ _ F) as L. unfold field_tokens in L. rewrite !map_length in L. exact L. Qed.
Lemma flow_all (RV : pstr -> pstr -> pstr -> pstr -> Prop) (RT : pstr -> pynum -> pstr -> pynum -> Prop) depth f g :
  same_structure f g -> field_tokens f <> [] -> 3 * n_tokens f <= depth + 1 ->
  RV [] [] [] [] -> RT [] PyZeroFloat [] PyZeroFloat ->
  (forall t u, opposite f g t u -> t_base t = F15_SPEED_VFR -> RV (speed_part (t_text t)) ($"F050") (speed_part (t_text u)) ($"F050")) ->
  (forall t u, opposite f g t u -> speed_base (t_base t) = true -> t_base t <> F15_SPEED_VFR ->
     RV (speed_part (t_text t)) (first_level (t_text t)) (speed_part (t_text u)) (first_level (t_text u))) ->
  (forall t u a x b y, opposite f g t u -> t_base t = F15_SPEED_ALTITUDE_PLUS -> RT a x b y -> RT (second_level (t_text t)) x (second_level (t_text u)) y) ->
  (forall t u, opposite f g t u -> t_base t = F15_SPEED_ALTITUDE_ALTITUDE ->
     RT (stored_target (t_text t)) (PyInt (level_value (stored_target (t_text t)))) (stored_target (t_text u)) (PyInt (level_value (stored_target (t_text u))))) ->
  match parse_field15 G depth f, parse_field15 G depth g with
  | Ok a s, Ok b z =>
      a = b /\ Forall2 (K (opposite f g) (agree_on is_speed f g) (agree_on_coordinates G f g) (agree_on is_stay f g) RV RT) (e_recs (s_ers s)) (e_recs (s_ers z)) /\
      Forall2 (same_report (opposite f g)) (e_errs (s_ers s)) (e_errs (s_ers z)) /\ e_rules (s_ers s) = e_rules (s_ers z)
  | Exn x _, Exn y _ => x = y
  | _, _ => False
  end.
Proof.
  intros F N D V0 T0 H11 H12 H13 H14. pose proof (opposite_all f g F) as O.
  assert (N' : field_tokens g <> []) by (intro X; rewrite X in O; inversion O as [X1|]; congruence).
  set (Q := opposite f g) in *.
  assert (Cp : forall t u, Q t u -> counterpart t u) by (intros t u H; now apply (opposite_counter f g)).
  assert (W1 : forall t u, Q t u -> wt t) by (intros t u H; apply (opposite_wt f g t u H)).
  assert (W2 : forall t u, Q t u -> wt u) by (intros t u H; apply (opposite_wt f g t u H)).
  assert (H1 : forall t u, Q t u -> t_base u = t_base t) by (intros t u H; now apply c_base, Cp).
  assert (H2 : forall t u, Q t u -> kin_sub (t_base t) (t_sub t) (t_sub u)) by (intros t u H; apply c_sub; eauto).
  assert (H3 : forall t u, Q t u -> t_text t <> [] /\ t_text u <> []) by (intros t u H; destruct (opposite_wt f g t u H) as [[_ X] [_ Y]]; now split).
  assert (H4 : forall t u, Q t u -> t_base t = F15_SID_STAR -> (t_text t <> $"SID" /\ t_text t <> $"STAR") /\ t_text u <> $"SID" /\ t_text u <> $"STAR").
  { intros t u H B. pose proof H as (n & X & Y). apply nth_error_In in X, Y. split; [now apply (Rename.field_proc f t X)|]. apply (Rename.field_proc g u Y). rewrite (H1 t u H). exact B. }
  assert (H5 : forall t u, Q t u -> t_base t = F15_SID \/ t_base t = F15_STAR -> t_text u = t_text t) by (intros t u H; apply c_fixed; auto).
  assert (H6 : forall t u, Q t u -> angle_faults u = angle_faults t) by (intros t u H; apply c_angles; eauto).
  assert (H7 : forall t u, Q t u -> speed_base (t_base t) = true -> t_base t <> F15_SPEED_VFR -> level_faults u = level_faults t /\ unconvertible u = unconvertible t) by (intros t u H; apply c_levels; eauto).
  assert (H8 : agree_on is_speed f g -> forall t u, Q t u -> speed_base (t_base t) = true -> t_text u = t_text t /\ t_sub u = t_sub t).
  { intros V t u H B. pose proof (V t u H (speed_base_is t B)) as X. split; [now symmetry|]. destruct (same_text t u (W1 _ _ H) (W2 _ _ H) X). now symmetry. }
  pose (RC := fun a b : pstr => agree_on_coordinates G f g -> coordinates G b = coordinates G a).
  assert (H9 : forall t u, Q t u -> has_coordinates (t_sub t) = true -> RC (t_text t) (t_text u)).
  { intros t u H B V. symmetry. apply (V t u H). unfold is_coordinate. destruct (t_sub t); try discriminate B; cbn; tauto. }
  assert (H10 : agree_on is_stay f g -> forall t u, Q t u -> t_base t = F15_STAY_TIME -> t_text u = t_text t) by (intros V t u H B; symmetry; now apply (V t u H)).
  pose proof (reading_same Q _ _ RV RT RC V0 T0 H1 H2 H3 H4 H5 H6 H7 H8 H9 H10 H11 H12 H13 H14 _ _ O) as Rd.
  pose proof (complete_total G depth f N D) as A. pose proof (complete_total G depth g N' ltac:(rewrite (same_structure_n f g F); exact D)) as B.
  destruct (reading (field_tokens f)) as [[l e|]|] eqn:Ef, (reading (field_tokens g)) as [[m h|]|] eqn:Eg; try contradiction.
  - destruct A as (s & A1 & A2), B as (z & B1 & B2). destruct (whole_result G depth f _ s N A1) as (l1 & e1 & R1 & _ & R2 & _).
    destruct (whole_result G depth g _ z N' B1) as (m1 & h1 & T1 & _ & T2 & _). rewrite Ef in R1. rewrite Eg in T1. injection R1 as <- <-. injection T1 as <- <-.
    rewrite A1, B1. destruct Rd as [K1 K2]. pose proof (route_same G Q _ (agree_on_coordinates G f g) _ RV RT RC (fun V a b H => H V) l m K1) as Rt.
    assert (Rl : Forall2 (K Q (agree_on is_speed f g) (agree_on_coordinates G f g) (agree_on is_stay f g) RV RT) (e_recs (s_ers s)) (e_recs (s_ers z))) by (rewrite A2, B2; exact Rt).
    split; [destruct K2; reflexivity|]. split; [exact Rl|]. split; [exact (Rename.reports_same _ _ _ _ _ K2 R2 T2)|].
    rewrite A2, B2; symmetry; eapply letter_same; eassumption.
  - destruct A as (s & A), B as (z & B). now rewrite A, B.
Qed.
Lemma flow_coordinates depth f g : same_structure f g -> field_tokens f <> [] -> 3 * n_tokens f <= depth + 1 ->
  match parse_field15 G depth f, parse_field15 G depth g with
  | Ok a s, Ok b z =>
      a = b /\ Forall2 (same_shape (opposite f g)) (e_recs (s_ers s)) (e_recs (s_ers z)) /\
      Forall2 (same_report (opposite f g)) (e_errs (s_ers s)) (e_errs (s_ers z)) /\ e_rules (s_ers s) = e_rules (s_ers z) /\
      (agree_on is_speed f g -> Forall2 same_performance (e_recs (s_ers s)) (e_recs (s_ers z))) /\
      (agree_in_si f g -> Forall2 same_si (e_recs (s_ers s)) (e_recs (s_ers z))) /\
      (agree_on_coordinates G f g -> Forall2 same_places (e_recs (s_ers s)) (e_recs (s_ers z))) /\
      (agree_on is_stay f g -> Forall2 same_stay (e_recs (s_ers s)) (e_recs (s_ers z)))
  | Exn x _, Exn y _ => x = y
  | _, _ => False
  end.
Proof.
  intros F N D.
  pose (RV := fun sp lv sp' lv' : pstr => agree_in_si f g -> value_or_zero lv (level_of lv) = value_or_zero lv' (level_of lv') /\
     value_or_zero sp (speed_of sp (level_of lv)) = value_or_zero sp' (speed_of sp' (level_of lv'))).
  pose (RT := fun (a : pstr) (x : pynum) (b : pstr) (y : pynum) => agree_in_si f g -> x = y).
  pose proof (flow_all RV RT depth f g F N D) as H. match type of H with ?A -> ?B -> ?C1 -> ?C2 -> ?C3 -> ?C4 -> ?X => assert (X0 : X) end.
  { apply H; unfold RV, RT; clear H.
    - now split.
    - reflexivity.
    - intros t u O B V. destruct (V t u O) as (A1 & A2 & _); [apply speed_base_is; now rewrite B|]. assert (Bu : t_base u = F15_SPEED_VFR) by (rewrite <- B; apply c_base; now apply (opposite_counter f g)).
      unfold si_level, si_speed, stated_level in A1, A2. rewrite B, Bu in A1, A2. now split.
    - intros t u O B NV V. destruct (V t u O) as (A1 & A2 & _); [now apply speed_base_is|]. assert (Bu : t_base u = t_base t) by (apply c_base; now apply (opposite_counter f g)).
      unfold si_level, si_speed, stated_level in A1, A2. rewrite Bu in A1, A2. destruct (t_base t); try discriminate B; try contradiction; now split.
    - intros t u a x b y O B E V. now apply E.
    - intros t u O B V. destruct (V t u O) as (_ & _ & A3); [apply speed_base_is; now rewrite B|]. now rewrite (A3 B). }
  clear H. destruct (parse_field15 G depth f) as [a s|x s], (parse_field15 G depth g) as [b z|y z]; try exact X0. destruct X0 as (E1 & Rl & E3 & E4).
  split; [exact E1|]. split; [eapply F2_split; [|exact Rl]; now intros ? ? (X & _)|]. split; [exact E3|]. split; [exact E4|].
  split; [|split; [|split]]; intro V; eapply F2_split; try exact Rl; intros r q (_ & X & Y & Z & W & T & (S1 & S2) & (S3 & S4)); auto.
  unfold same_si. rewrite S1, S2, S3, S4. destruct (W V) as [-> ->]. repeat split. exact (T V).
Qed.
Lemma agree_coordinates f g : agree_on is_coordinate f g -> agree_on_coordinates G f g.
Proof. intros H t u O C. now rewrite (H t u O C). Qed.
End Field.

(** A test of the structure. *)
Definition nilb {A} (l : list A) : bool := match l with [] => true | _ => false end.
Definition in_orderb (t : token) : bool :=
  match t_base t with
  | F15_POINT => nilb (angle_faults t)
  | F15_SPEED_ALTITUDE | F15_SPEED_ALTITUDE_ALTITUDE | F15_SPEED_ALTITUDE_PLUS => nilb (level_faults t) && negb (unconvertible t)
  | F15_SPEED_VFR | F15_STAY_TIME => true
  | _ => false
  end.
Definition counterb (t u : token) : bool :=
  base_eqb (t_base t) (t_base u) && (sub_eqb (t_sub t) (t_sub u) || speed_base (t_base t) || has_coordinates (t_sub t) && has_coordinates (t_sub u)) &&
  (pstr_eqb (t_text t) (t_text u) || freely_named (t_base t) (t_sub t) || in_orderb t && in_orderb u).
Fixpoint all_counter (l m : list token) : bool :=
  match l, m with [], [] => true | t :: l', u :: m' => counterb t u && all_counter l' m' | _, _ => false end.
Lemma in_order_test t : in_orderb t = true -> figures_in_order t.
Proof.
  unfold in_orderb, figures_in_order. destruct (t_base t); try discriminate; try (intro; exact Logic.I); rewrite ?andb_true_iff.
  all: try (destruct (angle_faults t); [reflexivity|discriminate]).
  all: intros [A B]; split; [destruct (level_faults t); [reflexivity|discriminate]|now apply negb_true_iff].
Qed.
Lemma same_structure_test f g : all_counter (field_tokens f) (field_tokens g) = true -> same_structure f g.
Proof.
  unfold same_structure. generalize (field_tokens f) (field_tokens g). induction l as [|t l IH]; intros [|u m] H; try discriminate; [constructor|].
  cbn [all_counter] in H. apply andb_true_iff in H as [H1 H2]. constructor; [|now apply IH]. unfold counterb in H1. apply andb_true_iff in H1 as [H1 H3].
  apply andb_true_iff in H1 as [H0 H1]. apply base_eqb_eq in H0. split; [exact H0|]. split.
  - apply orb_true_iff in H1 as [H1|H1]; [apply orb_true_iff in H1 as [H1|H1]; [left; now apply sub_eqb_eq|right; left; now apply speed_base_is]|].
    apply andb_true_iff in H1 as [A B]. right. right. split; now apply coordinate_sub.
  - apply orb_true_iff in H3 as [H3|H3]; [apply orb_true_iff in H3 as [H3|H3]; [left; now apply pstr_eqb_eq|auto]|]. apply andb_true_iff in H3 as [A B]. right. right. split; now apply in_order_test.
Qed.
