(** * Swap: the reading machine treats OAT ... GAT and IFPSTOP ... IFPSTART alike. *)
From Coq Require Import ZArith NArith List Bool String Lia.
From Verif Require Import PyBase PyFloat Enums ErrorTable Tokenizer Ers Utils Parser SpecTokenizer SpecNum SpecParser SpecGrammar SpecAccept SpecDiagnosis SpecReader SpecComplete SpecViable SpecRename SpecSwap.
From Verif Require Import TokenizerProofs PerfEq Describe Reader ReaderFacts CompleteFacts Rename.
From Verif Require Grammar Viable.
Import List ListNotations.
Local Open Scope list_scope.
Local Open Scope Z_scope.

Definition other_kind (b : kind) : kind := match b with KVfr => KVfr | KOat => KIfpstop | KIfpstop => KOat end.
Lemma word_text x y : pstr_eqb x y = true -> x = y.
Proof. apply pstr_eqb_eq. Qed.
Lemma rules_cases r : (r = $"OAT" /\ other_rules r = $"IFPS") \/ (r = $"IFPS" /\ other_rules r = $"OAT") \/ (r <> $"OAT" /\ r <> $"IFPS" /\ other_rules r = r).
Proof.
  unfold other_rules. destruct (pstr_eqb r ($"OAT")) eqn:A; [apply pstr_eqb_eq in A; now left|]. destruct (pstr_eqb r ($"IFPS")) eqn:B; [apply pstr_eqb_eq in B; right; now left|].
  right. right. split; [|split; [|reflexivity]]; intro X; subst; discriminate.
Qed.
Lemma rules_eqb r x : x <> $"OAT" -> x <> $"IFPS" -> pstr_eqb (other_rules r) x = pstr_eqb r x.
Proof.
  intros A B. assert (N : forall a b : pstr, a <> b -> pstr_eqb a b = false) by (intros a b H; destruct (pstr_eqb a b) eqn:E; [apply pstr_eqb_eq in E; contradiction|reflexivity]).
  destruct (rules_cases r) as [[-> ->]|[[-> ->]|(_ & _ & ->)]]; [rewrite !N by auto; reflexivity..|reflexivity].
Qed.
Section P.
Variable P : token -> token -> Prop.
Hypothesis P_base : forall t u, P t u -> t_base u = t_base t.
Hypothesis P_sub : forall t u, P t u -> t_sub u = other_sub (t_sub t).
Hypothesis P_word : forall t u, P t u -> t_text u = other_word (t_text t).
Hypothesis P_text : forall t u, P t u -> t_text t <> [] /\ t_text u <> [].
Hypothesis P_same : forall t u, P t u -> t_text u = t_text t \/
  In (t_base t, t_sub t) [(F15_BREAK_START, F15_SB_OAT); (F15_BREAK_START, F15_SB_IFPSTOP); (F15_BREAK_END, F15_SB_GAT); (F15_BREAK_END, F15_SB_IFPSTART)].
Hypothesis P_end : forall t u, P t u -> t_base t = F15_BREAK_END -> In (t_sub t) [F15_SB_IFR; F15_SB_GAT; F15_SB_IFPSTART].
Hypothesis P_plain : forall t u, P t u -> t_base t <> F15_BREAK_START -> t_base t <> F15_BREAK_END -> other_sub (t_sub t) = t_sub t.

Lemma p_base t u : P t u -> t_base u = t_base t.
Proof. apply P_base. Qed.
Lemma p_sub t u : P t u -> t_sub u = other_sub (t_sub t).
Proof. apply P_sub. Qed.
Lemma p_same t u : P t u -> match t_base t with F15_BREAK_START | F15_BREAK_END => False | _ => True end -> t_text u = t_text t.
Proof.
  intros H F. destruct (P_same t u H) as [K|K]; [exact K|]. cbn in K. destruct K as [K|[K|[K|[K|[]]]]]; injection K as K1 K2; rewrite <- K1 in F; contradiction.
Qed.
Lemma p_same_sub t u : P t u -> match t_sub t with F15_SB_OAT | F15_SB_IFPSTOP | F15_SB_GAT | F15_SB_IFPSTART => False | _ => True end -> t_text u = t_text t.
Proof.
  intros H F. destruct (P_same t u H) as [K|K]; [exact K|]. cbn in K. destruct K as [K|[K|[K|[K|[]]]]]; injection K as K1 K2; rewrite <- K2 in F; contradiction.
Qed.
Lemma other_coordinates sb : has_coordinates (other_sub sb) = has_coordinates sb.
Proof. destruct sb; reflexivity. Qed.

(** ** Items *)
Definition origin (i j : item) : Prop :=
  (i_name i = i_name j /\ (i_start i, i_end i) = (0, 0) /\ (i_start j, i_end j) = (0, 0)) \/
  exists t u, P t u /\ (i_start i = t_start t /\ i_end i = t_end t) /\ (i_start j = t_start u /\ i_end j = t_end u) /\
    (i_name i = t_text t /\ i_name j = t_text u \/ i_name i = $"VFR" /\ i_name j = $"VFR").
Definition words (a b : pstr) : Prop := exists l m, Forall2 P l m /\ a = join_sp (map t_text l) /\ b = join_sp (map t_text m).
Record I (i j : item) : Prop := mkI {
  I_base : i_base j = i_base i; I_sub : i_sub j = other_sub (i_sub i); I_rules : i_rules j = other_rules (i_rules i); I_stay : i_stay j = i_stay i;
  I_speed : i_speed j = i_speed i; I_level : i_level j = i_level i; I_target : i_target j = i_target i; I_si : i_target_si j = i_target_si i;
  I_loc : i_located j = i_located i; I_name : i_located i = true -> i_name j = i_name i; I_origin : origin i j; I_word : i_name j = other_word (i_name i); I_words : words (i_text i) (i_text j) }.
Record S (s z : notes) : Prop := mkS {
  S_before : Forall2 I (n_before s) (n_before z); S_last : I (n_last s) (n_last z);
  S_reports : Forall2 (fun q p => P (fst q) (fst p) /\ snd p = other_message (snd q)) (n_reports s) (n_reports z) }.

Lemma words_nil : words [] [].
Proof. exists [], []. repeat split; constructor. Qed.
Lemma join_snoc l x : l <> [] -> join_sp (l ++ [x]) = join_sp l ++ 32%N :: x.
Proof.
  induction l as [|a [|b l] IH]; intro H; [congruence|reflexivity|]. cbn [app join_sp] in *. rewrite IH by discriminate. now rewrite <- app_assoc.
Qed.
Lemma join_nil l : join_sp l = [] -> Forall (fun x => x <> []) l -> l = [].
Proof. destruct l as [|a [|b l]]; intros H F; [reflexivity| |]; inversion F; cbn [join_sp] in H; [congruence|]. destruct a; discriminate. Qed.
Definition app_word (y x : pstr) : pstr := match y with [] => x | n :: l => (n :: l) ++ 32%N :: x end.
Lemma app_word_join l x : Forall (fun y => y <> []) l -> app_word (join_sp l) x = join_sp (l ++ [x]).
Proof.
  intro F. destruct l as [|a l]; [reflexivity|]. rewrite join_snoc by discriminate. unfold app_word.
  destruct (join_sp (a :: l)) eqn:E; [|reflexivity]. apply join_nil in E; [discriminate|exact F].
Qed.
Lemma words_app a b t u : words a b -> P t u -> words (app_word a (t_text t)) (app_word b (t_text u)).
Proof.
  intros (l & m & F & -> & ->) H. exists (l ++ [t]), (m ++ [u]). split; [apply Forall2_app; [exact F|constructor; [exact H|constructor]]|].
  rewrite !map_app. cbn [map]. split; symmetry; rewrite app_word_join; try reflexivity; apply Forall_map; clear - F P_text; induction F as [|x y l m H _ IH]; constructor; auto; now apply (P_text x y H).
Qed.

Lemma with_S f g s z : S s z -> I (f (n_last s)) (g (n_last z)) -> S (with_last f s) (with_last g z).
Proof. intros [A B C] H. constructor; assumption. Qed.
Lemma rules_S r r' s z : other_rules r = r' -> S s z -> S (rules r s) (rules r' z).
Proof. intros <- H. apply with_S; [exact H|]. destruct (S_last _ _ H). now constructor. Qed.
Lemma types_S b sb sb' s z : other_sub sb = sb' -> S s z -> S (types b sb s) (types b sb' z).
Proof. intros <- H. apply with_S; [exact H|]. destruct (S_last _ _ H). now constructor. Qed.
Lemma stays_S m s z : S s z -> S (stays m s) (stays m z).
Proof. intro H. apply with_S; [exact H|]. destruct (S_last _ _ H). now constructor. Qed.
Lemma flies_I sp lv i j : I i j -> I (flies sp lv i) (flies sp lv j).
Proof. intro H. destruct H. now constructor. Qed.
Lemma climbs_I a b i j : I i j -> I (climbs a b i) (climbs a b j).
Proof. intro H. destruct H. now constructor. Qed.
Lemma texts_S t u s z : P t u -> S s z -> S (SpecReader.texts (t_text t) s) (SpecReader.texts (t_text u) z).
Proof.
  intros Q H. apply with_S; [exact H|]. destruct (S_last _ _ H). constructor; try assumption. cbn [i_text]. exact (words_app _ _ t u I_words0 Q).
Qed.
Lemma add_S t u s z : P t u -> S s z -> S (add t s) (add u z).
Proof.
  intros Q [A B C]. constructor; cbn [n_before n_last n_reports add add_as].
  - apply Forall2_app; [exact A|constructor; [exact B|constructor]].
  - destruct B. constructor; cbn; try (apply p_base || apply p_sub); auto; try discriminate; [|apply words_nil]. right. exists t, u. auto 6.
  - exact C.
Qed.
Lemma add_vfr_S t u s z : P t u -> S s z -> S (add_as ($"VFR") t s) (add_as ($"VFR") u z).
Proof.
  intros Q [A B C]. constructor; cbn [n_before n_last n_reports add_as].
  - apply Forall2_app; [exact A|constructor; [exact B|constructor]].
  - destruct B. constructor; cbn; try (apply p_base || apply p_sub); auto; try discriminate; [|apply words_nil]. right. exists t, u. auto 6.
  - exact C.
Qed.
Lemma report_S t u ms ms' s z : map other_message ms = ms' -> P t u -> S s z -> S (report t ms s) (report u ms' z).
Proof.
  intros <- Q [A B C]. constructor; cbn [n_before n_last n_reports report]; try assumption. apply Forall2_app; [exact C|].
  clear C. induction ms as [|m ms IH]; constructor; [split; [exact Q|reflexivity]|exact IH].
Qed.
Lemma located_S t u s z : P t u -> S s z -> i_name (n_last s) = t_text t -> i_name (n_last z) = t_text u -> S (locates t s) (locates u z).
Proof.
  intros Q H N1 N2. apply with_S; [exact H|]. destruct (S_last _ _ H). constructor; cbn; auto.
  - rewrite (p_sub t u Q), other_coordinates. now rewrite I_loc0.
  - intro L. apply orb_true_iff in L as [L|L]; [|auto]. rewrite N1, N2. apply (p_same_sub t u Q).
    destruct (t_sub t); try discriminate L; exact Logic.I.
Qed.
Lemma angle_same t u : P t u -> angle_faults u = angle_faults t.
Proof.
  intro Q. pose proof (p_same_sub t u Q) as T. unfold angle_faults. cbv zeta. rewrite (p_sub t u Q). destruct (t_sub t); try reflexivity; now rewrite T.
Qed.
Lemma angle_message_same t : map other_message (angle_faults t) = angle_faults t.
Proof. unfold angle_faults, deg_faults, min_faults, brg_faults. cbv zeta. destruct (t_sub t); try reflexivity; repeat (destruct (over _ _) || destruct (over_min _ _ _)); reflexivity. Qed.
Lemma level_message_same t : map other_message (level_faults t) = level_faults t.
Proof. unfold level_faults. destruct (bad_level _), (_ && _)%bool; reflexivity. Qed.
Lemma point_S t u s z : P t u -> S s z -> S (point t s) (point u z).
Proof.
  intros Q H. unfold point. rewrite (angle_same t u Q). apply report_S; [apply angle_message_same|exact Q|]. apply located_S; [exact Q|now apply rules_S, add_S|reflexivity|reflexivity].
Qed.
(** Speeds are read. *)
Definition reads_speed (b : base_type) : bool :=
  match b with F15_SPEED_VFR | F15_SPEED_ALTITUDE | F15_SPEED_ALTITUDE_ALTITUDE | F15_SPEED_ALTITUDE_PLUS | F15_STAY_TIME => true | _ => false end.
Lemma speed_text t u : P t u -> reads_speed (t_base t) = true -> t_text u = t_text t.
Proof. intros Q H. apply (p_same t u Q). destruct (t_base t); try discriminate H; exact Logic.I. Qed.
Lemma vfr_S t u s z : P t u -> reads_speed (t_base t) = true -> S s z -> S (vfr t s) (vfr u z).
Proof.
  intros Q B H. unfold vfr. cbv zeta. rewrite (speed_text t u Q B). apply rules_S; [reflexivity|]. apply with_S.
  - apply add_vfr_S; [exact Q|]. apply with_S; [exact H|]. apply flies_I. apply H.
  - apply flies_I. apply S_last. apply add_vfr_S; [exact Q|]. apply with_S; [exact H|]. apply flies_I. apply H.
Qed.
Lemma speeds_S t u s z : P t u -> reads_speed (t_base t) = true -> S s z -> S (speeds t s) (speeds u z).
Proof.
  intros Q B H. unfold speeds. cbv zeta. assert (L : level_faults u = level_faults t) by (unfold level_faults; now rewrite (speed_text t u Q B), (p_base t u Q)). rewrite L, (speed_text t u Q B), (p_base t u Q). apply report_S; [apply level_message_same|exact Q|]. apply rules_S; [reflexivity|]. apply with_S; [exact H|].
  pose proof (flies_I (speed_part (t_text t)) (first_level (t_text t)) _ _ (S_last _ _ H)) as K.
  destruct (t_base t); try exact K; [apply climbs_I; exact K|].
  change (i_target_si (flies (speed_part (t_text t)) (first_level (t_text t)) (n_last z))) with (i_target_si (n_last z)). rewrite (I_si _ _ (S_last _ _ H)). apply climbs_I. exact K.
Qed.

(** ** Jobs *)
Inductive J : job -> job -> Prop :=
| J_adep : J JAdep JAdep | J_dct : J JDct JDct | J_route : J JRoute JRoute | J_sid : J JSid JSid | J_stay : J JStay JStay | J_point : J JPoint JPoint
| J_c t u : P t u -> J (JC t) (JC u)
| J_slash t u : P t u -> J (JSlash t) (JSlash u)
| J_climb t u a b : P t u -> P a b -> J (JClimb t a) (JClimb u b)
| J_climbpt t u : P t u -> J (JClimbPt t) (JClimbPt u)
| J_climbsl t u : P t u -> J (JClimbSl t) (JClimbSl u)
| J_staytok t u : P t u -> J (JStayTok t) (JStayTok u)
| J_staysl t u : P t u -> J (JStaySl t) (JStaySl u)
| J_text : J JText JText | J_begin : J JBegin JBegin
| J_word t u : P t u -> J (JWord t) (JWord u)
| J_join : J JJoin JJoin | J_trunc : J JTruncate JTruncate | J_sync : J JSync JSync
| J_syncsl t u : P t u -> J (JSyncSl t) (JSyncSl u)
| J_aspoint : J JAsPoint JAsPoint
| J_take t u : P t u -> J (JTake t) (JTake u).
Definition nojoin (j : job) : bool := match j with JJoin => false | _ => true end.
Definition deep (k : list job) (ts : list token) : Prop :=
  match k with
  | JJoin :: k' => resume KVfr ts = Resumes /\ forallb nojoin k' = true
  | _ => forallb nojoin k = true
  end.
Inductive R : result -> result -> Prop :=
| R_goes k q s z ts us : Forall2 J k q -> S s z -> Forall2 P ts us -> deep k ts -> R (Goes k s ts) (Goes q z us)
| R_breaks s z : S s z -> R (Breaks s) (Breaks z).

Ltac two := repeat first [assumption | constructor].
Lemma only_same s z : S s z -> only_adep z = only_adep s.
Proof. intros [A _ _]. unfold only_adep. destruct A; reflexivity. Qed.
Lemma section_same s z : S s z -> in_section z = option_map other_kind (in_section s).
Proof. intro H. unfold in_section. cbv zeta. rewrite (I_rules _ _ (S_last _ _ H)). rewrite rules_eqb by discriminate.
  destruct (pstr_eqb _ ($"VFR")); [reflexivity|]. destruct (rules_cases (i_rules (n_last s))) as [[-> ->]|[[-> ->]|(A & B & ->)]]; [reflexivity..|].
  destruct (pstr_eqb _ ($"OAT")) eqn:E1; [apply pstr_eqb_eq in E1; contradiction|]. now destruct (pstr_eqb _ ($"IFPS")) eqn:E2; [apply pstr_eqb_eq in E2; contradiction|].
Qed.
Lemma deep_no k ts : forallb nojoin k = true -> deep k ts.
Proof. destruct k as [|j k]; intro H; [exact H|]. destruct j; try exact H. discriminate H. Qed.
Lemma R_no k q s z ts us : Forall2 J k q -> S s z -> Forall2 P ts us -> forallb nojoin k = true -> R (Goes k s ts) (Goes q z us).
Proof. intros. constructor; try assumption. now apply deep_no. Qed.
Lemma resume_same b ts us : Forall2 P ts us -> resume (other_kind b) us = resume b ts.
Proof.
  intro F. unfold resume. destruct F as [|t u ts us Q F]; [reflexivity|]. rewrite (p_base _ _ Q). destruct (t_base t); try reflexivity. destruct b; cbn [other_kind]; try reflexivity.
  destruct F as [|t1 u1 ts us Q1 F]; [reflexivity|]. rewrite (p_base _ _ Q1). destruct (t_base t1); try reflexivity.
  destruct F as [|t2 u2 ts us Q2 F]; [reflexivity|]. now rewrite (p_base _ _ Q2).
Qed.
Lemma leave_R b k q s z ts us : Forall2 J k q -> S s z -> Forall2 P ts us -> forallb nojoin k = true -> R (leave b k s ts) (leave (other_kind b) q z us).
Proof.
  intros K H F N. unfold leave. rewrite (resume_same b _ _ F). destruct (resume b ts) eqn:E.
  - now apply R_no.
  - destruct b; [|apply R_no; try assumption; cbn [app]; two..]. constructor; try assumption; cbn [app]; [two|]. cbn [deep]. now split.
  - destruct F as [|t u ts us Q F]; [now apply R_no|]. apply R_no; [two|now apply report_S|two|exact N].
Qed.
Lemma sid_same t u : P t u -> t_base t = F15_SID \/ t_base t = F15_SID_STAR -> sid_sub u = sid_sub t.
Proof. intros Q H. unfold sid_sub. rewrite (p_same t u Q); [reflexivity|]. destruct H as [-> | ->]; exact Logic.I. Qed.
Lemma star_same t u : P t u -> t_base t = F15_STAR \/ t_base t = F15_SID_STAR -> star_sub u = star_sub t.
Proof. intros Q H. unfold star_sub. rewrite (p_same t u Q); [reflexivity|]. destruct H as [-> | ->]; exact Logic.I. Qed.
Lemma sid_other t : other_sub (sid_sub t) = sid_sub t.
Proof. unfold sid_sub. now destruct (pstr_eqb _ _). Qed.
Lemma star_other t : other_sub (star_sub t) = star_sub t.
Proof. unfold star_sub. now destruct (pstr_eqb _ _). Qed.
Lemma begins_other sb : begins (other_sub sb) = option_map other_kind (begins sb).
Proof. destruct sb; reflexivity. Qed.
Lemma rules_other b : other_rules (kind_rules b) = kind_rules (other_kind b).
Proof. destruct b; reflexivity. Qed.
Lemma ends_other b sb : ends (other_kind b) (other_sub sb) = ends b sb.
Proof. destruct b, sb; reflexivity. Qed.
Lemma computed_other sb : computed_point (other_sub sb) = computed_point sb.
Proof. destruct sb; reflexivity. Qed.
Lemma misplaced_other p t u : P t u -> match p with PLast m => other_message m = m | _ => True end -> misplaced p u = other_message (misplaced p t).
Proof.
  intros Q M. pose proof (P_end t u Q) as En. unfold misplaced, stray_end. rewrite (p_base t u Q), (p_sub t u Q).
  destruct p; destruct (t_base t); try reflexivity; try (symmetry; exact M); destruct (En eq_refl) as [<-|[<-|[<-|[]]]]; reflexivity.
Qed.
Lemma last_R t u k q s z ts us : P t u -> t_base t = F15_STAR \/ t_base t = F15_SID_STAR -> Forall2 J k q -> S s z -> Forall2 P ts us -> forallb nojoin k = true -> R (the_last t k s ts) (the_last u q z us).
Proof.
  intros Q B K H F N. unfold the_last. destruct F as [|x y ts us X F].
  - rewrite (star_same t u Q B). apply R_no; [exact K|apply types_S; [apply star_other|exact H]|constructor|exact N].
  - apply R_no; [two|now apply report_S|two|exact N].
Qed.
Lemma start_R t u k q s z ts us : P t u -> Forall2 J k q -> S s z -> Forall2 P ts us -> forallb nojoin k = true -> R (start t k s ts) (start u q z us).
Proof.
  intros Q K H F N. unfold start, unconvertible. rewrite (p_base t u Q), (p_sub t u Q), begins_other, (only_same s z H). pose proof (P_plain t u Q) as Pl. pose proof (speed_text t u Q) as T.
  destruct (t_base t) eqn:B; cbn [reads_speed] in T;
    try (apply R_no; [two|first [now apply point_S|now apply vfr_S; rewrite ?B|now apply speeds_S; rewrite ?B|now apply rules_S, add_S|now apply add_S|assumption]|two|exact N]).
  - apply R_no; [two| |two|exact N]. destruct (begins (t_sub t)) as [b|]; [apply rules_S; [apply rules_other|now apply add_S]|now apply add_S].
  - destruct (only_adep s); [|apply last_R; auto; now apply add_S]. rewrite (sid_same t u Q) by auto. apply R_no; [two|apply types_S; [apply sid_other|now apply add_S]|two|exact N].
  - apply R_no; [destruct (only_adep s); two|apply speeds_S; [exact Q|now rewrite B|exact H]|two|destruct (only_adep s); exact N].
  - rewrite Pl by discriminate. destruct (match t_sub t with F15_SB_SPEED_ALTITUDE_NAS | F15_SB_SPEED_ALTITUDE_NAM => true | _ => false end); [now constructor|].
    apply R_no; [two|apply speeds_S; [exact Q|now rewrite B|exact H]|two|exact N].
  - destruct (only_adep s); [rewrite (sid_same t u Q) by auto; apply R_no; [two|apply types_S; [apply sid_other|now apply add_S]|two|exact N]|].
    apply R_no; [two|apply report_S; [reflexivity|exact Q|now apply add_S]|two|exact N].
  - apply last_R; auto. now apply add_S.
Qed.
Lemma spot_sub s z : S s z -> i_sub (n_last z) = other_sub (i_sub (n_last s)).
Proof. intro H. apply (S_last _ _ H). Qed.
Lemma suits_same i j t u s z : J i j -> P t u -> S s z -> suits j u z = suits i t s.
Proof.
  intros K Q H. unfold suits, spot. cbv zeta. rewrite (spot_sub s z H), computed_other. destruct K; unfold fits, base_eqb; rewrite ?(p_base t u Q), ?(p_sub t u Q), ?computed_other; reflexivity.
Qed.
Lemma misplaced_same i j t u s z : J i j -> P t u -> S s z -> misplaced (spot j z) u = other_message (misplaced (spot i s) t).
Proof.
  intros K Q H. unfold spot. cbv zeta. rewrite (spot_sub s z H), computed_other. destruct K; rewrite <- (misplaced_other _ t u Q) by first [exact Logic.I|reflexivity]; try reflexivity; unfold misplaced; reflexivity.
Qed.
Lemma wrong_R i j t u k q s z ts us : J i j -> P t u -> Forall2 J k q -> S s z -> Forall2 P ts us -> forallb nojoin k = true -> R (wrong i t k s ts) (wrong j u q z us).
Proof. intros A Q K H F N. unfold wrong. rewrite (misplaced_same i j t u s z A Q H). apply R_no; [two|now apply report_S|exact F|exact N]. Qed.
Lemma ends_same t u s z : P t u -> S s z -> ends_here z u = option_map other_kind (ends_here s t).
Proof. intros Q H. unfold ends_here. rewrite (section_same s z H), (p_sub t u Q). destruct (in_section s) as [b|]; [|reflexivity]. cbn [option_map]. rewrite ends_other. now destruct (ends b _). Qed.
Lemma text_R i j t u k q s z ts us : i = JText \/ i = JBegin -> J i j -> P t u -> Forall2 J k q -> S s z -> Forall2 P ts us -> forallb nojoin k = true -> R (read i t k s ts) (read j u q z us).
Proof.
  intros I0 A Q K H F N. pose proof (texts_S t u s z Q H) as X. pose proof (ends_same t u _ _ Q X) as Y.
  destruct I0 as [ -> | -> ]; inversion A; subst; unfold read; rewrite (p_base t u Q); cbv zeta; rewrite Y;
    (destruct (base_eqb (t_base t) F15_TOO_LONG); [apply R_no; [cbn [app]; two|now apply report_S|exact F|exact N]|]);
    (destruct (ends_here _ t) as [b|]; cbn [option_map]; [apply leave_R; try assumption; two|apply R_no; two]).
Qed.
Lemma read_R i j t u k q s z ts us : J i j -> P t u -> Forall2 J k q -> S s z -> Forall2 P ts us -> deep (i :: k) (t :: ts) -> R (read i t k s ts) (read j u q z us).
Proof.
  intros A Q K H F N. pose proof (suits_same i j t u s z A Q H) as Su.
  assert (W : nojoin i = true -> forall k1 q1, Forall2 J k1 q1 -> forallb nojoin k1 = true -> R (wrong i t k1 s ts) (wrong j u q1 z us)) by (intros; now apply wrong_R).
  pose proof (speed_text t u Q) as T.
  destruct A; cbn [deep forallb nojoin andb] in N; try (now apply text_R; two; auto);
    try (unfold read; rewrite Su; destruct (suits _ t s) eqn:E; rewrite ?(p_base t u Q);
         [ first [ now apply start_R
                 | destruct (base_eqb (t_base t) F15_SLASH); [apply R_no; two|first [now apply start_R|apply start_R; try assumption; now apply add_S]]
                 | apply R_no; two; fail
                 | idtac ]
         | destruct (t_base t); first [apply W; two; fail | idtac] ]; fail).
  - unfold read. rewrite Su. destruct (suits _ t s) eqn:E.
    + rewrite (angle_same t u Q). apply R_no; [two|apply report_S; [apply angle_message_same|exact Q|]; apply located_S; [exact Q|now apply add_S|reflexivity|reflexivity]|exact F|exact N].
    + apply W; two.
  - unfold read. rewrite Su. destruct (suits _ t s) eqn:E; [apply start_R; two|]. apply W; two.
  - unfold read. rewrite Su. destruct (suits _ t s) eqn:E.
    + rewrite T; [apply R_no; [two|now apply stays_S|exact F|exact N]|]. unfold suits, fits, spot in E. cbn in E. destruct (t_base t); try discriminate E. reflexivity.
    + apply W; two.
  - destruct N as [N1 N2]. unfold read. unfold resume in N1. destruct (t_base t) eqn:B; try discriminate N1. 
    destruct F as [|sl sl' ts us Q1 F]; [discriminate|]. destruct (t_base sl); try discriminate. destruct F as [|sp sp' ts us Q2 F]; [discriminate|].
    rewrite (p_base _ _ Q2). assert (X : reads_speed (t_base sp) = true) by (destruct (t_base sp); try discriminate N1; reflexivity).
    destruct (base_eqb (t_base sp) F15_SPEED_VFR).
    + apply R_no; [two|apply vfr_S; [exact Q2|exact X|now apply rules_S, add_S]|exact F|exact N2].
    + apply R_no; [two|apply speeds_S; [exact Q2|exact X|now apply point_S]|exact F|exact N2].
  - apply W; two.
  - assert (En : t_base t = F15_BREAK_END -> end_kind u = other_kind (end_kind t)).
    { intro B. unfold end_kind. rewrite (p_sub t u Q). now destruct (P_end t u Q B) as [<-|[<-|[<-|[]]]]. }
    unfold read. rewrite (p_base t u Q). destruct (t_base t); try rewrite (En eq_refl); clear En; first [now apply start_R|apply R_no; [two|now apply report_S|exact F|exact N]|now apply leave_R|apply R_no; two].
  - unfold read. rewrite (p_base t u Q). destruct (t_base t); first [now apply start_R|apply R_no; [two|now apply report_S|exact F|exact N]].
  - unfold read. apply R_no; [two|now apply point_S|exact F|exact N].
Qed.
Lemma at_end_S i j s z : J i j -> S s z -> S (at_end i s) (at_end j z).
Proof. intros A H. destruct A; cbn [at_end]; try exact H; try (now apply report_S); [now apply add_S|apply report_S; [reflexivity|assumption|now apply add_S]]. Qed.
Lemma deep_tail j k ts : deep (j :: k) ts -> forallb nojoin k = true.
Proof. destruct j; cbn [deep forallb nojoin andb]; try (intro H; exact H). now intros [_ H]. Qed.
Lemma step_R k q s z ts us : R (Goes k s ts) (Goes q z us) -> R (step1 k s ts) (step1 q z us).
Proof.
  intro H. inversion H as [? ? ? ? ? ? K Sz F D|]; subst. destruct K as [|i j k q A K]; [exact H|].
  pose proof (deep_tail _ _ _ D) as N.
  destruct A; unfold step1; fold step1; try (destruct F as [|t' u' ts us Q F]; [apply R_no; [exact K|apply at_end_S; two|constructor|exact N]|apply read_R; two]).
  - apply R_no; [exact K|now apply texts_S|exact F|exact N].
  - apply R_no; [two|now apply point_S|exact F|exact N].
Qed.
Inductive E : ending -> ending -> Prop :=
| E_done s z : S s z -> E (Done s) (Done z) | E_broken s z : S s z -> E (Broken s) (Broken z) | E_un : E Unfinished Unfinished.
Lemma play_E n : forall k q s z ts us, R (Goes k s ts) (Goes q z us) -> E (play n k s ts) (play n q z us).
Proof.
  induction n as [|n IH]; intros k q s z ts us H; pose proof (step_R _ _ _ _ _ _ H) as X; inversion H as [? ? ? ? ? ? K Sz F D|]; subst;
    destruct K as [|i j k q A K]; cbn [play]; try (now constructor).
  remember (step1 (i :: k) s ts) as r1. remember (step1 (j :: q) z us) as r2. destruct X; [|now constructor]. apply IH. now constructor.
Qed.
Lemma aero_I name : other_word name = name -> I (aero name) (aero name).
Proof. intro W. constructor; try reflexivity; [left; repeat split|symmetry; exact W|apply words_nil]. Qed.
Lemma blank_S : S blank_notes blank_notes.
Proof. constructor; cbn; [constructor|now apply aero_I|constructor]. Qed.
Lemma patience_same ts us : Forall2 P ts us -> patience us = patience ts.
Proof. intro F. unfold patience. now rewrite (F2_length _ _ _ F). Qed.
Lemma begin_E ts us : Forall2 P ts us -> E (begin ts) (begin us).
Proof.
  intro F. pose proof (patience_same _ _ F) as Pt. destruct F as [|t u ts us Q F]; [cbn; constructor; apply blank_S|].
  unfold begin. rewrite (p_base t u Q), Pt.
  assert (A : E (match start t [] blank_notes ts with Goes k s ts' => play (patience (t :: ts)) k s ts' | Breaks s => Broken s end)
                (match start u [] blank_notes us with Goes k s ts' => play (patience (t :: ts)) k s ts' | Breaks s => Broken s end)).
  { pose proof (start_R t u [] [] blank_notes blank_notes ts us Q ltac:(constructor) blank_S F eq_refl) as X.
    remember (start t [] blank_notes ts) as r1. remember (start u [] blank_notes us) as r2. destruct X; [apply play_E; now constructor|now constructor]. }
  assert (B : E (play (patience (t :: ts)) [JSync] (report t [1] blank_notes) ts) (play (patience (t :: ts)) [JSync] (report u [1] blank_notes) us)).
  { apply play_E, R_no; [two|apply report_S; [reflexivity|exact Q|apply blank_S]|exact F|reflexivity]. }
  destruct (t_base t); first [exact A|exact B].
Qed.
Lemma conclude_S ts us s z : Forall2 P ts us -> S s z ->
  Forall2 I (fst (conclude ts s)) (fst (conclude us z)) /\ Forall2 (fun q p => P (fst q) (fst p) /\ snd p = other_message (snd q)) (snd (conclude ts s)) (snd (conclude us z)).
Proof.
  intros F H. unfold conclude. cbv zeta. cbn [fst snd].
  assert (A : Forall2 I (n_before s ++ [n_last s]) (n_before z ++ [n_last z])) by (apply Forall2_app; [apply H|constructor; [apply H|constructor]]).
  set (l := n_before s ++ [n_last s]) in *. set (m := n_before z ++ [n_last z]) in *.
  set (l' := match ts with [] => l | t :: _ => _ end). set (m' := match us with [] => m | t :: _ => _ end).
  assert (B : Forall2 I l' m').
  { unfold l', m'. destruct F as [|t u ts us Q F]; [exact A|]. clearbody l m. destruct A as [|i j l0 m0 A0 A]; [constructor|]. rewrite (p_base t u Q).
    destruct (base_eqb (t_base t) F15_SPEED_VFR); [|now constructor]. constructor; [|exact A]. destruct A0. now constructor. }
  assert (La : i_rules (last m' (aero [])) = other_rules (i_rules (last l' (aero [])))).
  { assert (X : I (last l' (aero [])) (last m' (aero []))); [|apply X]. clearbody l' m'. clear - B. induction B as [|i j l0 m0 A B IH]; [now apply aero_I|].
    destruct B; [exact A|exact IH]. }
  split.
  - apply Forall2_app; [exact B|]. constructor; [|constructor]. rewrite La. pose proof (aero_I ($"ADES") eq_refl) as [ ]. now constructor.
  - pose proof (S_reports _ _ H) as C. destruct F as [|t u ts us Q F]; [exact C|]. destruct F; [|exact C]. rewrite (p_base t u Q).
    destruct (base_eqb (t_base t) F15_SPEED_ALTITUDE); [|exact C]. apply (S_reports _ _ (report_S t u [49] [49] s z eq_refl Q H)).
Qed.
Lemma reading_same ts us : Forall2 P ts us ->
  match reading ts, reading us with
  | Some (Gives l e), Some (Gives m f) => Forall2 I l m /\ Forall2 (fun q p => P (fst q) (fst p) /\ snd p = other_message (snd q)) e f
  | Some Raises, Some Raises => True
  | None, None => True
  | _, _ => False
  end.
Proof.
  intro F. unfold reading. destruct (begin_E ts us F) as [s z H|s z H|]; auto. pose proof (conclude_S ts us s z F H) as [A B].
  destruct (conclude ts s), (conclude us z). now split.
Qed.

(** ** Records *)
Section G.
Variable G : geodesic.
Lemma record_same i j : I i j -> other_record P (record_of G i) (record_of G j).
Proof.
  intros []. unfold record_of. cbv zeta. rewrite I_level0, I_speed0, I_base0, I_sub0, I_rules0, I_stay0, I_target0, I_si0, I_loc0.
  split; [|split; [|split]].
  - unfold other_values. cbn [r_base r_sub r_alt r_alt_si r_speed r_speed_si r_rules r_err r_stay r_cto r_cto_si r_lat r_lon r_brg r_dist r_llv].
    destruct (i_located i); [rewrite I_name0 by reflexivity|]; repeat split.
  - exact I_origin0.
  - exact I_word0.
  - exact I_words0.
Qed.
Lemma next_same rest rest' : Forall2 (other_record P) rest rest' ->
  match next_located rest, next_located rest' with Some p, Some q => r_lat q = r_lat p /\ r_lon q = r_lon p | None, None => True | _, _ => False end.
Proof.
  intro F. unfold next_located. destruct F as [|p q l m [A _] F]; [exact Logic.I|]. destruct A as (A1 & A2 & A3 & A4 & A5 & A6 & A7 & A8 & A9 & A10 & A11 & A12 & A13 & A14 & A15 & A16).
  rewrite A16. destruct (r_llv p); [now split|]. destruct F as [|p' q' l m [B _] F]; [exact Logic.I|].
  destruct B as (B1 & B2 & B3 & B4 & B5 & B6 & B7 & B8 & B9 & B10 & B11 & B12 & B13 & B14 & B15 & B16). rewrite B16. destruct (r_llv p'); [now split|exact Logic.I].
Qed.
Lemma leg_same r q rest rest' : other_record P r q -> Forall2 (other_record P) rest rest' -> other_record P (with_leg G r rest) (with_leg G q rest').
Proof.
  intros A F. pose proof (next_same rest rest' F) as N. unfold with_leg. destruct A as (V & O & W). pose proof V as (A1 & A2 & A3 & A4 & A5 & A6 & A7 & A8 & A9 & A10 & A11 & A12 & A13 & A14 & A15 & A16).
  rewrite A16. destruct (r_llv r) eqn:Eq; [|now split]. destruct (next_located rest) as [p|], (next_located rest') as [p'|]; try contradiction; [|now split].
  destruct N as [N1 N2]. cbv zeta. rewrite A12, A13, N1, N2. split; [|now split]. unfold other_values, set_r_dist, set_r_brg. cbn. repeat split; try assumption. now rewrite A16.
Qed.
Lemma legs_same l m : Forall2 (other_record P) l m -> Forall2 (other_record P) (with_legs G l) (with_legs G m).
Proof. induction 1 as [|r q l m A F IH]; cbn [with_legs]; constructor; [now apply leg_same|exact IH]. Qed.
Lemma route_same l m : Forall2 I l m -> Forall2 (other_record P) (route_of G l) (route_of G m).
Proof. intro F. apply legs_same. induction F; cbn [map]; constructor; [now apply record_same|assumption]. Qed.
End G.
Lemma letter_same l m : Forall2 I l m -> letter m = letter l.
Proof.
  intro F. assert (X : forall r, r <> $"OAT" -> r <> $"IFPS" -> existsb (fun i => pstr_eqb (i_rules i) r) m = existsb (fun i => pstr_eqb (i_rules i) r) l).
  { intros r N1 N2. induction F as [|i j l m A F IH]; [reflexivity|]. cbn [existsb]. now rewrite IH, (I_rules _ _ A), rules_eqb. }
  unfold letter. cbv zeta. rewrite !X by discriminate. destruct F as [|i j l m A F]; [reflexivity|]. now rewrite (I_rules _ _ A), rules_eqb by discriminate.
Qed.
End P.


(** ** Fields *)
Definition swaps (t u : token) : Prop :=
  t_base u = t_base t /\ t_sub u = other_sub (t_sub t) /\ t_text u = other_word (t_text t) /\ (t_text t <> [] /\ t_text u <> []) /\
  (t_text u = t_text t \/
   In (t_base t, t_sub t) [(F15_BREAK_START, F15_SB_OAT); (F15_BREAK_START, F15_SB_IFPSTOP); (F15_BREAK_END, F15_SB_GAT); (F15_BREAK_END, F15_SB_IFPSTART)]) /\
  (t_base t = F15_BREAK_END -> In (t_sub t) [F15_SB_IFR; F15_SB_GAT; F15_SB_IFPSTART]) /\
  (t_base t <> F15_BREAK_START -> t_base t <> F15_BREAK_END -> other_sub (t_sub t) = t_sub t).
Lemma word_cases x : In (x, other_word x) [($"OAT", $"IFPSTOP"); ($"IFPSTOP", $"OAT"); ($"GAT", $"IFPSTART"); ($"IFPSTART", $"GAT")] \/
  (other_word x = x /\ x <> $"OAT" /\ x <> $"IFPSTOP" /\ x <> $"GAT" /\ x <> $"IFPSTART").
Proof.
  unfold other_word.
  destruct (pstr_eqb x ($"OAT")) eqn:A; [apply pstr_eqb_eq in A; subst; left; cbn; auto|]. destruct (pstr_eqb x ($"IFPSTOP")) eqn:B; [apply pstr_eqb_eq in B; subst; left; cbn; auto|].
  destruct (pstr_eqb x ($"GAT")) eqn:C; [apply pstr_eqb_eq in C; subst; left; cbn; auto|]. destruct (pstr_eqb x ($"IFPSTART")) eqn:D; [apply pstr_eqb_eq in D; subst; left; cbn; auto|].
  right. repeat split; intro; subst; discriminate.
Qed.

From Verif Require Import Regex RegexProofs SyntaxProofs.
Lemma keyword_text t sb x : wt t -> t_sub t = sb -> sb <> F15_SB_UNKNOWN ->
  forallb (fun sh => shape_incl sh (map (fun c => [(c, c)]) x)) (shapes_with (fun T => sub_eqb (snd T) sb)) = true -> t_text t = x.
Proof.
  intros W E N H. assert (Ns : sub_eqb F15_SB_UNKNOWN sb = false) by (destruct (sub_eqb F15_SB_UNKNOWN sb) eqn:X; [apply sub_eqb_eq in X; congruence|reflexivity]).
  destruct (wt_shape (fun T => sub_eqb (snd T) sb) t W) as (sh & Hin & Hsh); [exact Ns|exact Ns|cbn; rewrite E; now apply sub_eqb_eq|].
  rewrite forallb_forall in H. pose proof (shape_incl_sound _ _ _ (H sh Hin) Hsh) as K. clear - K. revert K. generalize (t_text t). induction x as [|c x IH]; intros l K; inversion K; subst; [reflexivity|].
  f_equal; [|now apply IH]. match goal with H : in_ranges _ _ = true |- _ => unfold in_ranges in H; cbn in H; rewrite orb_false_r in H; apply andb_true_iff in H as [H1 H2]; apply N.leb_le in H1; apply N.leb_le in H2; lia end.
Qed.
Lemma plain_sub t : wt t -> t_text t <> $"OAT" -> t_text t <> $"IFPSTOP" -> t_text t <> $"GAT" -> t_text t <> $"IFPSTART" -> other_sub (t_sub t) = t_sub t.
Proof.
  intros W A B C D. destruct (t_sub t) eqn:E; try reflexivity; exfalso.
  - apply A. now apply (keyword_text t _ _ W E); [discriminate|vm_compute].
  - apply C. now apply (keyword_text t _ _ W E); [discriminate|vm_compute].
  - apply D. now apply (keyword_text t _ _ W E); [discriminate|vm_compute].
  - apply B. now apply (keyword_text t _ _ W E); [discriminate|vm_compute].
Qed.
Lemma swaps_word t u : wt t -> wt u -> t_text t <> [] -> t_text u = other_word (t_text t) -> swaps t u.
Proof.
  intros W W' N E. assert (W0 := W). assert (W0' := W'). unfold wt in W, W'. rewrite E in W'. destruct (word_cases (t_text t)) as [K|(K & A & B & C & D)].
  - cbn in K. destruct K as [K|[K|[K|[K|[]]]]]; injection K as K1 K2; rewrite <- K2 in W', E; rewrite <- K1 in W; unfold swaps; rewrite E, <- K2, <- ?K1; revert W W'; clear; generalize (t_base t) (t_sub t) (t_base u) (t_sub u); intros tb ts ub us W W';
      vm_compute in W, W'; injection W as <- <-; injection W' as <- <-;
      (split; [reflexivity|split; [reflexivity|split; [reflexivity|split; [split; discriminate|split; [right; cbn; auto|split; [intro; try discriminate; cbn; auto|]]]]]]); intros; congruence.
  - rewrite K in W', E. rewrite W in W'. injection W' as W3 W4. pose proof (plain_sub t W0 A B C D) as Pl. unfold swaps. rewrite <- W3, <- W4, E, K, Pl.
    repeat (split; [first [reflexivity|now split|now left|idtac]|]); [|reflexivity]. intro X. exact (Grammar.be_sub t W0 X).
Qed.
Section Field.
Variable G : geodesic.
Local Open Scope nat_scope.
Lemma swapped_all f g : swapped_field f g -> Forall2 swaps (field_tokens f) (field_tokens g).
Proof.
  unfold swapped_field. rewrite !Viable.et_map. pose proof (field_wt f) as A. pose proof (field_wt g) as B. revert A B. generalize (field_tokens f) (field_tokens g).
  induction l as [|t l IH]; intros [|u m] A B E; try discriminate; [constructor|]. cbn [map] in E. injection E as E1 E2. inversion A as [|? ? [A1 A2] A3]; subst. inversion B as [|? ? [B1 B2] B3]; subst.
  constructor; [now apply swaps_word|now apply IH].
Qed.
Lemma opposite_in (Q : token -> token -> Prop) f g : Forall2 Q (field_tokens f) (field_tokens g) ->
  Forall2 (opposite f g) (field_tokens f) (field_tokens g) /\ forall t u, opposite f g t u -> Q t u.
Proof.
  intro F. split.
  - unfold opposite. assert (K : forall a b pa pb, Forall2 Q a b -> List.length pa = List.length pb -> Forall2 (fun t u => exists n, nth_error (pa ++ a) n = Some t /\ nth_error (pb ++ b) n = Some u) a b).
    { clear. intros a b pa pb F. revert pa pb. induction F as [|t u a b A F IH]; intros pa pb L; [constructor|]. constructor.
      - exists (List.length pa). split; [|rewrite L]; rewrite nth_error_app2, Nat.sub_diag by lia; reflexivity.
      - specialize (IH (pa ++ [t]) (pb ++ [u])). rewrite !app_length, <- !app_assoc in IH. apply IH. now rewrite L. }
    exact (K _ _ [] [] F eq_refl).
  - unfold opposite. intros t u (n & A & B). revert n A B. induction F as [|x y a b H F IH]; intros [|n] A B; try discriminate; cbn in A, B; [congruence|eauto].
Qed.
Lemma other_reports (Q : token -> token -> Prop) e h xs ys : (forall t u, Q t u -> t_text u = other_word (t_text t)) -> Forall2 (fun q p => Q (fst q) (fst p) /\ snd p = other_message (snd q)) e h ->
  Forall2 (fun q x => reports (fst q) (snd q) x) e xs -> Forall2 (fun q x => reports (fst q) (snd q) x) h ys -> Forall2 (other_report Q) xs ys.
Proof.
  intros T F. revert xs ys. induction F as [|[t m] [u n] e h [A B] F IH]; intros xs ys X Y; inversion X; inversion Y; subst; constructor; [|auto].
  cbn [fst snd] in *. subst n. exists m, t, u. auto.
Qed.
Lemma swapped depth f g : swapped_field f g -> field_tokens f <> [] -> 3 * n_tokens f <= depth + 1 ->
  match parse_field15 G depth f, parse_field15 G depth g with
  | Ok a s, Ok b z =>
      a = b /\ Forall2 (other_record (opposite f g)) (e_recs (s_ers s)) (e_recs (s_ers z)) /\
      Forall2 (other_report (opposite f g)) (e_errs (s_ers s)) (e_errs (s_ers z)) /\ e_rules (s_ers s) = e_rules (s_ers z)
  | Exn x _, Exn y _ => x = y
  | _, _ => False
  end.
Proof.
  intros Sw N D. pose proof (swapped_all f g Sw) as F. destruct (opposite_in swaps f g F) as [O Sp].
  assert (N' : field_tokens g <> []) by (intro X; rewrite X in O; inversion O as [X1|]; congruence).
  assert (Nt : n_tokens g = n_tokens f) by (pose proof (F2_length _ _ _ F) as L; unfold field_tokens in L; rewrite !map_length in L; exact L).
  pose proof (reading_same (opposite f g)) as K.
  specialize (K (fun t u H => proj1 (Sp t u H)) (fun t u H => proj1 (proj2 (Sp t u H))) (fun t u H => proj1 (proj2 (proj2 (Sp t u H))))).
  specialize (K (fun t u H => proj1 (proj2 (proj2 (proj2 (Sp t u H)))))).
  specialize (K (fun t u H => proj1 (proj2 (proj2 (proj2 (proj2 (Sp t u H))))))).
  specialize (K (fun t u H => proj1 (proj2 (proj2 (proj2 (proj2 (proj2 (Sp t u H)))))))).
  specialize (K (fun t u H => proj2 (proj2 (proj2 (proj2 (proj2 (proj2 (Sp t u H)))))))).
  specialize (K _ _ O). pose proof (complete_total G depth f N D) as A. pose proof (complete_total G depth g N' ltac:(rewrite Nt; exact D)) as B.
  destruct (reading (field_tokens f)) as [[l e|]|] eqn:Ef, (reading (field_tokens g)) as [[m h|]|] eqn:Eg; try contradiction.
  - destruct A as (s & A1 & A2), B as (z & B1 & B2). destruct (whole_result G depth f _ s N A1) as (l1 & e1 & R1 & _ & R2 & _).
    destruct (whole_result G depth g _ z N' B1) as (m1 & h1 & T1 & _ & T2 & _). rewrite Ef in R1. rewrite Eg in T1. injection R1 as <- <-. injection T1 as <- <-.
    rewrite A1, B1. destruct K as [K1 K2]. split; [|split; [|split]].
    + destruct K2; reflexivity.
    + rewrite A2, B2. now apply route_same.
    + exact (other_reports _ _ _ _ _ (fun t u H => proj1 (proj2 (proj2 (Sp t u H)))) K2 R2 T2).
    + rewrite A2, B2. symmetry. eapply letter_same; eassumption.
  - destruct A as (s & A), B as (z & B). now rewrite A, B.
Qed.
End Field.
