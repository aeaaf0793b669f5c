(** * Rename: the reading machine does not look at names. *)
From Coq Require Import ZArith NArith List Bool String Lia.
From Verif Require Import PyBase PyFloat Enums ErrorTable Tokenizer Ers Utils Parser SpecTokenizer SpecNum SpecParser SpecGrammar SpecAccept SpecDiagnosis SpecReader SpecComplete SpecRename.
From Verif Require Import TokenizerProofs PerfEq Describe Reader ReaderFacts CompleteFacts.
Import List ListNotations.
Local Open Scope list_scope.
Local Open Scope Z_scope.

Lemma F2_length {A B} (Q : A -> B -> Prop) l m : Forall2 Q l m -> Datatypes.length m = Datatypes.length l.
Proof. induction 1; cbn; congruence. Qed.
Section P.
Variable P : token -> token -> Prop.
Hypothesis P_alike : forall t u, P t u -> alike t u.
Hypothesis P_text : forall t u, P t u -> t_text t <> [] /\ t_text u <> [].
Hypothesis P_proc : forall t u, P t u -> t_base t = F15_SID_STAR ->
  (t_text t <> $"SID" /\ t_text t <> $"STAR") /\ (t_text u <> $"SID" /\ t_text u <> $"STAR").

Lemma p_base t u : P t u -> t_base u = t_base t.
Proof. intro H. symmetry. apply (P_alike t u H). Qed.
Lemma p_sub t u : P t u -> t_sub u = t_sub t.
Proof. intro H. symmetry. apply (P_alike t u H). Qed.
Lemma p_same t u : P t u -> freely_named (t_base t) (t_sub t) = false -> t_text u = t_text t.
Proof. intros H F. destruct (P_alike t u H) as (_ & _ & [K|K]); [congruence|auto]. Qed.

(** ** Items *)
Definition origin (i j : item) : Prop :=
  (i_name i = i_name j /\ (i_start i, i_end i) = (0, 0) /\ (i_start j, i_end j) = (0, 0)) \/
  exists t u, P t u /\ (i_start i = t_start t /\ i_end i = t_end t) /\ (i_start j = t_start u /\ i_end j = t_end u) /\
    (i_name i = t_text t /\ i_name j = t_text u \/ i_name i = $"VFR" /\ i_name j = $"VFR").
Definition words (a b : pstr) : Prop := exists l m, Forall2 P l m /\ a = join_sp (map t_text l) /\ b = join_sp (map t_text m).
Record I (i j : item) : Prop := mkI {
  I_base : i_base j = i_base i; I_sub : i_sub j = i_sub i; I_rules : i_rules j = i_rules i; I_stay : i_stay j = i_stay i;
  I_speed : i_speed j = i_speed i; I_level : i_level j = i_level i; I_target : i_target j = i_target i; I_si : i_target_si j = i_target_si i;
  I_loc : i_located j = i_located i; I_name : i_located i = true -> i_name j = i_name i; I_origin : origin i j; I_words : words (i_text i) (i_text j) }.
Record S (s z : notes) : Prop := mkS {
  S_before : Forall2 I (n_before s) (n_before z); S_last : I (n_last s) (n_last z);
  S_reports : Forall2 (fun q p => P (fst q) (fst p) /\ snd q = snd p) (n_reports s) (n_reports z) }.

Lemma words_nil : words [] [].
Proof. exists [], []. repeat split; constructor. Qed.
Lemma join_snoc l x : l <> [] -> join_sp (l ++ [x]) = join_sp l ++ 32%N :: x.
Proof.
  induction l as [|a [|b l] IH]; intro H; [congruence|reflexivity|]. cbn [app join_sp] in *. rewrite IH by discriminate. now rewrite <- app_assoc.
Qed.
Lemma join_nil l : join_sp l = [] -> Forall (fun x => x <> []) l -> l = [].
Proof. destruct l as [|a [|b l]]; intros H F; [reflexivity| |]; inversion F; cbn [join_sp] in H; [congruence|]. destruct a; discriminate. Qed.
Definition app_word (y x : pstr) : pstr := match y with [] => x | n :: l => (n :: l) ++ 32%N :: x end.
Lemma app_word_join l x : Forall (fun y => y <> []) l -> app_word (join_sp l) x = join_sp (l ++ [x]).
Proof.
  intro F. destruct l as [|a l]; [reflexivity|]. rewrite join_snoc by discriminate. unfold app_word.
  destruct (join_sp (a :: l)) eqn:E; [|reflexivity]. apply join_nil in E; [discriminate|exact F].
Qed.
Lemma words_app a b t u : words a b -> P t u -> words (app_word a (t_text t)) (app_word b (t_text u)).
Proof.
  intros (l & m & F & -> & ->) H. exists (l ++ [t]), (m ++ [u]). split; [apply Forall2_app; [exact F|constructor; [exact H|constructor]]|].
  rewrite !map_app. cbn [map]. split; symmetry; rewrite app_word_join; try reflexivity; apply Forall_map; clear - F P_text; induction F as [|x y l m H _ IH]; constructor; auto; now apply (P_text x y H).
Qed.

Lemma with_S f g s z : S s z -> I (f (n_last s)) (g (n_last z)) -> S (with_last f s) (with_last g z).
Proof. intros [A B C] H. constructor; assumption. Qed.
Lemma rules_S r s z : S s z -> S (rules r s) (rules r z).
Proof. intro H. apply with_S; [exact H|]. destruct (S_last _ _ H). now constructor. Qed.
Lemma types_S b sb s z : S s z -> S (types b sb s) (types b sb z).
Proof. intro H. apply with_S; [exact H|]. destruct (S_last _ _ H). now constructor. Qed.
Lemma stays_S m s z : S s z -> S (stays m s) (stays m z).
Proof. intro H. apply with_S; [exact H|]. destruct (S_last _ _ H). now constructor. Qed.
Lemma flies_I sp lv i j : I i j -> I (flies sp lv i) (flies sp lv j).
Proof. intro H. destruct H. now constructor. Qed.
Lemma climbs_I a b i j : I i j -> I (climbs a b i) (climbs a b j).
Proof. intro H. destruct H. now constructor. Qed.
Lemma texts_S t u s z : P t u -> S s z -> S (SpecReader.texts (t_text t) s) (SpecReader.texts (t_text u) z).
Proof.
  intros Q H. apply with_S; [exact H|]. destruct (S_last _ _ H). constructor; try assumption. cbn [i_text]. exact (words_app _ _ t u I_words0 Q).
Qed.
Lemma add_S t u s z : P t u -> S s z -> S (add t s) (add u z).
Proof.
  intros Q [A B C]. constructor; cbn [n_before n_last n_reports add add_as].
  - apply Forall2_app; [exact A|constructor; [exact B|constructor]].
  - destruct B. constructor; cbn; try (apply p_base || apply p_sub); auto; try discriminate; [|apply words_nil]. right. exists t, u. auto 6.
  - exact C.
Qed.
Lemma add_vfr_S t u s z : P t u -> S s z -> S (add_as ($"VFR") t s) (add_as ($"VFR") u z).
Proof.
  intros Q [A B C]. constructor; cbn [n_before n_last n_reports add_as].
  - apply Forall2_app; [exact A|constructor; [exact B|constructor]].
  - destruct B. constructor; cbn; try (apply p_base || apply p_sub); auto; try discriminate; [|apply words_nil]. right. exists t, u. auto 6.
  - exact C.
Qed.
Lemma report_S t u ms s z : P t u -> S s z -> S (report t ms s) (report u ms z).
Proof.
  intros Q [A B C]. constructor; cbn [n_before n_last n_reports report]; try assumption. apply Forall2_app; [exact C|].
  clear C. induction ms as [|m ms IH]; constructor; [split; [exact Q|reflexivity]|exact IH].
Qed.
Lemma located_S t u s z : P t u -> S s z -> i_name (n_last s) = t_text t -> i_name (n_last z) = t_text u -> S (locates t s) (locates u z).
Proof.
  intros Q H N1 N2. apply with_S; [exact H|]. destruct (S_last _ _ H). constructor; cbn; auto.
  - rewrite (p_sub t u Q). now rewrite I_loc0.
  - intro L. apply orb_true_iff in L as [L|L]; [|auto]. rewrite N1, N2. apply (p_same t u Q).
    unfold freely_named. destruct (t_sub t); try discriminate L; reflexivity.
Qed.
Lemma angle_same t u : P t u -> angle_faults u = angle_faults t.
Proof.
  intro Q. pose proof (p_same t u Q) as T. unfold angle_faults. cbv zeta. rewrite (p_sub t u Q). unfold freely_named in T. destruct (t_sub t); try reflexivity; now rewrite T.
Qed.
Lemma point_S t u s z : P t u -> S s z -> S (point t s) (point u z).
Proof.
  intros Q H. unfold point. rewrite (angle_same t u Q). apply report_S; [exact Q|]. apply located_S; [exact Q|now apply rules_S, add_S|reflexivity|reflexivity].
Qed.
(** Speeds are read. *)
Definition reads_speed (b : base_type) : bool :=
  match b with F15_SPEED_VFR | F15_SPEED_ALTITUDE | F15_SPEED_ALTITUDE_ALTITUDE | F15_SPEED_ALTITUDE_PLUS | F15_STAY_TIME => true | _ => false end.
Lemma speed_text t u : P t u -> reads_speed (t_base t) = true -> t_text u = t_text t.
Proof. intros Q H. apply (p_same t u Q). unfold freely_named. destruct (t_base t); try discriminate H; destruct (t_sub t); reflexivity. Qed.
Lemma vfr_S t u s z : P t u -> reads_speed (t_base t) = true -> S s z -> S (vfr t s) (vfr u z).
Proof.
  intros Q B H. unfold vfr. cbv zeta. rewrite (speed_text t u Q B). apply rules_S. apply with_S.
  - apply add_vfr_S; [exact Q|]. apply with_S; [exact H|]. apply flies_I. apply H.
  - apply flies_I. apply S_last. apply add_vfr_S; [exact Q|]. apply with_S; [exact H|]. apply flies_I. apply H.
Qed.
Lemma speeds_S t u s z : P t u -> reads_speed (t_base t) = true -> S s z -> S (speeds t s) (speeds u z).
Proof.
  intros Q B H. unfold speeds, level_faults. cbv zeta. rewrite (speed_text t u Q B), (p_base t u Q). apply report_S; [exact Q|]. apply rules_S. apply with_S; [exact H|].
  pose proof (flies_I (speed_part (t_text t)) (first_level (t_text t)) _ _ (S_last _ _ H)) as K.
  destruct (t_base t); try exact K; [apply climbs_I; exact K|].
  change (i_target_si (flies (speed_part (t_text t)) (first_level (t_text t)) (n_last z))) with (i_target_si (n_last z)). rewrite (I_si _ _ (S_last _ _ H)). apply climbs_I. exact K.
Qed.

(** ** Jobs *)
Inductive J : job -> job -> Prop :=
| J_adep : J JAdep JAdep | J_dct : J JDct JDct | J_route : J JRoute JRoute | J_sid : J JSid JSid | J_stay : J JStay JStay | J_point : J JPoint JPoint
| J_c t u : P t u -> J (JC t) (JC u)
| J_slash t u : P t u -> J (JSlash t) (JSlash u)
| J_climb t u a b : P t u -> P a b -> J (JClimb t a) (JClimb u b)
| J_climbpt t u : P t u -> J (JClimbPt t) (JClimbPt u)
| J_climbsl t u : P t u -> J (JClimbSl t) (JClimbSl u)
| J_staytok t u : P t u -> J (JStayTok t) (JStayTok u)
| J_staysl t u : P t u -> J (JStaySl t) (JStaySl u)
| J_text : J JText JText | J_begin : J JBegin JBegin
| J_word t u : P t u -> J (JWord t) (JWord u)
| J_join : J JJoin JJoin | J_trunc : J JTruncate JTruncate | J_sync : J JSync JSync
| J_syncsl t u : P t u -> J (JSyncSl t) (JSyncSl u)
| J_aspoint : J JAsPoint JAsPoint
| J_take t u : P t u -> J (JTake t) (JTake u).
Definition nojoin (j : job) : bool := match j with JJoin => false | _ => true end.
Definition deep (k : list job) (ts : list token) : Prop :=
  match k with
  | JJoin :: k' => resume KVfr ts = Resumes /\ forallb nojoin k' = true
  | _ => forallb nojoin k = true
  end.
Inductive R : result -> result -> Prop :=
| R_goes k q s z ts us : Forall2 J k q -> S s z -> Forall2 P ts us -> deep k ts -> R (Goes k s ts) (Goes q z us)
| R_breaks s z : S s z -> R (Breaks s) (Breaks z).

Ltac two := repeat first [assumption | constructor].
Lemma only_same s z : S s z -> only_adep z = only_adep s.
Proof. intros [A _ _]. unfold only_adep. destruct A; reflexivity. Qed.
Lemma section_same s z : S s z -> in_section z = in_section s.
Proof. intro H. unfold in_section. now rewrite (I_rules _ _ (S_last _ _ H)). Qed.
Lemma deep_no k ts : forallb nojoin k = true -> deep k ts.
Proof. destruct k as [|j k]; intro H; [exact H|]. destruct j; try exact H. discriminate H. Qed.
Lemma R_no k q s z ts us : Forall2 J k q -> S s z -> Forall2 P ts us -> forallb nojoin k = true -> R (Goes k s ts) (Goes q z us).
Proof. intros. constructor; try assumption. now apply deep_no. Qed.
Lemma resume_same b ts us : Forall2 P ts us -> resume b us = resume b ts.
Proof.
  intro F. unfold resume. destruct F as [|t u ts us Q F]; [reflexivity|]. rewrite (p_base _ _ Q). destruct (t_base t); try reflexivity. destruct b; try reflexivity.
  destruct F as [|t1 u1 ts us Q1 F]; [reflexivity|]. rewrite (p_base _ _ Q1). destruct (t_base t1); try reflexivity.
  destruct F as [|t2 u2 ts us Q2 F]; [reflexivity|]. now rewrite (p_base _ _ Q2).
Qed.
Lemma leave_R b k q s z ts us : Forall2 J k q -> S s z -> Forall2 P ts us -> forallb nojoin k = true -> R (leave b k s ts) (leave b q z us).
Proof.
  intros K H F N. unfold leave. rewrite (resume_same b _ _ F). destruct (resume b ts) eqn:E.
  - now apply R_no.
  - destruct b; [|apply R_no; try assumption; cbn [app]; two..]. constructor; try assumption; cbn [app]; [two|]. cbn [deep]. now split.
  - destruct F as [|t u ts us Q F]; [now apply R_no|]. apply R_no; [two|now apply report_S|two|exact N].
Qed.
Lemma sid_same t u : P t u -> t_base t = F15_SID \/ t_base t = F15_SID_STAR -> sid_sub u = sid_sub t.
Proof.
  intros Q [B|B]; unfold sid_sub.
  - rewrite (p_same t u Q); [reflexivity|]. unfold freely_named. rewrite B. destruct (t_sub t); reflexivity.
  - destruct (P_proc t u Q B) as [[A _] [C _]]. destruct (pstr_eqb (t_text t) _) eqn:E1; [apply pstr_eqb_eq in E1; contradiction|].
    destruct (pstr_eqb (t_text u) _) eqn:E2; [apply pstr_eqb_eq in E2; contradiction|reflexivity].
Qed.
Lemma star_same t u : P t u -> t_base t = F15_STAR \/ t_base t = F15_SID_STAR -> star_sub u = star_sub t.
Proof.
  intros Q [B|B]; unfold star_sub.
  - rewrite (p_same t u Q); [reflexivity|]. unfold freely_named. rewrite B. destruct (t_sub t); reflexivity.
  - destruct (P_proc t u Q B) as [[_ A] [_ C]]. destruct (pstr_eqb (t_text t) _) eqn:E1; [apply pstr_eqb_eq in E1; contradiction|].
    destruct (pstr_eqb (t_text u) _) eqn:E2; [apply pstr_eqb_eq in E2; contradiction|reflexivity].
Qed.
Lemma last_R t u k q s z ts us : P t u -> t_base t = F15_STAR \/ t_base t = F15_SID_STAR -> Forall2 J k q -> S s z -> Forall2 P ts us -> forallb nojoin k = true -> R (the_last t k s ts) (the_last u q z us).
Proof.
  intros Q B K H F N. unfold the_last. destruct F as [|x y ts us X F].
  - rewrite (star_same t u Q B). apply R_no; [exact K|now apply types_S|constructor|exact N].
  - apply R_no; [two|now apply report_S|two|exact N].
Qed.
Lemma start_R t u k q s z ts us : P t u -> Forall2 J k q -> S s z -> Forall2 P ts us -> forallb nojoin k = true -> R (start t k s ts) (start u q z us).
Proof.
  intros Q K H F N. unfold start, unconvertible. rewrite (p_base t u Q), (p_sub t u Q), (only_same s z H). pose proof (speed_text t u Q) as T.
  destruct (t_base t) eqn:B; cbn [reads_speed] in T;
    try (apply R_no; [two|first [now apply point_S|now apply vfr_S; rewrite ?B|now apply speeds_S; rewrite ?B|now apply rules_S, add_S|now apply add_S|assumption]|two|exact N]).
  - apply R_no; [two| |two|exact N]. destruct (begins (t_sub t)); [now apply rules_S, add_S|now apply add_S].
  - destruct (only_adep s); [|apply last_R; auto; now apply add_S]. rewrite (sid_same t u Q) by auto. apply R_no; [two|now apply types_S, add_S|two|exact N].
  - apply R_no; [destruct (only_adep s); two|apply speeds_S; [exact Q|now rewrite B|exact H]|two|destruct (only_adep s); exact N].
  - destruct (match t_sub t with F15_SB_SPEED_ALTITUDE_NAS | F15_SB_SPEED_ALTITUDE_NAM => true | _ => false end); [now constructor|].
    apply R_no; [two|apply speeds_S; [exact Q|now rewrite B|exact H]|two|exact N].
  - destruct (only_adep s); [rewrite (sid_same t u Q) by auto; apply R_no; [two|now apply types_S, add_S|two|exact N]|].
    apply R_no; [two|apply report_S; [exact Q|now apply add_S]|two|exact N].
  - apply last_R; auto. now apply add_S.
Qed.
Lemma spot_sub s z : S s z -> i_sub (n_last z) = i_sub (n_last s).
Proof. intro H. apply (S_last _ _ H). Qed.
Lemma suits_same i j t u s z : J i j -> P t u -> S s z -> suits j u z = suits i t s.
Proof.
  intros K Q H. unfold suits, spot. cbv zeta. rewrite (spot_sub s z H). destruct K; unfold fits, base_eqb; rewrite ?(p_base t u Q), ?(p_sub t u Q); reflexivity.
Qed.
Lemma misplaced_same i j t u s z : J i j -> P t u -> S s z -> misplaced (spot j z) u = misplaced (spot i s) t.
Proof.
  intros K Q H. unfold spot. cbv zeta. rewrite (spot_sub s z H). destruct K; unfold misplaced, stray_end; rewrite ?(p_base t u Q), ?(p_sub t u Q); reflexivity.
Qed.
Lemma wrong_R i j t u k q s z ts us : J i j -> P t u -> Forall2 J k q -> S s z -> Forall2 P ts us -> forallb nojoin k = true -> R (wrong i t k s ts) (wrong j u q z us).
Proof. intros A Q K H F N. unfold wrong. rewrite (misplaced_same i j t u s z A Q H). apply R_no; [two|now apply report_S|exact F|exact N]. Qed.
Lemma ends_same t u s z : P t u -> S s z -> ends_here z u = ends_here s t.
Proof. intros Q H. unfold ends_here. now rewrite (section_same s z H), (p_sub t u Q). Qed.
Lemma text_R i j t u k q s z ts us : i = JText \/ i = JBegin -> J i j -> P t u -> Forall2 J k q -> S s z -> Forall2 P ts us -> forallb nojoin k = true -> R (read i t k s ts) (read j u q z us).
Proof.
  intros I0 A Q K H F N. pose proof (texts_S t u s z Q H) as X. pose proof (ends_same t u _ _ Q X) as Y.
  destruct I0 as [ -> | -> ]; inversion A; subst; unfold read; rewrite (p_base t u Q); cbv zeta; rewrite Y;
    (destruct (base_eqb (t_base t) F15_TOO_LONG); [apply R_no; [cbn [app]; two|now apply report_S|exact F|exact N]|]);
    (destruct (ends_here _ t); [apply leave_R; try assumption; two|apply R_no; two]).
Qed.
Lemma read_R i j t u k q s z ts us : J i j -> P t u -> Forall2 J k q -> S s z -> Forall2 P ts us -> deep (i :: k) (t :: ts) -> R (read i t k s ts) (read j u q z us).
Proof.
  intros A Q K H F N. pose proof (suits_same i j t u s z A Q H) as Su.
  assert (W : nojoin i = true -> forall k1 q1, Forall2 J k1 q1 -> forallb nojoin k1 = true -> R (wrong i t k1 s ts) (wrong j u q1 z us)) by (intros; now apply wrong_R).
  pose proof (speed_text t u Q) as T.
  destruct A; cbn [deep forallb nojoin andb] in N; try (now apply text_R; two; auto);
    try (unfold read; rewrite Su; destruct (suits _ t s) eqn:E; rewrite ?(p_base t u Q);
         [ first [ now apply start_R
                 | destruct (base_eqb (t_base t) F15_SLASH); [apply R_no; two|first [now apply start_R|apply start_R; try assumption; now apply add_S]]
                 | apply R_no; two; fail
                 | idtac ]
         | destruct (t_base t); first [apply W; two; fail | idtac] ]; fail).
  - unfold read. rewrite Su. destruct (suits _ t s) eqn:E.
    + rewrite (angle_same t u Q). apply R_no; [two|apply report_S; [exact Q|]; apply located_S; [exact Q|now apply add_S|reflexivity|reflexivity]|exact F|exact N].
    + apply W; two.
  - unfold read. rewrite Su. destruct (suits _ t s) eqn:E; [apply start_R; two|]. apply W; two.
  - unfold read. rewrite Su. destruct (suits _ t s) eqn:E.
    + rewrite T; [apply R_no; [two|now apply stays_S|exact F|exact N]|]. unfold suits, fits, spot in E. cbn in E. destruct (t_base t); try discriminate E. reflexivity.
    + apply W; two.
  - destruct N as [N1 N2]. unfold read. unfold resume in N1. destruct (t_base t) eqn:B; try discriminate N1. 
    destruct F as [|sl sl' ts us Q1 F]; [discriminate|]. destruct (t_base sl); try discriminate. destruct F as [|sp sp' ts us Q2 F]; [discriminate|].
    rewrite (p_base _ _ Q2). assert (X : reads_speed (t_base sp) = true) by (destruct (t_base sp); try discriminate N1; reflexivity).
    destruct (base_eqb (t_base sp) F15_SPEED_VFR).
    + apply R_no; [two|apply vfr_S; [exact Q2|exact X|now apply rules_S, add_S]|exact F|exact N2].
    + apply R_no; [two|apply speeds_S; [exact Q2|exact X|now apply point_S]|exact F|exact N2].
  - apply W; two.
  - unfold read. unfold end_kind. rewrite (p_base t u Q), (p_sub t u Q).
    destruct (t_base t); first [now apply start_R|apply R_no; [two|now apply report_S|exact F|exact N]|now apply leave_R|apply R_no; two].
  - unfold read. rewrite (p_base t u Q). destruct (t_base t); first [now apply start_R|apply R_no; [two|now apply report_S|exact F|exact N]].
  - unfold read. apply R_no; [two|now apply point_S|exact F|exact N].
Qed.
Lemma at_end_S i j s z : J i j -> S s z -> S (at_end i s) (at_end j z).
Proof. intros A H. destruct A; cbn [at_end]; try exact H; try (now apply report_S); [now apply add_S|apply report_S; [assumption|now apply add_S]]. Qed.
Lemma deep_tail j k ts : deep (j :: k) ts -> forallb nojoin k = true.
Proof. destruct j; cbn [deep forallb nojoin andb]; try (intro H; exact H). now intros [_ H]. Qed.
Lemma step_R k q s z ts us : R (Goes k s ts) (Goes q z us) -> R (step1 k s ts) (step1 q z us).
Proof.
  intro H. inversion H as [? ? ? ? ? ? K Sz F D|]; subst. destruct K as [|i j k q A K]; [exact H|].
  pose proof (deep_tail _ _ _ D) as N.
  destruct A; unfold step1; fold step1; try (destruct F as [|t' u' ts us Q F]; [apply R_no; [exact K|apply at_end_S; two|constructor|exact N]|apply read_R; two]).
  - apply R_no; [exact K|now apply texts_S|exact F|exact N].
  - apply R_no; [two|now apply point_S|exact F|exact N].
Qed.
Inductive E : ending -> ending -> Prop :=
| E_done s z : S s z -> E (Done s) (Done z) | E_broken s z : S s z -> E (Broken s) (Broken z) | E_un : E Unfinished Unfinished.
Lemma play_E n : forall k q s z ts us, R (Goes k s ts) (Goes q z us) -> E (play n k s ts) (play n q z us).
Proof.
  induction n as [|n IH]; intros k q s z ts us H; pose proof (step_R _ _ _ _ _ _ H) as X; inversion H as [? ? ? ? ? ? K Sz F D|]; subst;
    destruct K as [|i j k q A K]; cbn [play]; try (now constructor).
  remember (step1 (i :: k) s ts) as r1. remember (step1 (j :: q) z us) as r2. destruct X; [|now constructor]. apply IH. now constructor.
Qed.
Lemma aero_I name : I (aero name) (aero name).
Proof. constructor; try reflexivity; [left; repeat split|apply words_nil]. Qed.
Lemma blank_S : S blank_notes blank_notes.
Proof. constructor; cbn; [constructor|apply aero_I|constructor]. Qed.
Lemma patience_same ts us : Forall2 P ts us -> patience us = patience ts.
Proof. intro F. unfold patience. now rewrite (F2_length _ _ _ F). Qed.
Lemma begin_E ts us : Forall2 P ts us -> E (begin ts) (begin us).
Proof.
  intro F. pose proof (patience_same _ _ F) as Pt. destruct F as [|t u ts us Q F]; [cbn; constructor; apply blank_S|].
  unfold begin. rewrite (p_base t u Q), Pt.
  assert (A : E (match start t [] blank_notes ts with Goes k s ts' => play (patience (t :: ts)) k s ts' | Breaks s => Broken s end)
                (match start u [] blank_notes us with Goes k s ts' => play (patience (t :: ts)) k s ts' | Breaks s => Broken s end)).
  { pose proof (start_R t u [] [] blank_notes blank_notes ts us Q ltac:(constructor) blank_S F eq_refl) as X.
    remember (start t [] blank_notes ts) as r1. remember (start u [] blank_notes us) as r2. destruct X; [apply play_E; now constructor|now constructor]. }
  assert (B : E (play (patience (t :: ts)) [JSync] (report t [1] blank_notes) ts) (play (patience (t :: ts)) [JSync] (report u [1] blank_notes) us)).
  { apply play_E, R_no; [two|apply report_S; [exact Q|apply blank_S]|exact F|reflexivity]. }
  destruct (t_base t); first [exact A|exact B].
Qed.
Lemma conclude_S ts us s z : Forall2 P ts us -> S s z ->
  Forall2 I (fst (conclude ts s)) (fst (conclude us z)) /\ Forall2 (fun q p => P (fst q) (fst p) /\ snd q = snd p) (snd (conclude ts s)) (snd (conclude us z)).
Proof.
  intros F H. unfold conclude. cbv zeta. cbn [fst snd].
  assert (A : Forall2 I (n_before s ++ [n_last s]) (n_before z ++ [n_last z])) by (apply Forall2_app; [apply H|constructor; [apply H|constructor]]).
  set (l := n_before s ++ [n_last s]) in *. set (m := n_before z ++ [n_last z]) in *.
  set (l' := match ts with [] => l | t :: _ => _ end). set (m' := match us with [] => m | t :: _ => _ end).
  assert (B : Forall2 I l' m').
  { unfold l', m'. destruct F as [|t u ts us Q F]; [exact A|]. clearbody l m. destruct A as [|i j l0 m0 A0 A]; [constructor|]. rewrite (p_base t u Q).
    destruct (base_eqb (t_base t) F15_SPEED_VFR); [|now constructor]. constructor; [|exact A]. destruct A0. now constructor. }
  assert (La : i_rules (last m' (aero [])) = i_rules (last l' (aero []))).
  { assert (X : I (last l' (aero [])) (last m' (aero []))); [|apply X]. clearbody l' m'. clear - B. induction B as [|i j l0 m0 A B IH]; [apply aero_I|].
    destruct B; [exact A|exact IH]. }
  split.
  - apply Forall2_app; [exact B|]. constructor; [|constructor]. rewrite La. pose proof (aero_I ($"ADES")) as [ ]. now constructor.
  - pose proof (S_reports _ _ H) as C. destruct F as [|t u ts us Q F]; [exact C|]. destruct F; [|exact C]. rewrite (p_base t u Q).
    destruct (base_eqb (t_base t) F15_SPEED_ALTITUDE); [|exact C]. apply (S_reports _ _ (report_S t u [49] s z Q H)).
Qed.
Lemma reading_same ts us : Forall2 P ts us ->
  match reading ts, reading us with
  | Some (Gives l e), Some (Gives m f) => Forall2 I l m /\ Forall2 (fun q p => P (fst q) (fst p) /\ snd q = snd p) e f
  | Some Raises, Some Raises => True
  | None, None => True
  | _, _ => False
  end.
Proof.
  intro F. unfold reading. destruct (begin_E ts us F) as [s z H|s z H|]; auto. pose proof (conclude_S ts us s z F H) as [A B].
  destruct (conclude ts s), (conclude us z). now split.
Qed.

(** ** Records *)
Section G.
Variable G : geodesic.
Lemma record_same i j : I i j -> renamed P (record_of G i) (record_of G j).
Proof.
  intros []. unfold record_of. cbv zeta. rewrite I_level0, I_speed0, I_base0, I_sub0, I_rules0, I_stay0, I_target0, I_si0, I_loc0.
  split; [|split].
  - unfold same_values. cbn [r_base r_sub r_alt r_alt_si r_speed r_speed_si r_rules r_err r_stay r_cto r_cto_si r_lat r_lon r_brg r_dist r_llv].
    destruct (i_located i); [rewrite I_name0 by reflexivity|]; repeat split.
  - exact I_origin0.
  - exact I_words0.
Qed.
Lemma next_same rest rest' : Forall2 (renamed P) rest rest' ->
  match next_located rest, next_located rest' with Some p, Some q => r_lat p = r_lat q /\ r_lon p = r_lon q | None, None => True | _, _ => False end.
Proof.
  intro F. unfold next_located. destruct F as [|p q l m [A _] F]; [exact Logic.I|]. destruct A as (A1 & A2 & A3 & A4 & A5 & A6 & A7 & A8 & A9 & A10 & A11 & A12 & A13 & A14 & A15 & A16).
  rewrite A16. destruct (r_llv q); [now split|]. destruct F as [|p' q' l m [B _] F]; [exact Logic.I|].
  destruct B as (B1 & B2 & B3 & B4 & B5 & B6 & B7 & B8 & B9 & B10 & B11 & B12 & B13 & B14 & B15 & B16). rewrite B16. destruct (r_llv q'); [now split|exact Logic.I].
Qed.
Lemma leg_same r q rest rest' : renamed P r q -> Forall2 (renamed P) rest rest' -> renamed P (with_leg G r rest) (with_leg G q rest').
Proof.
  intros A F. pose proof (next_same rest rest' F) as N. unfold with_leg. destruct A as (V & O & W). pose proof V as (A1 & A2 & A3 & A4 & A5 & A6 & A7 & A8 & A9 & A10 & A11 & A12 & A13 & A14 & A15 & A16).
  rewrite A16. destruct (r_llv q) eqn:Eq; [|now split]. destruct (next_located rest) as [p|], (next_located rest') as [p'|]; try contradiction; [|now split].
  destruct N as [N1 N2]. cbv zeta. rewrite A12, A13, N1, N2. split; [|now split]. unfold same_values, set_r_dist, set_r_brg. cbn. repeat split; try assumption. now rewrite A16.
Qed.
Lemma legs_same l m : Forall2 (renamed P) l m -> Forall2 (renamed P) (with_legs G l) (with_legs G m).
Proof. induction 1 as [|r q l m A F IH]; cbn [with_legs]; constructor; [now apply leg_same|exact IH]. Qed.
Lemma route_same l m : Forall2 I l m -> Forall2 (renamed P) (route_of G l) (route_of G m).
Proof. intro F. apply legs_same. induction F; cbn [map]; constructor; [now apply record_same|assumption]. Qed.
End G.
Lemma letter_same l m : Forall2 I l m -> letter m = letter l.
Proof.
  intro F. assert (X : forall r, existsb (fun i => pstr_eqb (i_rules i) r) m = existsb (fun i => pstr_eqb (i_rules i) r) l).
  { intro r. induction F as [|i j l m A F IH]; [reflexivity|]. cbn [existsb]. now rewrite IH, (I_rules _ _ A). }
  unfold letter. cbv zeta. rewrite !X. destruct F as [|i j l m A F]; [reflexivity|]. now rewrite (I_rules _ _ A).
Qed.
End P.

(** ** Fields *)
Lemma opposite_all f g : same_form f g -> Forall2 (opposite f g) (field_tokens f) (field_tokens g).
Proof.
  unfold same_form, opposite. intro F.
  assert (K : forall a b pa pb, Forall2 alike a b -> Datatypes.length pa = Datatypes.length pb -> Forall2 (fun t u => exists n, nth_error (pa ++ a) n = Some t /\ nth_error (pb ++ b) n = Some u) a b).
  { clear. intros a b pa pb F. revert pa pb. induction F as [|t u a b A F IH]; intros pa pb L; [constructor|]. constructor.
    - exists (Datatypes.length pa). split; [|rewrite L]; rewrite nth_error_app2, Nat.sub_diag by lia; reflexivity.
    - specialize (IH (pa ++ [t]) (pb ++ [u])). rewrite !app_length, <- !app_assoc in IH. apply IH. now rewrite L. }
  exact (K _ _ [] [] F eq_refl).
Qed.
Lemma opposite_alike f g t u : same_form f g -> opposite f g t u -> alike t u.
Proof.
  unfold same_form, opposite. intros F (n & A & B). revert n A B. induction F as [|x y a b H F IH]; intros [|n] A B; try discriminate; cbn in A, B; [congruence|eauto].
Qed.
Lemma field_proc f t : In t (field_tokens f) -> t_text t <> [] /\ (t_base t = F15_SID_STAR -> t_text t <> $"SID" /\ t_text t <> $"STAR").
Proof.
  intro H. pose proof (field_wt f) as W. rewrite Forall_forall in W. destruct (W t H) as [W1 W2]. split; [exact W2|]. intro B. unfold wt in W1. rewrite B in W1.
  split; intro X; rewrite X in W1; vm_compute in W1; discriminate W1.
Qed.
Section Field.
Variable G : geodesic.
Local Open Scope nat_scope.
Lemma same_form_n f g : same_form f g -> n_tokens g = n_tokens f.
Proof. intro F. pose proof (F2_length _ _ _ F) as L. unfold field_tokens in L. rewrite !map_length in L. exact L. Qed.
Lemma reports_same Q e h xs ys : Forall2 (fun q p => Q (fst q) (fst p) /\ snd q = snd p) e h ->
  Forall2 (fun q x => reports (fst q) (snd q) x) e xs -> Forall2 (fun q x => reports (fst q) (snd q) x) h ys -> Forall2 (same_report Q) xs ys.
Proof.
  intro F. revert xs ys. induction F as [|[t m] [u n] e h [A B] F IH]; intros xs ys X Y; inversion X; inversion Y; subst; constructor; [|auto].
  cbn [fst snd] in *. subst n. now exists m, t, u.
Qed.
Lemma names_only depth f g : same_form f g -> field_tokens f <> [] -> 3 * n_tokens f <= depth + 1 ->
  match parse_field15 G depth f, parse_field15 G depth g with
  | Ok a s, Ok b z =>
      a = b /\ Forall2 (renamed (opposite f g)) (e_recs (s_ers s)) (e_recs (s_ers z)) /\
      Forall2 (same_report (opposite f g)) (e_errs (s_ers s)) (e_errs (s_ers z)) /\ e_rules (s_ers s) = e_rules (s_ers z)
  | Exn x _, Exn y _ => x = y
  | _, _ => False
  end.
Proof.
  intros F N D. pose proof (opposite_all f g F) as O.
  assert (N' : field_tokens g <> []) by (intro X; rewrite X in O; inversion O as [X1|]; congruence).
  assert (In1 : forall t u, opposite f g t u -> In t (field_tokens f) /\ In u (field_tokens g)).
  { intros t u (n & A & B). split; eapply nth_error_In; eassumption. }
  pose proof (reading_same (opposite f g) (fun t u => opposite_alike f g t u F)
    (fun t u H => conj (proj1 (field_proc f t (proj1 (In1 t u H)))) (proj1 (field_proc g u (proj2 (In1 t u H)))))) as K.
  assert (Pr : forall t u, opposite f g t u -> t_base t = F15_SID_STAR -> (t_text t <> $"SID" /\ t_text t <> $"STAR") /\ t_text u <> $"SID" /\ t_text u <> $"STAR").
  { intros t u H B. destruct (In1 t u H) as [I1 I2]. split; [now apply (field_proc f t I1)|]. apply (field_proc g u I2). destruct (opposite_alike f g t u F H) as [X _]. congruence. }
  specialize (K Pr _ _ O). pose proof (complete_total G depth f N D) as A. pose proof (complete_total G depth g N' ltac:(rewrite (same_form_n f g F); exact D)) as B.
  destruct (reading (field_tokens f)) as [[l e|]|] eqn:Ef, (reading (field_tokens g)) as [[m h|]|] eqn:Eg; try contradiction.
  - destruct A as (s & A1 & A2), B as (z & B1 & B2). destruct (whole_result G depth f _ s N A1) as (l1 & e1 & R1 & _ & R2 & _).
    destruct (whole_result G depth g _ z N' B1) as (m1 & h1 & T1 & _ & T2 & _). rewrite Ef in R1. rewrite Eg in T1. injection R1 as <- <-. injection T1 as <- <-.
    rewrite A1, B1. destruct K as [K1 K2]. split; [|split; [|split]].
    + destruct K2; reflexivity.
    + rewrite A2, B2. now apply route_same.
    + exact (reports_same _ _ _ _ _ K2 R2 T2).
    + rewrite A2, B2. symmetry. eapply letter_same; eassumption.
  - destruct A as (s & A), B as (z & B). now rewrite A, B.
Qed.
End Field.

(** A test of the form. *)
Definition alikeb (t u : token) : bool :=
  base_eqb (t_base t) (t_base u) && sub_eqb (t_sub t) (t_sub u) && (freely_named (t_base t) (t_sub t) || pstr_eqb (t_text t) (t_text u)).
Fixpoint all_alike (l m : list token) : bool :=
  match l, m with [], [] => true | t :: l', u :: m' => alikeb t u && all_alike l' m' | _, _ => false end.
Lemma same_form_test f g : all_alike (field_tokens f) (field_tokens g) = true -> same_form f g.
Proof.
  unfold same_form. generalize (field_tokens f) (field_tokens g). induction l as [|t l IH]; intros [|u m] H; try discriminate; [constructor|].
  cbn [all_alike] in H. apply andb_true_iff in H as [H1 H2]. constructor; [|now apply IH]. unfold alikeb in H1. apply andb_true_iff in H1 as [H1 H3].
  apply andb_true_iff in H1 as [H0 H1]. apply base_eqb_eq in H0. apply sub_eqb_eq in H1. split; [exact H0|split; [exact H1|]]. apply orb_true_iff in H3 as [H3|H3]; [now left|right; now apply pstr_eqb_eq].
Qed.
