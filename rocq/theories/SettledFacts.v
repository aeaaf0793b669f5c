(** * SettledFacts: what has been read is settled, whatever follows. *)
From Coq Require Import ZArith NArith List Bool String Lia ZifyBool.
From Verif Require Import PyBase PyFloat Enums Tokenizer Ers Utils Parser TokenizerProofs SpecNum SpecParser SpecGrammar SpecAccept SpecDiagnosis SpecReader SpecRecovery SpecSettled ReaderFacts AcceptFacts ReaderOrder RecoveryFacts.
Import List ListNotations.
Local Open Scope list_scope.
Local Open Scope nat_scope.

(** ** Records and reports are only added *)
Definition sim (i j : item) : Prop := i_name j = i_name i /\ i_start j = i_start i /\ i_end j = i_end i /\ exists v, i_text j = i_text i ++ v.
Lemma sim_refl i : sim i i.
Proof. repeat split. exists []. now rewrite app_nil_r. Qed.
Lemma sim_trans a b c : sim a b -> sim b c -> sim a c.
Proof. intros (A1 & A2 & A3 & v & A4) (B1 & B2 & B3 & w & B4). repeat split; try congruence. exists (v ++ w). now rewrite B4, A4, app_assoc. Qed.
Definition grow (s s' : notes) : Prop :=
  (exists e, n_reports s' = n_reports s ++ e) /\
  (n_before s' = n_before s /\ sim (n_last s) (n_last s') \/ exists i l, n_before s' = n_before s ++ i :: l /\ sim (n_last s) i).
Lemma grow_refl s : grow s s.
Proof. split; [exists []; now rewrite app_nil_r|]. left. split; [reflexivity|apply sim_refl]. Qed.
Lemma grow_trans a b c : grow a b -> grow b c -> grow a c.
Proof.
  intros [[e1 A1] A2] [[e2 B1] B2]. split; [exists (e1 ++ e2); now rewrite B1, A1, app_assoc|].
  destruct A2 as [[A2 A3]|(i & l & A2 & A3)], B2 as [[B2 B3]|(i' & l' & B2 & B3)].
  - left. split; [congruence|eapply sim_trans; eauto].
  - right. exists i', l'. split; [now rewrite B2, A2|eapply sim_trans; eauto].
  - right. exists i, l. split; [congruence|exact A3].
  - right. exists i, (l ++ i' :: l'). split; [now rewrite B2, A2, <- app_assoc|exact A3].
Qed.
Lemma grow_add nm t s : grow s (add_as nm t s).
Proof. split; [exists []; now rewrite app_nil_r|]. right. exists (n_last s), []. split; [reflexivity|apply sim_refl]. Qed.
Lemma grow_report t ms s : grow s (report t ms s).
Proof. split; [eexists; reflexivity|]. left. split; [reflexivity|apply sim_refl]. Qed.
Lemma grow_with f s : (forall i, sim i (f i)) -> grow s (with_last f s).
Proof. intro M. split; [exists []; now rewrite app_nil_r|]. left. split; [reflexivity|apply M]. Qed.
Lemma sim_nil (i j : item) : i_name j = i_name i -> i_start j = i_start i -> i_end j = i_end i -> i_text j = i_text i -> sim i j.
Proof. intros A B C D. repeat split; auto. exists []. now rewrite app_nil_r. Qed.
Lemma grow_rules r s : grow s (rules r s). Proof. apply grow_with. intro i. now apply sim_nil. Qed.
Lemma grow_types a b s : grow s (types a b s). Proof. apply grow_with. intro i. now apply sim_nil. Qed.
Lemma grow_stays m s : grow s (stays m s). Proof. apply grow_with. intro i. now apply sim_nil. Qed.
Lemma grow_locates t s : grow s (locates t s). Proof. apply grow_with. intro i. now apply sim_nil. Qed.
Lemma grow_flies a b s : grow s (with_last (flies a b) s). Proof. apply grow_with. intro i. now apply sim_nil. Qed.
Lemma grow_texts x s : grow s (texts x s).
Proof. apply grow_with. intro i. repeat split. cbn. destruct (i_text i); [exists x|eexists]; reflexivity. Qed.
Lemma grow_point t s : grow s (point t s).
Proof. unfold point. eapply grow_trans; [|apply grow_report]. eapply grow_trans; [|apply grow_locates]. eapply grow_trans; [|apply grow_rules]. apply grow_add. Qed.
Lemma grow_vfr t s : grow s (vfr t s).
Proof. unfold vfr. eapply grow_trans; [|apply grow_rules]. eapply grow_trans; [|apply grow_flies]. eapply grow_trans; [|apply grow_add]. apply grow_flies. Qed.
Lemma grow_speeds t s : grow s (speeds t s).
Proof. unfold speeds. eapply grow_trans; [|apply grow_report]. eapply grow_trans; [|apply grow_rules]. apply grow_with. intro i. destruct (t_base t); now apply sim_nil. Qed.
Ltac grow :=
  unfold add;
  match goal with
  | |- grow ?s ?s => apply grow_refl
  | |- grow ?s (report ?t ?m ?x) => apply (grow_trans s x); [grow|apply grow_report]
  | |- grow ?s (rules ?t ?x) => apply (grow_trans s x); [grow|apply grow_rules]
  | |- grow ?s (types ?a ?b ?x) => apply (grow_trans s x); [grow|apply grow_types]
  | |- grow ?s (stays ?a ?x) => apply (grow_trans s x); [grow|apply grow_stays]
  | |- grow ?s (locates ?a ?x) => apply (grow_trans s x); [grow|apply grow_locates]
  | |- grow ?s (texts ?a ?x) => apply (grow_trans s x); [grow|apply grow_texts]
  | |- grow ?s (add_as ?a ?b ?x) => apply (grow_trans s x); [grow|apply grow_add]
  | |- grow ?s (point ?a ?x) => apply (grow_trans s x); [grow|apply grow_point]
  | |- grow ?s (vfr ?a ?x) => apply (grow_trans s x); [grow|apply grow_vfr]
  | |- grow ?s (speeds ?a ?x) => apply (grow_trans s x); [grow|apply grow_speeds]
  | |- _ => idtac
  end.
Definition growr (s : notes) (r : result) : Prop := match r with Goes _ s' _ | Breaks s' => grow s s' end.
Lemma growr_last t k s s0 ts : grow s0 s -> growr s0 (the_last t k s ts).
Proof. intro H. unfold the_last. destruct ts; cbn [growr]; grow; exact H. Qed.
Lemma growr_start t k s s0 ts : grow s0 s -> growr s0 (start t k s ts).
Proof.
  intro H. unfold start. destruct (t_base t); cbn [growr]; try (grow; exact H);
    repeat match goal with |- context [if ?b then _ else _] => destruct b end; cbn [growr]; try (grow; exact H);
    try (apply growr_last; grow; exact H).
  destruct (begins (t_sub t)); grow; exact H.
Qed.
Lemma growr_leave b k s s0 ts : grow s0 s -> growr s0 (leave b k s ts).
Proof. intro H. unfold leave. destruct (resume b ts); [|destruct b|destruct ts]; cbn [growr]; grow; exact H. Qed.
Lemma growr_wrong j t k s ts : growr s (wrong j t k s ts).
Proof. unfold wrong. cbn [growr]. grow. Qed.
Lemma growr_read j t k s ts : growr s (read j t k s ts).
Proof.
  assert (G1 : forall k s', grow s s' -> growr s (start t k s' ts)) by (intros; now apply growr_start).
  destruct j; cbn [read]; try exact (growr_wrong _ _ _ _ _);
    try (destruct (base_eqb (t_base t) F15_TOO_LONG); [cbn [growr]; grow|]; cbv zeta;
         destruct (ends_here (texts (t_text t) s) t); [apply growr_leave; grow|cbn [growr]; grow]);
    try (destruct (suits _ t s); [|first [exact (growr_wrong _ _ _ _ _) | destruct (t_base t); exact (growr_wrong _ _ _ _ _)]]);
    try (apply G1; apply grow_refl); try (cbn [growr]; grow);
    try (destruct (base_eqb (t_base t) F15_SLASH); [cbn [growr]; grow|apply G1; grow]);
    try (destruct (t_base t); try (apply G1; apply grow_refl); try (apply growr_leave; apply grow_refl); cbn [growr]; grow).
  all: destruct ts as [|sl [|sp r]]; [cbn [growr]; grow..|]; destruct (base_eqb (t_base sp) F15_SPEED_VFR); cbn [growr]; grow.
Qed.
Lemma grow_end j s : grow s (at_end j s).
Proof. destruct j; cbn [at_end]; grow. Qed.
Lemma growr_step k s ts : growr s (step1 k s ts).
Proof.
  destruct k as [|j k]; [apply grow_refl|]. destruct j; cbn [step1]; try (cbn [growr]; grow; fail);
    (destruct ts as [|t ts]; [cbn [growr]; apply grow_end|apply growr_read]).
Qed.
Lemma grow_play n : forall k s ts q, play n k s ts = Done q -> grow s q.
Proof.
  induction n as [|n IH]; intros k s ts q H; destruct k as [|j k]; cbn [play] in H; try (injection H as <-; apply grow_refl); [discriminate|].
  pose proof (growr_step (j :: k) s ts) as E. destruct (step1 (j :: k) s ts) as [k' s' ts'|s']; [|discriminate]. eapply grow_trans; [exact E|eauto].
Qed.

(** ** The machine looks three tokens ahead *)
Definition followed (x : list token) (r : result) : result := match r with Goes k s ts => Goes k s (ts ++ x) | Breaks s => Breaks s end.
Lemma ahead_last t k s ts x : ts <> [] -> the_last t k s (ts ++ x) = followed x (the_last t k s ts).
Proof. destruct ts; [congruence|reflexivity]. Qed.
Lemma ahead_start t k s ts x : ts <> [] -> start t k s (ts ++ x) = followed x (start t k s ts).
Proof.
  intro H. unfold start. rewrite !(ahead_last _ _ _ _ _ H).
  destruct (t_base t); try reflexivity; repeat match goal with |- context [if ?b then _ else _] => destruct b end; reflexivity.
Qed.
Lemma ahead_resume b ts x : 3 <= List.length ts -> resume b (ts ++ x) = resume b ts.
Proof. destruct ts as [|p [|q [|r ts]]]; cbn [List.length]; try lia. intros _. reflexivity. Qed.
Lemma ahead_leave b k s ts x : 3 <= List.length ts -> leave b k s (ts ++ x) = followed x (leave b k s ts).
Proof.
  intro H. unfold leave. rewrite ahead_resume by exact H. destruct ts as [|p ts]; [cbn in H; lia|]. destruct (resume b (p :: ts)); [reflexivity|destruct b; reflexivity|reflexivity].
Qed.
Lemma ahead_read j t k s ts x : 3 <= List.length ts -> read j t k s (ts ++ x) = followed x (read j t k s ts).
Proof.
  intro H. assert (N : ts <> []) by (intros ->; cbn in H; lia).
  assert (St : forall u q s', start u q s' (ts ++ x) = followed x (start u q s' ts)) by (intros; now apply ahead_start).
  assert (Lv : forall b q s', leave b q s' (ts ++ x) = followed x (leave b q s' ts)) by (intros; now apply ahead_leave).
  destruct j; cbn [read]; unfold wrong; try reflexivity;
    try (destruct (suits _ t s); [|destruct (t_base t); reflexivity]); try reflexivity; try apply St;
    try (destruct (base_eqb (t_base t) F15_SLASH); [reflexivity|apply St]).
  - destruct (base_eqb _ _); [reflexivity|]. cbv zeta. destruct (ends_here _ _); [apply Lv|reflexivity].
  - destruct (base_eqb _ _); [reflexivity|]. cbv zeta. destruct (ends_here _ _); [apply Lv|reflexivity].
  - destruct ts as [|a [|b ts]]; cbn [List.length] in H; try lia. cbn [app]. destruct (base_eqb _ _); reflexivity.
  - destruct (t_base t); try reflexivity; try apply St; apply Lv.
  - destruct (t_base t); try reflexivity; apply St.
Qed.
Lemma ahead_step j k s ts x : 4 <= List.length ts -> step1 (j :: k) s (ts ++ x) = followed x (step1 (j :: k) s ts).
Proof.
  intro H. destruct ts as [|t ts]; [cbn in H; lia|]. assert (3 <= List.length ts) by (cbn [List.length] in H; lia).
  destruct j; cbn [step1 app]; try reflexivity; now apply ahead_read.
Qed.

Lemma settle L : forall n k s ts, work (Goes k s ts) <= n -> V L k s ts ->
  (forall x m q, play m k s (ts ++ x) <> Done q) \/
  exists k' s' ts', V L k' s' ts' /\ (k' = [] \/ List.length ts' <= 3) /\
    forall x m q, play m k s (ts ++ x) = Done q -> grow s' q.
Proof.
  induction n as [|n IH]; intros k s ts Hn HV.
  - right. exists k, s, ts. split; [exact HV|]. split; [left|intros; eapply grow_play; eauto].
    unfold work in Hn. destruct k as [|j k]; [reflexivity|]. rewrite weights_cons in Hn. destruct j; cbn [weight] in Hn; lia.
  - destruct k as [|j k]; [right; exists [], s, ts; split; [exact HV|]; split; [now left|intros; eapply grow_play; eauto]|].
    destruct (le_lt_dec (List.length ts) 3) as [H3|H3]; [right; exists (j :: k), s, ts; split; [exact HV|]; split; [now right|intros; eapply grow_play; eauto]|].
    assert (A : forall x, step1 (j :: k) s (ts ++ x) = followed x (step1 (j :: k) s ts)) by (intro; apply ahead_step; lia).
    pose proof (work_step j k s ts) as W. destruct (step1 (j :: k) s ts) as [k' s' ts'|s'] eqn:E.
    + assert (HV' : V L k' s' ts') by (eapply V_step; eauto). destruct (IH k' s' ts' ltac:(lia) HV') as [N|(k2 & s2 & ts2 & V2 & X & P)].
      * left. intros x [|m] q; cbn [play]; [discriminate|]. rewrite A. cbn [followed]. apply N.
      * right. exists k2, s2, ts2. split; [exact V2|]. split; [exact X|]. intros x [|m] q; cbn [play]; [discriminate|]. rewrite A. cbn [followed]. apply P.
    + left. intros x [|m] q; cbn [play]; [discriminate|]. rewrite A. discriminate.
Qed.

(** ** Fields *)
Lemma settled_tokens L : L <> [] ->
  (forall x q, begin (L ++ x) <> Done q) \/
  exists s d r, L = d ++ r /\ Forall (fun t => is_element t = true -> handled s t) d /\
    (List.length r <= 3 \/ exists d' t, d = d' ++ [t] /\ t_base t = F15_BREAK_END /\ n_reports s <> []) /\
    forall x q, begin (L ++ x) = Done q -> grow s q.
Proof.
  destruct L as [|t r]; [congruence|]. intros _. cbn [app].
  assert (P : forall k s, V (t :: r) k s r ->
    (forall x m q, play m k s (r ++ x) <> Done q) \/
    exists s' d r', t :: r = d ++ r' /\ Forall (fun t => is_element t = true -> handled s' t) d /\
      (List.length r' <= 3 \/ exists d' t, d = d' ++ [t] /\ t_base t = F15_BREAK_END /\ n_reports s' <> []) /\
      forall x m q, play m k s (r ++ x) = Done q -> grow s' q).
  { intros k s HV. destruct (settle _ _ k s r (le_n _) HV) as [N|(k' & s' & ts' & (_ & _ & _ & _ & d & D1 & D2 & D3) & X & P)]; [now left|]. right.
    exists s', d, ts'. split; [exact D1|]. split; [exact D2|]. split; [|exact P].
    destruct X as [X|X]; [|now left]. destruct (D3 X) as [->|Y]; [left; cbn; lia|now right]. }
  assert (Er : (forall x q, play (patience (t :: r ++ x)) [JSync] (report t [1%Z] blank_notes) (r ++ x) <> Done q) \/
    exists s' d r', t :: r = d ++ r' /\ Forall (fun t => is_element t = true -> handled s' t) d /\
      (List.length r' <= 3 \/ exists d' t, d = d' ++ [t] /\ t_base t = F15_BREAK_END /\ n_reports s' <> []) /\
      forall x q, play (patience (t :: r ++ x)) [JSync] (report t [1%Z] blank_notes) (r ++ x) = Done q -> grow s' q).
  { destruct (P [JSync] (report t [1%Z] blank_notes)) as [N|(s' & d & r' & A & B & C & D)].
    - split; [reflexivity|]. split; [reflexivity|]. split; [exact I|]. split; [apply noisy|].
      exists [t]. split; [reflexivity|]. split; [|discriminate]. constructor; [|constructor]. intros _. apply (handled_report t 1 blank_notes). ext.
    - left. intros x q. apply N.
    - right. exists s', d, r'. split; [exact A|]. split; [exact B|]. split; [exact C|]. intros x q. apply D. }
  assert (St : unk t = false -> (forall x, start t [] blank_notes (r ++ x) = followed x (start t [] blank_notes r)) ->
    (forall x q, match start t [] blank_notes (r ++ x) with Goes k s ts' => play (patience (t :: r ++ x)) k s ts' | Breaks s => Broken s end <> Done q) \/
    exists s' d r', t :: r = d ++ r' /\ Forall (fun t => is_element t = true -> handled s' t) d /\
      (List.length r' <= 3 \/ exists d' t, d = d' ++ [t] /\ t_base t = F15_BREAK_END /\ n_reports s' <> []) /\
      forall x q, match start t [] blank_notes (r ++ x) with Goes k s ts' => play (patience (t :: r ++ x)) k s ts' | Breaks s => Broken s end = Done q -> grow s' q).
  { intros U A. pose proof (good_start t [] blank_notes r eq_refl eq_refl U) as G1. pose proof (lowt_start t [] blank_notes r eq_refl) as Lw.
    destruct (start t [] blank_notes r) as [k s ts'|s]; [|left; intros x q; rewrite A; discriminate]. destruct G1 as (-> & G1 & G2 & G3 & G4 & G5).
    destruct (P k s) as [N|(s' & d & r' & Q1 & Q2 & Q3 & Q4)].
    - split; [exact Lw|]. split; [exact G2|]. split; [exact G3|]. split; [exact G4|]. exists [t]. split; [reflexivity|]. split; [constructor; [exact G1|constructor]|].
      intro X. destruct (G5 X) as [Y|[Y Z]]; [now left|]. right. now exists [], t.
    - left. intros x q. rewrite A. apply N.
    - right. exists s', d, r'. split; [exact Q1|]. split; [exact Q2|]. split; [exact Q3|]. intros x q. rewrite A. apply Q4. }
  unfold begin, unk in *. destruct (t_base t) eqn:Eb; try exact Er; apply St; try reflexivity; intro x; unfold start; rewrite Eb; reflexivity.
Qed.
Definition as_vfr (L : list token) (l : list item) : list item :=
  match L, l with t :: _, i :: r => if base_eqb (t_base t) F15_SPEED_VFR then n_last (rules ($"VFR") (mkNotes [] i [])) :: r else l | _, _ => l end.
Lemma as_vfr_app L a i b : L <> [] -> exists i' b', as_vfr L (a ++ i :: b) = as_vfr L a ++ i' :: b' /\ sim i i'.
Proof.
  destruct L as [|t L]; [congruence|]. intros _. unfold as_vfr. destruct a as [|x a]; cbn [app].
  - destruct (base_eqb (t_base t) F15_SPEED_VFR); eexists _, _; (split; [reflexivity|]); [now apply sim_nil|apply sim_refl].
  - destruct (base_eqb (t_base t) F15_SPEED_VFR); eexists _, _; (split; [reflexivity|]); apply sim_refl.
Qed.
Lemma as_vfr_place L l : Forall2 same_place l (as_vfr L l).
Proof.
  assert (R : forall l0, Forall2 same_place l0 l0) by (intro l0; induction l0; constructor; [repeat split|assumption]).
  unfold as_vfr. destruct L as [|t L]; [apply R|]. destruct l as [|i l]; [constructor|]. destruct (base_eqb (t_base t) F15_SPEED_VFR); [|apply R]. constructor; [repeat split|apply R].
Qed.
Lemma conclude_grow L x s q : L <> [] -> grow s q ->
  exists i' l' e', fst (conclude (L ++ x) q) = as_vfr L (n_before s) ++ i' :: l' /\ sim (n_last s) i' /\ snd (conclude (L ++ x) q) = n_reports s ++ e'.
Proof.
  intros N [[e E] B]. destruct (conclude_reports (L ++ x) q) as [e' E'].
  assert (F : exists z, fst (conclude (L ++ x) q) = as_vfr L (n_before q ++ [n_last q]) ++ [z])
    by (destruct L as [|t L]; [congruence|]; eexists; reflexivity).
  destruct F as [z F]. assert (G : exists i l, n_before q ++ [n_last q] = n_before s ++ i :: l /\ sim (n_last s) i).
  { destruct B as [[B1 B2]|(i & l & B1 & B2)]; [exists (n_last q), []; now rewrite B1|]. exists i, (l ++ [n_last q]). now rewrite B1, <- app_assoc. }
  destruct G as (i & l & G1 & G2). destruct (as_vfr_app L (n_before s) i l N) as (i' & b' & A1 & A2).
  exists i', (b' ++ [z]), (e ++ e'). split; [now rewrite F, G1, A1, <- app_assoc|]. split; [eapply sim_trans; eauto|]. now rewrite E', E, app_assoc.
Qed.
(** The tokens of a string followed by a separator. *)
Lemma toks_prefix w c b : In c w -> forall a idx text, exists x, toks w idx text (a ++ c :: b) = toks w idx text a ++ x.
Proof.
  intro H. apply char_in_spec in H. induction a as [|y a IH]; intros idx text; cbn [app toks].
  - rewrite H. eexists. reflexivity.
  - destruct (char_in y w); [|apply IH]. destruct (IH (idx + 1)%Z []) as [x E]. exists x. now rewrite E, <- !app_assoc.
Qed.
Lemma tokens_prefix a c b : In c f15_whitespace -> exists x, field_tokens (a ++ c :: b) = field_tokens a ++ x.
Proof.
  intro H. destruct (toks_prefix f15_whitespace c b H a 0%Z []) as [x E]. exists (map typed x). unfold field_tokens.
  rewrite !tokenize_string_toks. cbn [tk_list]. now rewrite E, map_app.
Qed.

Lemma settled_field (a : pstr) : field_tokens a <> [] ->
  (forall G depth c rest b s, In c f15_whitespace -> parse_field15 G depth (a ++ c :: rest) <> Ok b s) \/
  exists l i e d r, field_tokens a = d ++ r /\
    (forall t, In t d -> is_element t = true -> shown_by l i e t) /\
    (List.length r <= 3 \/ e <> [] /\ exists d' t, d = d' ++ [t] /\ t_base t = F15_BREAK_END) /\
    forall G depth c rest b s, In c f15_whitespace -> parse_field15 G depth (a ++ c :: rest) = Ok b s -> begins_with l i e (s_ers s).
Proof.
  intro N. destruct (settled_tokens (field_tokens a) N) as [K|(s0 & d & r & D1 & D2 & D3 & D4)].
  - left. intros G depth c rest b s Hc H. destruct (tokens_prefix a c rest Hc) as [x E].
    assert (N' : field_tokens (a ++ c :: rest) <> []) by (rewrite E; intro Y; apply app_eq_nil in Y; tauto).
    destruct (run_notes G depth _ b s N' H) as (q & Q & _). rewrite E in Q. exact (K x q Q).
  - right. exists (as_vfr (field_tokens a) (n_before s0)), (n_last s0), (n_reports s0), d, r. split; [exact D1|]. split; [|split].
    + intros t Ht El. rewrite Forall_forall in D2.
      assert (R : Forall2 same_place (all s0) (as_vfr (field_tokens a) (n_before s0) ++ [n_last s0]))
        by (apply Forall2_app; [apply as_vfr_place|constructor; [repeat split|constructor]]).
      destruct (D2 t Ht El) as [X|[X|X]]; [left|right; now left|right; right].
      * eapply Forall2_Exists_lr; [exact R| |exact X]. intros x y (S1 & S2 & _) [X1 X2]. now rewrite <- S1, <- S2.
      * eapply Forall2_Exists_lr; [exact R| |exact X]. intros x y (_ & _ & S3) (u & v & X'). exists u, v. now rewrite <- S3.
    + destruct D3 as [D3|(d' & t & X & Y & Z)]; [now left|right; split; [exact Z|now exists d', t]].
    + intros G depth c rest b s Hc H. destruct (tokens_prefix a c rest Hc) as [x E].
      assert (N' : field_tokens (a ++ c :: rest) <> []) by (rewrite E; intro Y; apply app_eq_nil in Y; tauto).
      destruct (run_notes G depth _ b s N' H) as (q & Q & A & B & _). rewrite E in Q, A, B.
      destruct (conclude_grow (field_tokens a) x s0 q N (D4 x q Q)) as (i' & l' & e' & C1 & C2 & C3). rewrite C1 in A. rewrite C3 in B. split.
      * exists i', l'. split; [exact A|]. exact C2.
      * apply Forall2_app_inv_l in B as (e1 & e2 & B1 & _ & B2). now exists e1, e2.
Qed.
