(** * SizeFacts: how many records and errors a field can have. *)
From Coq Require Import ZArith NArith List Bool String Lia ZifyBool.
From Verif Require SpecTokenizer.
From Verif Require Import PyBase PyFloat Enums Tokenizer Ers Utils Parser TokenizerProofs SpecNum SpecParser SpecGrammar SpecAccept SpecDiagnosis SpecReader SpecRecovery ReaderFacts AcceptFacts ReaderOrder RecoveryFacts.
Import List ListNotations.
Local Open Scope list_scope.
Local Open Scope nat_scope.

(** ** Errors: three for each token, and some jobs carry one over *)
Definition owes (j : job) : nat :=
  match j with JRoute | JSlash _ | JClimb _ _ | JClimbPt _ | JClimbSl _ | JStayTok _ | JStaySl _ | JSyncSl _ => 1 | JTake _ => 3 | _ => 0 end.
Definition owed (k : list job) : nat := list_sum (map owes k).
Definition nrep (s : notes) : nat := List.length (n_reports s).
Definition cost (r : result) : nat := match r with Goes k s ts => nrep s + 3 * List.length ts + owed k | Breaks _ => 0 end.
Lemma owed_cons j k : owed (j :: k) = owes j + owed k. Proof. reflexivity. Qed.
Lemma nrep_report t ms s : nrep (report t ms s) = nrep s + List.length ms.
Proof. unfold nrep. cbn. now rewrite app_length, map_length. Qed.
Lemma nrep_with f s : nrep (with_last f s) = nrep s. Proof. reflexivity. Qed.
Lemma nrep_add nm t s : nrep (add_as nm t s) = nrep s. Proof. reflexivity. Qed.
Lemma nrep_rules r s : nrep (rules r s) = nrep s. Proof. reflexivity. Qed.
Lemma nrep_types a b s : nrep (types a b s) = nrep s. Proof. reflexivity. Qed.
Lemma nrep_stays r s : nrep (stays r s) = nrep s. Proof. reflexivity. Qed.
Lemma nrep_locates t s : nrep (locates t s) = nrep s. Proof. reflexivity. Qed.
Lemma nrep_texts r s : nrep (texts r s) = nrep s. Proof. reflexivity. Qed.
Lemma nrep_vfr t s : nrep (vfr t s) = nrep s. Proof. reflexivity. Qed.
Lemma nrep_speeds t s : nrep (speeds t s) = nrep s + List.length (level_faults t).
Proof. unfold speeds. now rewrite nrep_report. Qed.
Lemma nrep_point t s : nrep (point t s) = nrep s + List.length (angle_faults t).
Proof. unfold point. now rewrite nrep_report. Qed.
Lemma few_angles t : List.length (angle_faults t) <= 3.
Proof.
  unfold angle_faults, deg_faults, min_faults, brg_faults. destruct (t_sub t); cbn [List.length]; try lia;
    repeat match goal with |- context [if ?b then _ else _] => destruct b end; cbn; lia.
Qed.
Lemma few_levels t : List.length (level_faults t) <= 2.
Proof. unfold level_faults. repeat match goal with |- context [if ?b then _ else _] => destruct b end; cbn; lia. Qed.
Ltac nr := unfold cost, wrong, add; rewrite ?owed_cons; repeat (progress rewrite ?nrep_point, ?nrep_speeds, ?nrep_vfr, ?nrep_report, ?nrep_rules, ?nrep_types, ?nrep_stays, ?nrep_locates, ?nrep_texts, ?nrep_add, ?nrep_with);
  cbn [owes app List.length]; rewrite ?owed_cons; cbn [owes];
  repeat match goal with
  | |- context [List.length (angle_faults ?t)] => let H := fresh in pose proof (few_angles t) as H; revert H; generalize (List.length (angle_faults t)); intros
  | |- context [List.length (level_faults ?t)] => let H := fresh in pose proof (few_levels t) as H; revert H; generalize (List.length (level_faults t)); intros
  end; lia.
Lemma cost_last t k s ts n : nrep s + 3 * List.length ts + owed k + 1 <= n -> cost (the_last t k s ts) <= n.
Proof. intro H. unfold the_last. destruct ts as [|x ts]; cbn [List.length] in H; nr. Qed.
Lemma cost_start t k s ts n : nrep s + 3 * List.length ts + owed k + 3 <= n -> cost (start t k s ts) <= n.
Proof.
  intro H. unfold start. destruct (t_base t); try nr; try (apply cost_last; nr);
    try (destruct (only_adep s); first [nr | apply cost_last; nr]); try (destruct (unconvertible t); nr).
  destruct (begins (t_sub t)); nr.
Qed.
Lemma cost_leave b k s ts n : nrep s + 3 * List.length ts + owed k + 1 <= n -> cost (leave b k s ts) <= n.
Proof. intro H. unfold leave. destruct (resume b ts); [nr|destruct b; nr|]. destruct ts; cbn [List.length] in H; nr. Qed.
Lemma cost_read j t k s ts : (match j with JTake _ | JWord _ => False | _ => True end) -> cost (read j t k s ts) <= nrep s + 3 * List.length ts + 3 + owed (j :: k).
Proof.
  intro P. rewrite owed_cons.
  assert (St : forall u q s', nrep s' <= nrep s -> owed q <= owed k + owes j -> cost (start u q s' ts) <= nrep s + 3 * List.length ts + 3 + (owes j + owed k)) by (intros; apply cost_start; lia).
  assert (Lv : forall b q s', nrep s' <= nrep s -> owed q <= owed k -> cost (leave b q s' ts) <= nrep s + 3 * List.length ts + 3 + (owes j + owed k)) by (intros; apply cost_leave; lia).
  destruct j; unfold read; try destruct P;
    try (destruct (suits _ t s); [|destruct (t_base t); nr]); try nr;
    try (apply St; [reflexivity|rewrite ?owed_cons; cbn [owes]; lia]);
    try (destruct (base_eqb (t_base t) F15_SLASH); [nr|apply St; [reflexivity|lia]]).
  - destruct (base_eqb _ _); [nr|]. cbv zeta. destruct (ends_here _ _); [apply Lv; [reflexivity|rewrite owed_cons; cbn [owes]; lia]|nr].
  - destruct (base_eqb _ _); [nr|]. cbv zeta. destruct (ends_here _ _); [apply Lv; [reflexivity|rewrite owed_cons; cbn [owes]; lia]|nr].
  - destruct ts as [|sl [|sp ts]]; try nr. destruct (base_eqb _ _); nr.
  - destruct (t_base t); try nr; try (apply St; [reflexivity|cbn [owes]; lia]). apply Lv; [reflexivity|lia].
  - destruct (t_base t); try nr; (apply St; [reflexivity|cbn [owes]; lia]).
Qed.
Lemma cost_end j s : nrep (at_end j s) <= nrep s + owes j.
Proof. destruct j; cbn [at_end]; nr. Qed.
Lemma cost_step j k s ts : cost (step1 (j :: k) s ts) <= cost (Goes (j :: k) s ts).
Proof.
  assert (R : (match j with JTake _ | JWord _ => False | _ => True end) -> step1 (j :: k) s ts = match ts with [] => Goes k (at_end j s) [] | t :: r => read j t k s r end ->
    cost (step1 (j :: k) s ts) <= cost (Goes (j :: k) s ts)).
  { intros P E. rewrite E. destruct ts as [|t r].
    - pose proof (cost_end j s). unfold cost. rewrite owed_cons. cbn [List.length]. lia.
    - pose proof (cost_read j t k s r P). unfold cost at 2. cbn [List.length]. lia. }
  destruct j; try exact (R I eq_refl); cbn [step1]; nr.
Qed.
Lemma cost_play n : forall k s ts q, play n k s ts = Done q -> nrep q <= cost (Goes k s ts).
Proof.
  induction n as [|n IH]; intros k s ts q H; destruct k as [|j k]; cbn [play] in H; try (injection H as <-; unfold cost; lia); [discriminate|].
  pose proof (cost_step j k s ts) as E. destruct (step1 (j :: k) s ts) as [k' s' ts'|s']; [|discriminate]. specialize (IH _ _ _ _ H). lia.
Qed.
Lemma reports_bound L q : L <> [] -> begin L = Done q -> nrep q + 2 <= 3 * List.length L.
Proof.
  destruct L as [|t r]; [congruence|]. intros _ H. unfold begin in H. cbn [List.length].
  assert (Er : play (patience (t :: r)) [JSync] (report t [1%Z] blank_notes) r = Done q -> nrep q + 2 <= 3 * S (List.length r)).
  { intro E. apply cost_play in E. unfold cost in E. rewrite owed_cons in E. cbn [owes nrep report n_reports blank_notes app map List.length owed list_sum fold_right] in E. unfold owed in E. cbn in E. lia. }
  assert (St : t_base t = F15_SPEED_VFR \/ t_base t = F15_SPEED_ALTITUDE ->
    match start t [] blank_notes r with Goes k s ts' => play (patience (t :: r)) k s ts' | Breaks s => Broken s end = Done q -> nrep q + 2 <= 3 * S (List.length r)).
  { intros [B|B] E; unfold start in E; rewrite B in E; apply cost_play in E; unfold cost in E; rewrite owed_cons in E.
    - rewrite nrep_vfr in E. unfold owed, nrep in E. cbn in E. unfold nrep. lia.
    - rewrite nrep_speeds in E. unfold owed in E. unfold level_faults in E. rewrite B in E. cbn [base_eqb andb app] in E. rewrite app_nil_r in E.
      replace (nrep blank_notes) with 0 in E by reflexivity. destruct (only_adep blank_notes); destruct (bad_level _); cbn in E; lia. }
  destruct (t_base t); try exact (Er H); apply St; auto.
Qed.

(** ** Records: one for each token *)
Definition keeps (j : job) : nat := match j with JC _ | JClimb _ _ | JTake _ => 1 | _ => 0 end.
Definition kept (k : list job) : nat := list_sum (map keeps k).
Definition nrec (s : notes) : nat := List.length (n_before s).
Definition mass (r : result) : nat := match r with Goes k s ts => nrec s + List.length ts + kept k | Breaks _ => 0 end.
Lemma kept_cons j k : kept (j :: k) = keeps j + kept k. Proof. reflexivity. Qed.
Lemma nrec_report t ms s : nrec (report t ms s) = nrec s. Proof. reflexivity. Qed.
Lemma nrec_with f s : nrec (with_last f s) = nrec s. Proof. reflexivity. Qed.
Lemma nrec_add nm t s : nrec (add_as nm t s) = S (nrec s). Proof. unfold nrec. cbn. rewrite app_length. cbn. lia. Qed.
Lemma nrec_rules r s : nrec (rules r s) = nrec s. Proof. reflexivity. Qed.
Lemma nrec_types a b s : nrec (types a b s) = nrec s. Proof. reflexivity. Qed.
Lemma nrec_stays r s : nrec (stays r s) = nrec s. Proof. reflexivity. Qed.
Lemma nrec_locates t s : nrec (locates t s) = nrec s. Proof. reflexivity. Qed.
Lemma nrec_texts r s : nrec (texts r s) = nrec s. Proof. reflexivity. Qed.
Lemma nrec_vfr t s : nrec (vfr t s) = S (nrec s). Proof. unfold nrec. cbn. rewrite app_length. cbn. lia. Qed.
Lemma nrec_speeds t s : nrec (speeds t s) = nrec s. Proof. reflexivity. Qed.
Lemma nrec_point t s : nrec (point t s) = S (nrec s). Proof. unfold nrec. cbn. rewrite app_length. cbn. lia. Qed.
Ltac mr := unfold mass, wrong, add; rewrite ?kept_cons; repeat (progress rewrite ?nrec_point, ?nrec_speeds, ?nrec_vfr, ?nrec_report, ?nrec_rules, ?nrec_types, ?nrec_stays, ?nrec_locates, ?nrec_texts, ?nrec_add, ?nrec_with);
  cbn [keeps app List.length]; rewrite ?kept_cons; cbn [keeps]; lia.
Lemma mass_last t k s ts n : nrec s + List.length ts + kept k <= n -> mass (the_last t k s ts) <= n.
Proof. intro H. unfold the_last. destruct ts as [|x ts]; cbn [List.length] in H; mr. Qed.
Lemma mass_start t k s ts n : nrec s + List.length ts + kept k + 1 <= n -> mass (start t k s ts) <= n.
Proof.
  intro H. unfold start. destruct (t_base t); try mr; try (apply mass_last; mr);
    try (destruct (only_adep s); first [mr | apply mass_last; mr]); try (destruct (unconvertible t); mr).
  destruct (begins (t_sub t)); mr.
Qed.
Lemma mass_leave b k s ts n : nrec s + List.length ts + kept k <= n -> mass (leave b k s ts) <= n.
Proof. intro H. unfold leave. destruct (resume b ts); [mr|destruct b; mr|]. destruct ts; cbn [List.length] in H; mr. Qed.
Lemma mass_read j t k s ts : (match j with JTake _ | JWord _ => False | _ => True end) -> mass (read j t k s ts) <= nrec s + List.length ts + 1 + kept (j :: k).
Proof.
  intro P. rewrite kept_cons.
  assert (St : forall u q s', nrec s' <= nrec s + keeps j -> kept q <= kept k -> mass (start u q s' ts) <= nrec s + List.length ts + 1 + (keeps j + kept k)) by (intros; apply mass_start; lia).
  assert (Lv : forall b q s', nrec s' <= nrec s -> kept q <= kept k -> mass (leave b q s' ts) <= nrec s + List.length ts + 1 + (keeps j + kept k)) by (intros; apply mass_leave; lia).
  destruct j; unfold read; try destruct P;
    try (destruct (suits _ t s); [|destruct (t_base t); mr]); try mr;
    try (apply St; [cbn [keeps]; lia|rewrite ?kept_cons; cbn [keeps]; lia]);
    try (destruct (base_eqb (t_base t) F15_SLASH); [mr|apply St; [unfold add; rewrite ?nrec_add; cbn [keeps]; lia|lia]]).
  - destruct (base_eqb _ _); [mr|]. cbv zeta. destruct (ends_here _ _); [apply Lv; [reflexivity|rewrite kept_cons; cbn [keeps]; lia]|mr].
  - destruct (base_eqb _ _); [mr|]. cbv zeta. destruct (ends_here _ _); [apply Lv; [reflexivity|rewrite kept_cons; cbn [keeps]; lia]|mr].
  - destruct ts as [|sl [|sp ts]]; try mr. destruct (base_eqb _ _); mr.
  - destruct (t_base t); try mr; try (apply St; [cbn [keeps]; lia|lia]). apply Lv; [reflexivity|lia].
  - destruct (t_base t); try mr; (apply St; [cbn [keeps]; lia|lia]).
Qed.
Lemma mass_end j s : nrec (at_end j s) <= nrec s + keeps j.
Proof. destruct j; cbn [at_end]; mr. Qed.
Lemma mass_step j k s ts : mass (step1 (j :: k) s ts) <= mass (Goes (j :: k) s ts).
Proof.
  assert (R : (match j with JTake _ | JWord _ => False | _ => True end) -> step1 (j :: k) s ts = match ts with [] => Goes k (at_end j s) [] | t :: r => read j t k s r end ->
    mass (step1 (j :: k) s ts) <= mass (Goes (j :: k) s ts)).
  { intros P E. rewrite E. destruct ts as [|t r].
    - pose proof (mass_end j s). unfold mass. rewrite kept_cons. cbn [List.length]. lia.
    - pose proof (mass_read j t k s r P). unfold mass at 2. cbn [List.length]. lia. }
  destruct j; try exact (R I eq_refl); cbn [step1]; mr.
Qed.
Lemma mass_play n : forall k s ts q, play n k s ts = Done q -> nrec q <= mass (Goes k s ts).
Proof.
  induction n as [|n IH]; intros k s ts q H; destruct k as [|j k]; cbn [play] in H; try (injection H as <-; unfold mass; lia); [discriminate|].
  pose proof (mass_step j k s ts) as E. destruct (step1 (j :: k) s ts) as [k' s' ts'|s']; [|discriminate]. specialize (IH _ _ _ _ H). lia.
Qed.
(** The first token is recorded only if it says VFR. *)
Lemma records_bound L q : begin L = Done q ->
  nrec q <= match L with t :: r => if base_eqb (t_base t) F15_SPEED_VFR then List.length L else List.length r | [] => 0 end.
Proof.
  destruct L as [|t r]; [intro H; injection H as <-; cbn; lia|]. intro H. unfold begin in H. cbn [List.length].
  assert (Er : play (patience (t :: r)) [JSync] (report t [1%Z] blank_notes) r = Done q -> nrec q <= List.length r)
    by (intro E; apply mass_play in E; unfold mass, kept, nrec in *; cbn in E; lia).
  destruct (t_base t) eqn:B; try exact (Er H); unfold start in H; rewrite B in H; apply mass_play in H; unfold mass, kept, nrec in *; cbn in H |- *; lia.
Qed.

(** ** Fields *)
Lemma Forall2_len {A B} (R : A -> B -> Prop) a b : Forall2 R a b -> List.length a = List.length b.
Proof. induction 1; cbn; congruence. Qed.
Lemma conclude_size L q : List.length (fst (conclude L q)) = nrec q + 2.
Proof.
  destruct (conclude_recs L q) as (l' & z & A & B). rewrite A, app_length. apply Forall2_len in B. rewrite <- B. unfold all, nrec. rewrite app_length. cbn. lia.
Qed.
Lemma n_tokens_length field : List.length (field_tokens field) = n_tokens field.
Proof. unfold field_tokens, n_tokens. apply map_length. Qed.
Lemma few_records G depth field b s : field_tokens field <> [] -> parse_field15 G depth field = Ok b s ->
  List.length (e_recs (s_ers s)) <= n_tokens field + match field_tokens field with t :: _ => if base_eqb (t_base t) F15_SPEED_VFR then 2 else 1 | [] => 0 end.
Proof.
  intros N H. destruct (run_notes G depth field b s N H) as (q & Q & A & _). apply (f_equal (@List.length item)) in A. rewrite map_length, conclude_size in A. rewrite A.
  apply records_bound in Q. rewrite <- n_tokens_length. destruct (field_tokens field) as [|t r]; [congruence|]. cbn [List.length] in *. destruct (base_eqb _ _); lia.
Qed.
Lemma few_errors G depth field b s : field_tokens field <> [] -> parse_field15 G depth field = Ok b s ->
  List.length (e_errs (s_ers s)) + 2 <= 3 * n_tokens field \/ n_tokens field = 1 /\ List.length (e_errs (s_ers s)) = 2.
Proof.
  intros N H. destruct (run_notes G depth field b s N H) as (q & Q & _ & A & _). apply Forall2_len in A. rewrite <- A, <- n_tokens_length.
  apply reports_bound in Q; [|exact N]. unfold conclude. cbv zeta. cbn [snd]. unfold nrep in Q. destruct (field_tokens field) as [|t [|u r]]; [congruence| |left; exact Q].
  destruct (base_eqb (t_base t) F15_SPEED_ALTITUDE); [|left; exact Q]. cbn [List.length] in *. change (n_reports (report t [49%Z] q)) with (n_reports q ++ [(t, 49%Z)]). rewrite app_length. cbn [List.length].
  destruct (n_reports q) as [|? [|]]; cbn [List.length] in *; lia.
Qed.

(** *** A field with that many *)
Definition far : pstr := $"91N181E361001".
Definition far_token (t : token) : Prop := t = typed t /\ t_text t = far.
Definition far_field (n : nat) : pstr := SpecTokenizer.join_sp (($"X") :: repeat far n).
Lemma far_base t : far_token t -> t_base t = F15_POINT /\ t_sub t = F15_SB_LLBD_DEG /\ List.length (angle_faults t) = 3.
Proof.
  intros [A B]. assert (C : t_base t = F15_POINT) by (rewrite A; unfold typed; rewrite B; vm_compute; reflexivity).
  assert (D : t_sub t = F15_SB_LLBD_DEG) by (rewrite A; unfold typed; rewrite B; vm_compute; reflexivity).
  split; [exact C|]. split; [exact D|]. unfold angle_faults. rewrite D, B. vm_compute. reflexivity.
Qed.
Lemma far_play ts : Forall far_token ts -> forall m k s, S (List.length ts) <= m -> k = [JSync] \/ k = [JPoint] ->
  exists q, play m k s ts = Done q /\ nrep q = nrep s + 3 * List.length ts /\ nrec q = nrec s + List.length ts.
Proof.
  induction 1 as [|t ts F _ IH]; intros m k s Hm Hk.
  - destruct m as [|m]; [cbn in Hm; lia|]. exists s. split; [|cbn; lia]. destruct m; destruct Hk as [-> | ->]; reflexivity.
  - destruct m as [|m]; [cbn in Hm; lia|]. destruct (far_base t F) as (B & C & D).
    assert (E : step1 k s (t :: ts) = Goes [JPoint] (point t s) ts).
    { destruct Hk as [-> | ->]; cbn [step1 read].
      - rewrite B. unfold start. now rewrite B.
      - replace (suits JPoint t s) with true by (unfold suits; cbn [spot fits]; now rewrite B). rewrite B. unfold start. rewrite B. reflexivity. }
    destruct (IH m [JPoint] (point t s)) as (q & Q1 & Q2 & Q3); [cbn [List.length] in Hm; lia|now right|].
    exists q. split; [destruct Hk as [-> | ->]; cbn [play]; rewrite E; exact Q1|]. rewrite nrep_point, D in Q2. rewrite nrec_point in Q3. cbn [List.length]. lia.
Qed.
Lemma far_tokens n : exists t ts, field_tokens (far_field n) = t :: ts /\ t_base t = F15_POINT /\ Forall far_token ts /\ List.length ts = n.
Proof.
  assert (T : map t_text (field_tokens (far_field n)) = ($"X") :: repeat far n).
  { unfold field_tokens. rewrite map_map. change (map (fun x => t_text (typed x)) (tk_list (tokenize_string f15_whitespace (far_field n)))) with (SpecTokenizer.texts f15_whitespace (far_field n)).
    apply texts_join; [vm_compute; tauto|]. intros x [<-|H]; [|apply repeat_spec in H; subst x]; (split; [discriminate|]); right; intros c Hc X; vm_compute in Hc, X;
      repeat destruct Hc as [<-|Hc]; try destruct Hc; repeat destruct X as [X|X]; try discriminate X; destruct X. }
  assert (F : Forall (fun t => t = typed t) (field_tokens (far_field n))) by (unfold field_tokens; apply Forall_map; apply Forall_forall; intros x _; reflexivity).
  destruct (field_tokens (far_field n)) as [|t ts]; [discriminate|]. cbn [map] in T. injection T as T1 T2. inversion F as [|? ? F1 F2]; subst.
  exists t, ts. split; [reflexivity|]. split; [rewrite F1; unfold typed; rewrite T1; vm_compute; reflexivity|].
  assert (Ln : List.length ts = n) by (apply (f_equal (@List.length pstr)) in T2; now rewrite map_length, repeat_length in T2). split; [|exact Ln].
  apply Forall_forall. intros x Hx. rewrite Forall_forall in F2. split; [now apply F2|]. apply (repeat_spec n far). rewrite <- T2. now apply in_map.
Qed.
Lemma far_many G depth n : 3 * S n <= depth + 1 -> exists s, parse_field15 G depth (far_field n) = Ok false s /\
  n_tokens (far_field n) = S n /\ List.length (e_errs (s_ers s)) + 2 = 3 * S n /\ List.length (e_recs (s_ers s)) = S n + 1.
Proof.
  intro Hd. destruct (far_tokens n) as (t & ts & E & B & F & Ln). assert (N : field_tokens (far_field n) <> []) by (rewrite E; discriminate).
  assert (Nt : n_tokens (far_field n) = S n) by (rewrite <- n_tokens_length, E; cbn; lia).
  destruct (far_play ts F (patience (t :: ts)) [JSync] (report t [1%Z] blank_notes)) as (q & Q1 & Q2 & Q3); [unfold patience; cbn [List.length]; lia|now left|].
  assert (Q : begin (field_tokens (far_field n)) = Done q) by (rewrite E; unfold begin; rewrite B; exact Q1).
  pose proof (read_or_raise G depth (far_field n) N ltac:(lia)) as R. unfold reading in R. rewrite Q in R. destruct (conclude (field_tokens (far_field n)) q) as [l e] eqn:Ec.
  destruct R as (b & s & R). exists s. destruct (run_notes G depth _ b s N R) as (q' & Q' & A1 & A2 & A3). rewrite Q in Q'. injection Q' as <-.
  assert (Ne : List.length (snd (conclude (field_tokens (far_field n)) q)) = 3 * n + 1).
  { rewrite E. unfold conclude. cbv zeta. cbn [snd]. unfold nrep in Q2. cbn [report n_reports blank_notes app map List.length] in Q2. rewrite Ln in Q2.
    destruct ts as [|]; [rewrite B; change (base_eqb F15_POINT F15_SPEED_ALTITUDE) with false; cbv iota|]; lia. }
  split; [|split; [exact Nt|split]].
  - rewrite R. f_equal. rewrite A3. destruct (snd _); [cbn in Ne; lia|reflexivity].
  - apply Forall2_len in A2. rewrite <- A2, Ne. lia.
  - apply (f_equal (@List.length item)) in A1. rewrite map_length, conclude_size in A1. rewrite A1, Q3, Ln. cbn. lia.
Qed.
Lemma bounds_attained n : exists field : pstr, n_tokens field = S n /\
  forall (G : geodesic) (depth : nat), 3 * S n <= depth + 1 -> exists s, parse_field15 G depth field = Ok false s /\
    List.length (e_errs (s_ers s)) + 2 = 3 * S n /\ List.length (e_recs (s_ers s)) = S n + 1.
Proof.
  exists (far_field n). split.
  - destruct (far_tokens n) as (t & ts & E & _ & _ & Ln). rewrite <- n_tokens_length, E. cbn. now rewrite Ln.
  - intros G depth Hd. destruct (far_many G depth n Hd) as (s & A & _ & B & C). exists s. auto.
Qed.
