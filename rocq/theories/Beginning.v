(** * Beginning: lemmas behind PropsBeginning. *)
From Coq Require Import ZArith NArith List Bool String Lia.
From Verif Require Import PyBase PyFloat Enums ErrorTable Tokenizer Ers Utils Parser SpecTokenizer TokenizerProofs SpecNum SpecParser SpecGrammar SpecDiagnosis.
From Verif Require Import ParserFacts Accept DiagFacts SpecViable Viable SpecBeginning.
Import List ListNotations.
Local Open Scope list_scope.
Local Open Scope nat_scope.

Lemma near_cons t u l : near_end u l -> near_end u (t :: l).
Proof. intros (a & b & -> & H). exists (t :: a), b. split; [reflexivity|exact H]. Qed.
Lemma resume_more k a b : a <> [] ->
  resume k (a ++ b) = resume k a \/ (k = KVfr /\ resume k a = Wrong /\ exists p r, a = p :: r /\ t_base p = F15_POINT /\ (r = [] \/ exists sl, r = [sl] /\ t_base sl = F15_SLASH)).
Proof.
  intro H. destruct a as [|p a]; [congruence|]. cbn [app]. unfold resume. destruct (t_base p) eqn:Ep; try (left; reflexivity). destruct k; try (left; reflexivity).
  destruct a as [|sl a]; [right; split; [reflexivity|]; split; [reflexivity|]; exists p, []; auto|].
  cbn [app]. destruct (t_base sl) eqn:Es; try (left; reflexivity).
  destruct a as [|x a]; [|left; reflexivity]. right. split; [reflexivity|]. split; [reflexivity|]. exists p, [sl]. split; [reflexivity|]. split; [exact Ep|]. right. now exists sl.
Qed.
Lemma resumes_ripe k a : resume k a = Resumes -> ripe (PJoin k) a.
Proof.
  unfold resume. destruct a as [|p a]; [discriminate|]. destruct (t_base p); try discriminate. destruct k; cbn [ripe]; try discriminate.
  destruct a as [|sl a]; [discriminate|]. destruct (t_base sl); try discriminate. destruct a as [|x a]; [discriminate|]. intros _. cbn. lia.
Qed.
Lemma misplaced22 p t : okl p -> misplaced p t <> 22%Z.
Proof.
  intro H. assert (E : stray_end t <> 22%Z) by (unfold stray_end; destruct (t_sub t); discriminate).
  unfold misplaced. destruct p; try (destruct (t_base t); try discriminate; exact E). cbn in H. destruct H as [-> | ->]; discriminate.
Qed.
Lemma value22 p t r u : value_fault p t r <> Report u 22.
Proof.
  assert (A : angles t <> Report u 22).
  { unfold angles, angle_fault, deg_fault, min_fault, brg_fault, or_else. intro H.
    destruct (t_sub t); try discriminate H;
      repeat match type of H with context [over ?a ?c] => destruct (over a c) | context [over_min ?a ?c ?e] => destruct (over_min a c e) end; discriminate H. }
  assert (B : levels t <> Report u 22) by (unfold levels; destruct (unconvertible t); [discriminate|]; destruct (level_fault t); discriminate).
  unfold value_fault. destruct p; try (destruct (t_base t); try discriminate; exact A); try exact A; try exact B.
  destruct k; try exact A. destruct r as [|x [|sp r]]; try exact A. destruct (base_eqb _ _); [discriminate|exact A].
Qed.
Lemma stop22 p u : stop p <> Report u 22.
Proof. destruct p; discriminate. Qed.
Lemma levels22 t u : levels t <> Report u 22.
Proof. unfold levels. destruct (unconvertible t); [discriminate|]. destruct (level_fault t); discriminate. Qed.

(** ** A beginning of a right field is open-ended *)
Definition opens (ts : list token) (v : verdict) : Prop :=
  match v with Fine => True | Report t m => end_message m = true \/ (m = 22%Z /\ near_end t ts) | Fails => False end.
Lemma opens_cons t ts v : opens ts v -> opens (t :: ts) v.
Proof. destruct v; cbn; auto. intros [H|[H K]]; [now left|right; split; [exact H|now apply near_cons]]. Qed.
Lemma begin_opens ts us : forall p, ripe p ts -> diag p (ts ++ us) = Fine -> opens ts (diag p ts).
Proof.
  induction ts as [|t ts IH]; intros p Hr H; [destruct p; cbn; auto|]. cbn [app diag] in *.
  assert (Gen : (if fits p t then then_ (value_fault p t (ts ++ us)) (diag (place_after p t) (ts ++ us)) else Report t (misplaced p t)) = Fine ->
    opens (t :: ts) (if fits p t then then_ (value_fault p t ts) (diag (place_after p t) ts) else Report t (misplaced p t))).
  { clear H. intro H. destruct (fits p t); [|discriminate]. rewrite (value_far p t ts us []) in H; [rewrite app_nil_r in H|intros ->; cbn in Hr; lia].
    destruct (value_fault p t ts); [|discriminate H|discriminate H]. cbn [then_] in *. apply opens_cons, IH; [|exact H].
    unfold place_after. destruct p; cbn; auto; destruct (t_base t); cbn; auto. }
  destruct p; try exact (Gen H). clear Gen.
  destruct (base_eqb (t_base t) F15_TOO_LONG); [discriminate|]. destruct (ends k (t_sub t)); [|apply opens_cons, IH; [exact I|exact H]].
  destruct ts as [|q ts]; [cbn; auto|]. destruct (resume_more k (q :: ts) us ltac:(discriminate)) as [E|(-> & E & p0 & r & Er & _ & Hrr)].
  - rewrite E in H. destruct (resume k (q :: ts)) eqn:Ek; [apply opens_cons, IH; [exact I|exact H]|apply opens_cons, IH; [now apply resumes_ripe|exact H]|discriminate H].
  - rewrite E. cbn [opens]. right. split; [reflexivity|]. exists [t], ts. split; [reflexivity|]. injection Er as _ ->. destruct Hrr as [->|(sl & -> & _)]; cbn; lia.
Qed.
Theorem begin_open ts us : diagnose (ts ++ us) = Fine -> open_ended ts.
Proof.
  destruct ts as [|t ts]; [intros; exact I|]. unfold open_ended, diagnose. cbn [app]. intro H. change (opens (t :: ts) (match t_base t with F15_SPEED_VFR => diag (PText KVfr) ts
    | F15_SPEED_ALTITUDE => then_ (levels t) (match ts with [] => Report t 49 | _ => diag PAdep ts end) | _ => Report t 1 end)).
  destruct (t_base t); try discriminate H.
  - apply opens_cons, (begin_opens ts us); [exact I|exact H].
  - destruct (levels t); [|discriminate H|discriminate H]. cbn [then_] in *. destruct ts as [|x ts]; [left; reflexivity|]. apply opens_cons, (begin_opens (x :: ts) us); [exact I|exact H].
Qed.

(** ** A point with message 22 near the end can be completed *)
Lemma in22 ts : forall p u, okl p -> diag p ts = Report u 22 -> In u (tl ts).
Proof.
  induction ts as [|t ts IH]; intros p u Ho H; [now destruct (stop22 p u)|]. cbn [diag tl] in *.
  assert (Up : forall q, okl q -> diag q ts = Report u 22 -> In u ts).
  { intros q Hq K. specialize (IH q u Hq K). destruct ts; [destruct IH|now right]. }
  assert (Gen : (if fits p t then then_ (value_fault p t ts) (diag (place_after p t) ts) else Report t (misplaced p t)) = Report u 22 -> In u ts).
  { clear H. intro H. destruct (fits p t); [|injection H as _ K; now destruct (misplaced22 p t Ho)].
    destruct (value_fault p t ts) as [|t' m'|] eqn:E; cbn [then_] in H; [exact (Up _ (okl_after p t) H)| |discriminate].
    injection H as -> ->. now destruct (value22 p t ts u). }
  destruct p; try exact (Gen H). clear Gen.
  destruct (base_eqb _ _); [discriminate|]. destruct (ends _ _); [|exact (Up (PText k) I H)].
  destruct (resume k ts); [exact (Up (PText k) I H)|exact (Up (PJoin k) I H)|]. destruct ts as [|q ts]; [discriminate|]. injection H as <-. now left.
Qed.
Lemma mend ts : forall p u, okl p -> ripe p ts -> NoDup ts -> near_end u ts -> diag p ts = Report u 22 -> exists w, simple w /\ diag p (ts ++ map tok w) = Fine.
Proof.
  induction ts as [|t ts IH]; intros p u Ho Hr Hd Hn H; [now destruct (stop22 p u)|].
  pose proof (in22 _ _ _ Ho H) as Hin. cbn [tl] in Hin. inversion Hd as [|? ? Ht Hd']; subst.
  assert (Hn' : near_end u ts).
  { destruct Hn as ([|x a] & b & E & L); [injection E as -> ->; now destruct Ht|]. injection E as _ ->. now exists a, b. }
  cbn [app diag] in *.
  assert (Gen : (if fits p t then then_ (value_fault p t ts) (diag (place_after p t) ts) else Report t (misplaced p t)) = Report u 22 ->
    exists w, simple w /\ (if fits p t then then_ (value_fault p t (ts ++ map tok w)) (diag (place_after p t) (ts ++ map tok w)) else Report t (misplaced p t)) = Fine).
  { clear H. intro H. destruct (fits p t); [|injection H as _ K; now destruct (misplaced22 p t Ho)].
    assert (V : forall r, value_fault p t (ts ++ r) = value_fault p t ts).
    { intro r. rewrite (value_far p t ts r []); [now rewrite app_nil_r|intros ->; cbn in Hr; lia]. }
    destruct (value_fault p t ts) as [|t' m'|] eqn:E; cbn [then_] in H.
    - destruct (IH (place_after p t) u) as (w & Hs & Hw); auto using okl_after; [unfold place_after; destruct p; cbn; auto; destruct (t_base t); cbn; auto|].
      exists w. split; [exact Hs|]. rewrite V. exact Hw.
    - injection H as -> ->. now destruct (value22 p t ts u).
    - discriminate H. }
  destruct p; try exact (Gen H). clear Gen.
  destruct (base_eqb (t_base t) F15_TOO_LONG); [discriminate|]. destruct (ends k (t_sub t)); [|exact (IH (PText k) u I I Hd' Hn' H)].
  destruct ts as [|q ts]; [destruct Hin|].
  assert (Old : (forall r, resume k ((q :: ts) ++ r) = resume k (q :: ts)) -> resume k (q :: ts) <> Wrong -> exists w, simple w /\ match resume k ((q :: ts) ++ map tok w) with Inside => diag (PText k) ((q :: ts) ++ map tok w) | Resumes => diag (PJoin k) ((q :: ts) ++ map tok w)
         | Wrong => match (q :: ts) ++ map tok w with z :: _ => Report z 22 | [] => Fine end end = Fine).
  { intros E Nw. setoid_rewrite E. destruct (resume k (q :: ts)) eqn:Ek; [exact (IH (PText k) u I I Hd' Hn' H)|exact (IH (PJoin k) u I (resumes_ripe _ _ Ek) Hd' Hn' H)|congruence]. }
  destruct (resume k (q :: ts)) eqn:Ek.
  - apply Old; [|discriminate]. intro r. destruct (resume_more k (q :: ts) r ltac:(discriminate)) as [E|(_ & E & _)]; congruence.
  - apply Old; [|discriminate]. intro r. destruct (resume_more k (q :: ts) r ltac:(discriminate)) as [E|(_ & E & _)]; congruence.
  - clear Old IH. injection H as <-. destruct Hn' as ([|x a] & b & E & L); [|exfalso; injection E as -> ->; inversion Hd' as [|? ? K _]; subst; apply K, in_or_app; right; now left].
    injection E as <-. assert (Hk : k = KVfr /\ t_base q = F15_POINT).
    { unfold resume in Ek. destruct (t_base q); try discriminate Ek. destruct k; try discriminate Ek. now split. }
    destruct Hk as [-> Eq]. destruct ts as [|sl [|y ts]]; [| |cbn in L; lia].
    + exists [$"/"; $"N0450VFR"]. split; [apply simple_dec; vm_compute; reflexivity|]. cbn [app map].
      replace (resume KVfr _) with Resumes by (unfold resume; rewrite Eq; reflexivity). now apply rejoin_fine.
    + assert (Es : t_base sl = F15_SLASH) by (unfold resume in Ek; rewrite Eq in Ek; destruct (t_base sl); try discriminate Ek; reflexivity).
      exists [$"N0450VFR"]. split; [apply simple_dec; vm_compute; reflexivity|]. cbn [app map].
      replace (resume KVfr _) with Resumes by (unfold resume; rewrite Eq, Es; reflexivity). now apply rejoin_fine.
Qed.
Lemma mend_field ts u : NoDup ts -> near_end u ts -> diagnose ts = Report u 22 -> exists w, simple w /\ diagnose (ts ++ map tok w) = Fine.
Proof.
  destruct ts as [|t ts]; [discriminate|]. intros Hd Hn H. inversion Hd as [|? ? Ht Hd']; subst.
  assert (Down : In u ts -> near_end u ts).
  { intro Hin. destruct Hn as ([|x a] & b & E & L); [injection E as -> ->; now destruct Ht|]. injection E as _ ->. now exists a, b. }
  assert (Up : forall q, okl q -> diag q ts = Report u 22 -> In u ts) by (intros q Hq K; pose proof (in22 _ _ _ Hq K) as Q; destruct ts; [destruct Q|now right]).
  unfold diagnose in *. cbn [app]. destruct (t_base t); try discriminate H.
  - apply (mend ts (PText KVfr) u I I Hd'); [exact (Down (Up (PText KVfr) I H))|exact H].
  - destruct (levels t) as [|t' m'|] eqn:El; cbn [then_] in *; [|rewrite H in El; now destruct (levels22 t u)|discriminate H].
    destruct ts as [|x ts]; [discriminate H|]. exact (mend (x :: ts) PAdep u I I Hd' (Down (Up PAdep I H)) H).
Qed.

Section G.
Variable G : geodesic.
Lemma finished field w : simple w -> diagnose (field_tokens field ++ map tok w) = Fine -> field_tokens field <> [] -> begins_accepted G (element_texts field).
Proof.
  intros Hs Hf Hne. rewrite et_map. set (a := field_tokens field) in *. set (g := join_sp (map t_text a ++ w)).
  assert (Eg : element_texts g = map t_text a ++ w).
  { apply texts_join; [vm_compute; tauto|]. intros x Hx. apply in_app_or in Hx as [Hx|Hx]; [|now apply vocabulary_words, Hs].
    apply (texts_in f15_whitespace field). change (In x (element_texts field)). now rewrite et_map. }
  assert (Et : map t_text (field_tokens g) = map t_text (a ++ map tok w)).
  { rewrite <- et_map, Eg, map_app, map_map. cbn [t_text tok]. now rewrite map_id. }
  assert (B : by_text (a ++ map tok w)) by (apply by_text_app; [apply by_text_field|apply by_text_tok]).
  pose proof (same_verdict _ _ B (by_text_field g) (eq_sym Et)) as V. rewrite Hf in V. cbn [rverdict] in V.
  assert (Ev : diagnose (field_tokens g) = Fine) by (destruct (diagnose (field_tokens g)); [reflexivity|destruct V|destruct V]).
  assert (Gne : field_tokens g <> []).
  { intro K. rewrite K in Et. destruct a as [|x a']; [congruence|discriminate Et]. }
  destruct (fine_field G (3 * n_tokens g) g Gne ltac:(lia) Ev) as [s Hp]. exists g, s. split; [exact Hp|]. rewrite Eg. rewrite firstn_app, firstn_all, Nat.sub_diag. cbn. now rewrite app_nil_r.
Qed.
(** The position of a token near the end. *)
Lemma near_nth t ts : near_end t ts <-> exists i, nth_error ts i = Some t /\ length ts <= i + 2.
Proof.
  split.
  - intros (a & b & -> & L). exists (length a). split; [rewrite nth_error_app2, Nat.sub_diag by lia; reflexivity|rewrite app_length; cbn; lia].
  - intros (i & E & L). destruct (Viable.split_nth _ _ _ E) as [Es Ei]. exists (firstn i ts), (skipn (S i) ts). split; [exact Es|]. rewrite skipn_length. lia.
Qed.
Lemma opens_kin l l' : by_text l -> by_text l' -> map t_text l = map t_text l' -> NoDup l -> open_ended l -> open_ended l'.
Proof.
  intros B B' E Nd. pose proof (same_verdict l l' B B' E) as V. unfold open_ended. destruct (diagnose l) as [|t m|], (diagnose l') as [|u n|]; cbn [rverdict] in V; auto; try contradiction.
  destruct V as [[_ (i & Hi & Hj)] <-]. intros [H|[H K]]; [now left|]. right. split; [exact H|]. apply near_nth. exists i. split; [exact Hj|].
  assert (L : length l = length l') by (rewrite <- (map_length t_text l), <- (map_length t_text l'); now rewrite E).
  apply near_nth in K as (j & Ej & Lj). assert (i = j); [|lia]. rewrite NoDup_nth_error in Nd. apply Nd; [apply nth_error_Some; congruence|congruence].
Qed.
Theorem beginning_iff field : begins_accepted G (element_texts field) <-> open_ended (field_tokens field).
Proof.
  split.
  - intros (g & s & Hp & Ht).
    assert (Gne : field_tokens g <> []) by (intro K; apply accepted_sentence in Hp; rewrite K in Hp; destruct Hp as ([|? ?] & Hd & Hy); [discriminate Hd|]; destruct Hd as (Hd1 & Hd2 & _); destruct s0; try discriminate Hy; try discriminate Hd1; destruct txt; discriminate Hy).
    pose proof (first_error_field G _ g true s Gne Hp) as F.
    assert (Hf : diagnose (field_tokens g) = Fine) by (destruct (diagnose (field_tokens g)); [reflexivity|destruct F as [F _]; discriminate F|destruct F]).
    set (n := length (element_texts field)) in *. rewrite <- (firstn_skipn n (field_tokens g)) in Hf. apply begin_open in Hf.
    pose proof (by_text_field g) as B. pose proof (ft_nodup g) as Nd. rewrite <- (firstn_skipn n (field_tokens g)) in B, Nd. apply by_text_part in B as [B _].
    apply (opens_kin (firstn n (field_tokens g))); [exact B|apply by_text_field| | |exact Hf].
    + rewrite <- firstn_map, <- !et_map. exact Ht.
    + clear -Nd. induction (firstn n (field_tokens g)) as [|x l IH]; [constructor|]. cbn [app] in Nd. inversion Nd; subst. constructor; [intro K; apply H1, in_or_app; now left|now apply IH].
  - intro H. unfold open_ended in H. destruct (diagnose (field_tokens field)) as [|t m|] eqn:D; [| |destruct H].
    + rewrite et_map. apply (completed G field (field_tokens field) []); rewrite app_nil_r; [reflexivity|]. now rewrite D.
    + destruct H as [H|[-> Hn]]; [exact (incomplete G field t m D H)|].
      destruct (mend_field _ _ (ft_nodup field) Hn D) as (w & Hs & Hw). apply (finished field w Hs Hw). intro K. rewrite K in D. discriminate D.
Qed.
Theorem no_continuation field g depth s : ~ open_ended (field_tokens field) -> firstn (length (element_texts field)) (element_texts g) = element_texts field ->
  parse_field15 G depth g <> Ok true s.
Proof.
  intros Hn Ht Hp. apply Hn, beginning_iff. apply accepted_sentence in Hp. destruct (sentence_accepted G (3 * n_tokens g) g ltac:(lia) Hp) as [s' H']. exists g, s'. split; assumption.
Qed.
(** A test for message 22 about an element not near the end. *)
Lemma near_test t ts i : NoDup ts -> nth_error ts i = Some t -> i + 2 < length ts -> ~ near_end t ts.
Proof.
  intros Nd Hi L K. apply near_nth in K as (j & Hj & Lj). assert (i = j); [|lia]. rewrite NoDup_nth_error in Nd. apply Nd; [apply nth_error_Some; congruence|congruence].
Qed.
End G.
