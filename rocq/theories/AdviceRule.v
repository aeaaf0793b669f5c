(** * AdviceRule: the message about an incomplete change of rules to IFR (22), behind PropsAdvice. *)
From Coq Require Import ZArith NArith List Bool String Lia.
From Verif Require Import PyBase PyFloat Enums ErrorTable Tokenizer Ers Utils Parser SpecTokenizer TokenizerProofs SpecNum SpecParser SpecGrammar SpecDiagnosis.
From Verif Require Import ParserFacts Accept DiagFacts SpecViable Viable SpecAdvice Advice.
Import List ListNotations.
Local Open Scope list_scope.
Local Open Scope nat_scope.

Lemma value_22 p t r u : value_fault p t r = Report u 22 -> False.
Proof.
  intro H. assert (A : angles t = Report u 22 -> False) by (intro K; apply angle_msg in K; discriminate K).
  assert (B : levels t = Report u 22 -> False) by (unfold levels; destruct (unconvertible t); [discriminate|]; destruct (level_fault t); discriminate).
  unfold value_fault in H. destruct p as [| | | | |b| |sl b|sl|q|q|sk|sl|k|k|n]; try (destruct (t_base t); try discriminate H; exact (A H)); try exact (A H); try exact (B H).
  destruct k; try exact (A H). destruct r as [|x [|sp r]]; try exact (A H). destruct (base_eqb _ _); [discriminate H|exact (A H)].
Qed.
Lemma misplaced_22 p t : okl p -> misplaced p t <> 22%Z.
Proof.
  intro Ho. assert (S : stray_end t <> 22%Z) by (unfold stray_end; destruct (t_sub t); discriminate).
  unfold misplaced. destruct p; cbn [okl] in Ho; try (destruct Ho; subst; discriminate); destruct (t_base t); try discriminate; exact S.
Qed.
Lemma wrong_inv k l : resume k l = Wrong -> k = KVfr /\ exists q r, l = q :: r /\ t_base q = F15_POINT.
Proof.
  unfold resume. destruct l as [|q r]; [discriminate|]. destruct (t_base q) eqn:Eq; try discriminate. destruct k; try discriminate. intros _. split; [reflexivity|]. exists q, r. auto.
Qed.
Lemma resume_fixed k a t tl l : a <> [] -> t_base t = F15_POINT -> resume k (a ++ t :: l) = resume k (a ++ t :: tl).
Proof.
  intros N B. destruct a as [|x [|y [|z a]]]; [congruence| | |reflexivity]; cbn [app resume].
  - destruct (t_base x); try reflexivity; destruct k; try reflexivity; now rewrite B.
  - destruct (t_base x); try reflexivity; destruct k; reflexivity.
Qed.
Lemma value_fixed p x a t tl l : a <> [] -> value_fault p x (a ++ t :: l) = value_fault p x (a ++ t :: tl).
Proof.
  intro N. unfold value_fault. destruct p; try reflexivity. destruct k; try reflexivity. destruct a as [|y [|z a]]; [congruence| |]; reflexivity.
Qed.
(** The message is about the point after an IFR: with a speed after it, the section ends there. *)
Lemma rule_at : forall ts p t, okl p -> diag p ts = Report t 22 ->
  exists a tl, ts = a ++ t :: tl /\ a <> [] /\ t_base t = F15_POINT /\ forall l, resume KVfr (t :: l) = Resumes -> diag p (a ++ t :: l) = diag (PJoin KVfr) (t :: l).
Proof.
  induction ts as [|x ts IH]; intros p t Ho H; [destruct p; discriminate H|].
  assert (Gen : (forall k, p <> PText k) -> (if fits p x then then_ (value_fault p x ts) (diag (place_after p x) ts) else Report x (misplaced p x)) = Report t 22 ->
    exists a tl, x :: ts = a ++ t :: tl /\ a <> [] /\ t_base t = F15_POINT /\ forall l, resume KVfr (t :: l) = Resumes -> diag p (a ++ t :: l) = diag (PJoin KVfr) (t :: l)).
  { clear H. intros Np H. destruct (fits p x) eqn:F; [|exfalso; injection H as _ H; exact (misplaced_22 _ _ Ho H)].
    destruct (value_fault p x ts) as [|u n|] eqn:V; cbn [then_] in H; [|injection H as -> ->; destruct (value_22 _ _ _ _ V)|discriminate].
    destruct (IH _ _ (okl_after p x) H) as (a & tl & -> & Na & Bt & Hl). exists (x :: a), tl. split; [reflexivity|]. split; [discriminate|]. split; [exact Bt|]. intros l R.
    cbn [app]. rewrite <- (Hl l R). rewrite <- (value_fixed p x a t tl l Na) in V. cbn [diag]. destruct p; try (rewrite F, V; reflexivity). destruct (Np k eq_refl). }
  cbn [diag] in H. destruct p; try (apply Gen; [discriminate|exact H]). clear Gen.
  destruct (base_eqb (t_base x) F15_TOO_LONG) eqn:L; [discriminate H|].
  destruct (ends k (t_sub x)) eqn:E.
  - destruct (resume k ts) eqn:R.
    + destruct (IH _ _ Ho H) as (a & tl & -> & Na & Bt & Hl). exists (x :: a), tl. split; [reflexivity|]. split; [discriminate|]. split; [exact Bt|]. intros l Rl.
      cbn [app diag]. rewrite L, E, (resume_fixed k a t tl l Na Bt), R. exact (Hl l Rl).
    + destruct (IH (PJoin k) _ Logic.I H) as (a & tl & -> & Na & Bt & Hl). exists (x :: a), tl. split; [reflexivity|]. split; [discriminate|]. split; [exact Bt|]. intros l Rl.
      cbn [app]. rewrite <- (Hl l Rl). cbn [diag]. rewrite L, E, (resume_fixed k a t tl l Na Bt), R. reflexivity.
    + destruct (wrong_inv _ _ R) as (-> & q & r & -> & Bq). injection H as ->. exists [x], r. split; [reflexivity|]. split; [discriminate|]. split; [exact Bq|]. intros l Rl.
      cbn [app]. cbn [diag]. rewrite L, E, Rl. reflexivity.
  - destruct (IH _ _ Ho H) as (a & tl & -> & Na & Bt & Hl). exists (x :: a), tl. split; [reflexivity|]. split; [discriminate|]. split; [exact Bt|]. intros l Rl.
    cbn [app]. rewrite <- (Hl l Rl). cbn [diag]. rewrite L, E. reflexivity.
Qed.
Definition a_change (w : pstr) : Prop := a_speed w \/ of_type F15_SPEED_VFR w.
Lemma resumes_now t w : t_base t = F15_POINT -> a_change w -> resume KVfr (t :: map element [$"/"; w]) = Resumes.
Proof. intros B H. cbn [map resume]. rewrite B, slash_element. destruct H as [[H _]|H]; unfold of_type in H; rewrite H; reflexivity. Qed.
Lemma join_fine t w : sound t -> a_change w -> diag (PJoin KVfr) (t :: map element [$"/"; w]) = Fine.
Proof.
  intros (A & _) H. cbn [map diag]. change (fits (PJoin KVfr) t) with true. cbv iota.
  assert (V : value_fault (PJoin KVfr) t [element ($"/"); element w] = Fine) by (unfold value_fault, angles; rewrite A; destruct (base_eqb _ _); reflexivity).
  rewrite V. cbn [then_ place_after]. unfold fits at 1, value_fault at 1, place_after at 1. rewrite slash_element. cbn [then_ place_after].
  unfold fits, value_fault, place_after, levels. destruct H as [[H (_ & S1 & S2)]|H]; unfold of_type in H; rewrite H; [rewrite S1, S2; reflexivity|].
  unfold unconvertible, level_fault. rewrite H. reflexivity.
Qed.
Lemma rule_completed a t w : diagnose a = Report t 22 -> sound t -> a_change w ->
  exists b tl, a = b ++ t :: tl /\ diagnose (b ++ t :: map element [$"/"; w]) = Fine.
Proof.
  intros H St Hw. assert (Deep : forall p r, okl p -> diag p r = Report t 22 -> exists b tl, r = b ++ t :: tl /\ b <> [] /\ diag p (b ++ t :: map element [$"/"; w]) = Fine).
  { intros p r Ho K. destruct (rule_at _ _ _ Ho K) as (b & tl & -> & Nb & Bt & Hl). exists b, tl. split; [reflexivity|]. split; [exact Nb|]. rewrite (Hl _ (resumes_now t w Bt Hw)). now apply join_fine. }
  destruct a as [|x a]; [discriminate H|]. unfold diagnose in H. destruct (t_base x) eqn:Bx; try discriminate H.
  - destruct (Deep (PText KVfr) a Logic.I H) as (b & tl & -> & _ & K). exists (x :: b), tl. split; [reflexivity|]. cbn [app]. unfold diagnose. rewrite Bx. exact K.
  - destruct (levels x) as [|u n|] eqn:Lx; cbn [then_] in H; [| |discriminate].
    + destruct a as [|y a]; [discriminate H|]. destruct (Deep PAdep (y :: a) Logic.I H) as (b & tl & E & Nb & K). exists (x :: b), tl. rewrite E. split; [reflexivity|].
      cbn [app]. unfold diagnose. rewrite Bx, Lx. cbn [then_]. destruct b as [|z b]; [congruence|]. exact K.
    + exfalso. unfold levels in Lx. destruct (unconvertible x); [discriminate|]. destruct (level_fault x); [|discriminate]. injection Lx as <- <-. discriminate H.
Qed.
Theorem rule_change_completed (G : geodesic) field g i t w : diagnose (field_tokens field) = Report t 22 -> nth_error (field_tokens field) i = Some t -> sound t -> a_change w ->
  element_texts g = firstn (S i) (element_texts field) ++ [$"/"; w] ->
  exists s, parse_field15 G (3 * n_tokens g) g = Ok true s.
Proof.
  intros Hd Hi St Hw Ht. destruct (rule_completed _ _ _ Hd St Hw) as (b & tl & E & Hf). pose proof (ft_nodup field) as Nd.
  assert (Li : i = length b).
  { pose proof Hi as Hi'. assert (Hb : nth_error (field_tokens field) (length b) = Some t) by (rewrite E, nth_error_app2, Nat.sub_diag by lia; reflexivity).
    rewrite <- Hb in Hi'. apply (proj1 (NoDup_nth_error _) Nd); [|exact Hi']. apply nth_error_Some. rewrite Hi. discriminate. }
  subst i. set (h := b ++ t :: map element [$"/"; w]) in *. change (map element [$"/"; w]) with (map tok [$"/"; w]) in h.
  assert (Eh : h = (b ++ [t]) ++ map tok [$"/"; w]) by (unfold h; rewrite <- app_assoc; reflexivity).
  assert (Bh : by_text h).
  { pose proof (by_text_field field) as K. rewrite E in K. change (t :: tl) with ([t] ++ tl) in K. rewrite app_assoc in K. destruct (by_text_part _ _ K) as [K1 _]. rewrite Eh. apply by_text_app; [exact K1|apply by_text_tok]. }
  assert (Et : map t_text h = map t_text (field_tokens g)).
  { rewrite <- et_map, Ht, et_map, E, Eh. change (t :: tl) with ([t] ++ tl). rewrite app_assoc, firstn_map, firstn_app.
    replace (S (length b) - length (b ++ [t])) with 0 by (rewrite app_length; cbn [length]; lia). rewrite firstn_all2 by (rewrite app_length; cbn [length]; lia). cbn [firstn]. rewrite app_nil_r, map_app. f_equal. }
  pose proof (same_verdict _ _ Bh (by_text_field g) Et) as V. rewrite Hf in V. cbn [rverdict] in V.
  assert (Ev : diagnose (field_tokens g) = Fine) by (destruct (diagnose (field_tokens g)); [reflexivity|destruct V|destruct V]).
  apply fine_field; [|lia|exact Ev]. intro K. rewrite K in Et. unfold h in Et. destruct b; discriminate Et.
Qed.
