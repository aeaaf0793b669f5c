(** * Summary: the one-line text of a record (lemmas behind PropsSummary). *)
From Coq Require Import ZArith NArith List Bool String Lia.
From Verif Require Import PyBase PyFloat Enums ErrorTable Tokenizer Ers Utils Parser SpecParser SpecReader SpecComplete ParserFacts CompleteFacts SpecSummary.
Import List ListNotations.
Local Open Scope list_scope.

Lemma words_blank s : words_of (32%N :: s) = words_of s.
Proof. reflexivity. Qed.
Lemma words_ne c s : is_blank c = false -> exists w ws, words_of (c :: s) = (c :: w) :: ws.
Proof. intro H. cbn [words_of]. rewrite H. destruct (words_of s) as [|w ws]; [eauto|]. destruct (starts_blank s); eauto. Qed.
Lemma words_app a b : words_of (a ++ 32%N :: b) = words_of a ++ words_of b.
Proof.
  induction a as [|c a IH]; [reflexivity|]. cbn [app words_of]. rewrite IH. destruct (is_blank c) eqn:E; [reflexivity|].
  destruct a as [|d a].
  - cbn [app words_of]. destruct (words_of b); reflexivity.
  - cbn [app starts_blank]. destruct (is_blank d) eqn:Ed.
    + destruct (words_of (d :: a)) as [|w ws]; cbn [app]; [destruct (words_of b); reflexivity|reflexivity].
    + destruct (words_ne d a Ed) as (w & ws & ->). reflexivity.
Qed.
Lemma words_end s : words_of (s ++ [32%N]) = words_of s.
Proof. rewrite words_app. cbn [words_of]. apply app_nil_r. Qed.
Lemma words_rstrip s : words_of (rstrip_spaces s) = words_of s.
Proof.
  unfold rstrip_spaces. rewrite <- (rev_involutive s) at 2. generalize (rev s). intro l. induction l as [|c l IH]; [reflexivity|]. cbn [lstrip_spaces].
  destruct (N.eqb c 32) eqn:E; [|reflexivity]. apply N.eqb_eq in E. subst. rewrite IH. cbn [rev]. symmetry. apply words_end.
Qed.
Lemma rstrip_ends s : forall t, rstrip_spaces s <> t ++ [32%N].
Proof.
  unfold rstrip_spaces. intros t H. apply (f_equal (@rev N)) in H. rewrite rev_involutive, rev_app_distr in H. cbn in H. revert H. generalize (rev t). induction (rev s) as [|c l IH]; intros l' H; cbn [lstrip_spaces] in H; [discriminate|].
  destruct (N.eqb c 32) eqn:E; [eauto|]. injection H as -> _. discriminate.
Qed.
Lemma summary r : words_of (unit_test_only r) =
  words_of (r_name r) ++ words_of (r_rules r) ++ words_of (r_speed r) ++ words_of (r_alt r) ++ words_of (r_break r) ++ words_of (r_err r).
Proof.
  unfold unit_test_only. rewrite words_rstrip. change ($" ") with [32%N]. cbn [app]. now rewrite !words_app.
Qed.
Lemma summary_ends r t : unit_test_only r <> t ++ [32%N].
Proof. apply rstrip_ends. Qed.
Section G.
Variable G : geodesic.
Lemma leg_err r rest : r_err (with_leg G r rest) = r_err r.
Proof. unfold with_leg. destruct (r_llv r); [|reflexivity]. now destruct (next_located rest). Qed.
Lemma legs_err l : Forall (fun r => r_err r = []) l -> Forall (fun r => r_err r = []) (with_legs G l).
Proof. induction 1; cbn [with_legs]; constructor; [now rewrite leg_err|assumption]. Qed.
Lemma summaries depth f b s : parse_field15 G depth f = Ok b s ->
  Forall (fun r => words_of (unit_test_only r) = words_of (r_name r) ++ words_of (r_rules r) ++ words_of (r_speed r) ++ words_of (r_alt r) ++ words_of (r_break r)) (e_recs (s_ers s)) /\
  Forall (fun x => words_of (unit_test_only x) = words_of (r_name x) ++ words_of (r_err x)) (e_errs (s_ers s)).
Proof.
  intro H. assert (K : Forall (fun r => r_err r = []) (e_recs (s_ers s)) /\ Forall (fun x => r_rules x = [] /\ r_speed x = [] /\ r_alt x = [] /\ r_break x = []) (e_errs (s_ers s))).
  { destruct (empty_or f) as [E|E].
    - destruct (parsed_empty G depth f b s H E) as [_ ->]. cbn [e_recs e_errs]. repeat constructor.
    - destruct (complete G depth f b s E H) as (l & e & _ & _ & ->). cbn [ers_of e_recs e_errs]. split.
      + apply legs_err. apply Forall_map. apply Forall_forall. intros i _. reflexivity.
      + apply Forall_map. apply Forall_forall. intros i _. now cbn. }
  destruct K as [K1 K2]. split.
  - eapply Forall_impl; [|exact K1]. intros r E. cbv beta in E. rewrite summary, E. cbn [words_of]. now rewrite app_nil_r.
  - eapply Forall_impl; [|exact K2]. intros r (E1 & E2 & E3 & E4). rewrite summary, E1, E2, E3, E4. reflexivity.
Qed.
End G.
