(** * Unambiguous: a token sequence has at most one derivation in the grammar of SpecGrammar. *)
From Coq Require Import ZArith NArith List Bool String Lia.
From Verif Require Import PyBase Enums Tokenizer SpecNum SpecParser SpecGrammar.
Import List ListNotations.
Local Open Scope list_scope.
Local Open Scope nat_scope.

Lemma section_unique k : forall txt rest txt' rest', section k txt rest -> section k txt' rest' -> txt ++ rest = txt' ++ rest' -> txt = txt'.
Proof.
  induction txt as [|t txt IH]; intros rest txt' rest' H H' E.
  - cbn [section] in H. subst rest. cbn [app] in E. symmetry in E. apply app_eq_nil in E as [-> _]. reflexivity.
  - destruct txt' as [|t' txt'].
    + cbn [section] in H'. subst rest'. discriminate.
    + cbn [app] in E. injection E as <- E. cbn [section] in H, H'. destruct H as [_ H], H' as [_ H']. f_equal.
      destruct (ends k (t_sub t)); [|exact (IH _ _ _ H H' E)]. rewrite <- E in H'.
      destruct (resume k (txt ++ rest)); [exact (IH _ _ _ H H' E)|congruence|contradiction].
Qed.
Lemma step_tokens c s r : proper c s r -> tokens_of s <> [].
Proof. destruct s; cbn [tokens_of]; try discriminate. intros [H _]. exact H. Qed.
Lemma yield_nil c ss : derives c ss -> yield ss = [] -> ss = [].
Proof.
  destruct ss as [|s r]; [reflexivity|]. cbn [derives]. intros (_ & P & _) Y. unfold yield in Y. cbn [flat_map] in Y.
  apply app_eq_nil in Y as [Y _]. now apply step_tokens in P.
Qed.
Lemma then_speed b ss ts : derives (XThenSpeed b) ss -> yield ss = ts -> exists sl t r, ts = sl :: t :: r /\ t_base t = F15_SPEED_ALTITUDE.
Proof.
  destruct ss as [|s r]; [discriminate|]. cbn [derives]. intros (F & P & _) <-. destruct s; try discriminate F. cbn [proper] in P.
  exists sl, t, (yield r). split; [reflexivity|tauto].
Qed.
Lemma then_vfr ss ts : derives XThenVfr ss -> yield ss = ts -> exists sl t r, ts = sl :: t :: r /\ t_base t = F15_SPEED_VFR.
Proof.
  destruct ss as [|s r]; [discriminate|]. cbn [derives]. intros (F & P & _) <-. destruct s; try discriminate F. cbn [proper] in P.
  exists sl, t, (yield r). split; [reflexivity|tauto].
Qed.

Theorem derives_unique : forall ss ss' c, derives c ss -> derives c ss' -> yield ss = yield ss' -> ss = ss'.
Proof.
  induction ss as [|s r IH]; intros ss' c D D' Y.
  - symmetry in Y. symmetry. exact (yield_nil _ _ D' Y).
  - destruct ss' as [|s' r']; [exact (yield_nil _ _ D Y)|].
    cbn [derives] in D, D'. destruct D as (F & P & D), D' as (F' & P' & D').
    change (yield (s :: r)) with (tokens_of s ++ yield r) in Y. change (yield (s' :: r')) with (tokens_of s' ++ yield r') in Y.
    assert (E : s = s'); [|subst s'; apply app_inv_head in Y; f_equal; exact (IH _ _ D D' Y)].
    destruct c as [| | | | | | |b|b|k|[| |]|b| |]; destruct s; try discriminate F; destruct s'; try discriminate F';
      cbn [tokens_of app proper] in *; try (injection Y; intros; subst);
      try reflexivity; try (decompose [and or] P; decompose [and or] P'; congruence);
      try (match goal with H : _ :: _ = yield ?r, K : context [match yield ?r with _ => _ end] |- _ => rewrite <- H in K; tauto end).
    (* text; a point before a speed/VFR after IFR *)
    all: try (match goal with H : yield ?r = _ :: _, K : context [match yield ?r with _ => _ end] |- _ => rewrite H in K; tauto end).
    + f_equal. exact (section_unique k _ _ _ _ (proj2 P) (proj2 P') Y).
    + destruct (then_speed _ _ _ D eq_refl) as (a1 & a2 & a3 & E1 & B1). destruct (then_vfr _ _ D' eq_refl) as (b1 & b2 & b3 & E2 & B2). congruence.
    + destruct (then_vfr _ _ D eq_refl) as (a1 & a2 & a3 & E1 & B1). destruct (then_speed _ _ _ D' eq_refl) as (b1 & b2 & b3 & E2 & B2). congruence.
Qed.
