(** * IntText: what int() reads (lemmas behind PropsSetters). *)
From Coq Require Import ZArith NArith List Bool Lia ZifyBool ZifyNat ZifyN.
From Verif Require Import PyBase Ers Setters SpecNum SpecAccept SpecSetters SettersFacts.
Import List ListNotations.
Local Open Scope list_scope.
Local Open Scope Z_scope.

Lemma digit_iff c : is_digit c = true <-> digit_char c.
Proof. unfold is_digit, digit_char. lia. Qed.
Lemma space_iff c : is_py_space c = true <-> space_char c.
Proof. unfold is_py_space, space_char. lia. Qed.
(** ** Digits *)
Definition from (acc : Z) (d : pstr) : Z := fold_left (fun a c => 10 * a + (Z.of_N c - 48)) d acc.
Lemma tail_reads n : forall acc s z, (length s <= n)%nat -> int_tail acc s = Some z ->
  s = [] /\ z = acc \/ exists d, (digits_text s d \/ exists s', s = 95%N :: s' /\ digits_text s' d) /\ z = from acc d.
Proof.
  induction n as [|n IH]; intros acc s z L H; [destruct s; [|cbn in L; lia]; injection H as <-; now left|].
  destruct s as [|c r]; [injection H as <-; now left|right]. cbn [int_tail] in H. cbn [length] in L. destruct (is_digit c) eqn:D.
  - apply digit_iff in D. destruct (IH _ r z ltac:(lia) H) as [[-> ->]|(d & [T|(s' & -> & T)] & ->)].
    + exists [c]. split; [left; now constructor|reflexivity].
    + exists (c :: d). split; [left; now constructor|reflexivity].
    + exists (c :: d). split; [left; now constructor|reflexivity].
  - destruct (N.eqb c 95) eqn:U; [|discriminate]. apply N.eqb_eq in U. subst c. destruct r as [|c r]; [discriminate|]. destruct (is_digit c) eqn:D'; [|discriminate]. apply digit_iff in D'. cbn [length] in L.
    destruct (IH _ r z ltac:(lia) H) as [[-> ->]|(d & [T|(s' & -> & T)] & ->)].
    + exists [c]. split; [right; exists [c]; split; [reflexivity|now constructor]|reflexivity].
    + exists (c :: d). split; [right; exists (c :: r); split; [reflexivity|now constructor]|reflexivity].
    + exists (c :: d). split; [right; eexists; split; [reflexivity|now constructor]|reflexivity].
Qed.
Lemma tail_of s d : digits_text s d -> forall acc, int_tail acc s = Some (from acc d).
Proof.
  induction 1 as [c D|c s d D T IH|c s d D T IH]; intro acc; pose proof (proj2 (digit_iff c) D) as E; cbn [int_tail]; rewrite E; [reflexivity|apply IH|].
  change (is_digit 95) with false. cbn [N.eqb Pos.eqb]. destruct T as [x Dx|x t e Dx T|x t e Dx T]; pose proof (proj2 (digit_iff x) Dx) as F; rewrite F; specialize (IH (10 * acc + digit_val c)); cbn [int_tail] in IH; rewrite F in IH; exact IH.
Qed.
Lemma unsigned_iff s z : int_unsigned s = Some z <-> exists d, digits_text s d /\ z = decimal d.
Proof.
  split.
  - destruct s as [|c r]; [discriminate|]. cbn [int_unsigned]. destruct (is_digit c) eqn:D; [|discriminate]. intro H. apply digit_iff in D. destruct (tail_reads _ _ _ _ (le_n _) H) as [[-> ->]|(d & [T|(s' & -> & T)] & ->)].
    + exists [c]. split; [now constructor|reflexivity].
    + exists (c :: d). split; [now constructor|reflexivity].
    + exists (c :: d). split; [now constructor|reflexivity].
  - intros (d & T & ->). pose proof (tail_of s d T 0) as H. destruct T as [c D|c s d D T|c s d D T]; pose proof (proj2 (digit_iff c) D) as E; cbn [int_tail] in H; rewrite E in H; cbn [int_unsigned]; rewrite E; exact H.
Qed.
(** ** White space *)
Definition no_space_first (s : pstr) : Prop := match s with c :: _ => is_py_space c = false | [] => True end.
Lemma strip_l_parts s : exists a, s = a ++ strip_l s /\ Forall space_char a /\ no_space_first (strip_l s).
Proof.
  induction s as [|c s (a & E & F & N)]; [exists []; repeat split; constructor|]. cbn [strip_l]. destruct (is_py_space c) eqn:Sp; [|exists []; repeat split; [constructor|exact Sp]].
  exists (c :: a). split; [cbn [app]; now rewrite <- E|]. split; [constructor; [now apply space_iff|exact F]|exact N].
Qed.
Lemma strip_l_of a s : Forall space_char a -> no_space_first s -> strip_l (a ++ s) = s.
Proof.
  induction 1 as [|c a Sc F IH]; intro N; [destruct s as [|c s]; [reflexivity|]; cbn [app strip_l]; cbn in N; now rewrite N|]. cbn [app strip_l]. rewrite (proj2 (space_iff c) Sc). now apply IH.
Qed.
Lemma strip_parts s : exists a b, s = a ++ py_strip s ++ b /\ Forall space_char a /\ Forall space_char b.
Proof.
  unfold py_strip. destruct (strip_l_parts s) as (a & E & F & _). destruct (strip_l_parts (rev (strip_l s))) as (b & E' & F' & _). exists a, (rev b). split; [|split; [exact F|]].
  - rewrite E at 1. f_equal. rewrite <- rev_app_distr, <- E'. now rewrite rev_involutive.
  - apply Forall_forall. intros c Hc. apply in_rev in Hc. rewrite Forall_forall in F'. auto.
Qed.
Lemma strip_of a m b : Forall space_char a -> Forall space_char b -> m <> [] -> no_space_first m -> no_space_first (rev m) -> py_strip (a ++ m ++ b) = m.
Proof.
  intros A B M N R. unfold py_strip. rewrite strip_l_of; [|exact A|destruct m; [now destruct M|exact N]]. rewrite rev_app_distr, strip_l_of; [apply rev_involutive| |exact R]. apply Forall_forall. intros c Hc. apply in_rev in Hc. rewrite Forall_forall in B. auto.
Qed.
Lemma digits_ends s d : digits_text s d -> no_space_first s /\ exists c r, rev s = c :: r /\ digit_char c.
Proof.
  assert (X : forall c, digit_char c -> is_py_space c = false) by (intros c D; unfold digit_char in D; unfold is_py_space; lia).
  induction 1 as [c D|c s d D T (_ & x & r & E & Dx)|c s d D T (_ & x & r & E & Dx)]; (split; [now apply X|]).
  - exists c, []. auto.
  - exists x, (r ++ [c]). cbn [rev]. now rewrite E.
  - exists x, ((r ++ [95%N]) ++ [c]). cbn [rev]. now rewrite E.
Qed.
Lemma int_iff s z : py_int s = Some z <-> int_text s z.
Proof.
  split.
  - intro H. destruct (strip_parts s) as (a & b & E & A & B). unfold py_int in H. unfold int_text. rewrite E. remember (py_strip s) as m eqn:Em. clear Em E s.
    assert (U : forall sign u d, m = sign ++ u -> digits_text u d -> ((sign = [] \/ sign = [43%N]) /\ z = decimal d \/ sign = [45%N] /\ z = - decimal d) ->
      exists a0 sign u b0 d, a ++ m ++ b = a0 ++ sign ++ u ++ b0 /\ Forall space_char a0 /\ Forall space_char b0 /\ digits_text u d /\ ((sign = [] \/ sign = [43%N]) /\ z = decimal d \/ sign = [45%N] /\ z = - decimal d)).
    { intros sign u d -> T K. exists a, sign, u, b, d. rewrite <- app_assoc. repeat split; auto. }
    assert (P : int_unsigned m = Some z -> exists a0 sign u b0 d, a ++ m ++ b = a0 ++ sign ++ u ++ b0 /\ Forall space_char a0 /\ Forall space_char b0 /\ digits_text u d /\ ((sign = [] \/ sign = [43%N]) /\ z = decimal d \/ sign = [45%N] /\ z = - decimal d)).
    { intro K. apply unsigned_iff in K as (d & T & ->). apply (U [] m d); auto. }
    destruct m as [|c r]; [now apply P|]. destruct (N.eq_dec c 43) as [->|N1].
    + apply unsigned_iff in H as (d & T & ->). apply (U [43%N] r d); auto.
    + destruct (N.eq_dec c 45) as [->|N2].
      * destruct (int_unsigned r) as [v|] eqn:V; [|discriminate]. injection H as <-. apply unsigned_iff in V as (d & T & ->). apply (U [45%N] r d); auto.
      * apply P. revert H. clear - N1 N2. do 2 (destruct c as [|c]; [auto|]; repeat (destruct c as [c|c|]; auto; try (now destruct N1); try (now destruct N2))).
  - intros (a & sign & u & b & d & -> & A & B & T & K). destruct (digits_ends u d T) as (N & c & r & R & D).
    assert (S : is_py_space c = false) by (unfold digit_char in D; unfold is_py_space; lia).
    assert (St : py_strip (a ++ (sign ++ u) ++ b) = sign ++ u).
    { apply strip_of; [exact A|exact B| | |].
      - intro X. apply app_eq_nil in X as [_ X]. subst u. discriminate.
      - destruct K as [[[->| ->] _]|[-> _]]; [exact N|reflexivity|reflexivity].
      - rewrite rev_app_distr, R. exact S. }
    unfold py_int. rewrite app_assoc in St. rewrite <- !app_assoc in St. rewrite St. destruct K as [[[->| ->] ->]|[-> ->]].
    + cbn [app]. assert (V : int_unsigned u = Some (decimal d)) by (apply unsigned_iff; eauto). destruct u as [|x u]; [exact V|]. assert (Dx : digit_char x) by (inversion T; auto). unfold digit_char in Dx.
      assert (x <> 43%N) by lia. assert (x <> 45%N) by lia. clear - V H H0. revert V. do 2 (destruct x as [|x]; [auto|]; repeat (destruct x as [x|x|]; auto; try (now destruct H); try (now destruct H0))).
    + cbn [app]. apply unsigned_iff. eauto.
    + cbn [app]. rewrite (proj2 (unsigned_iff u (decimal d))); [reflexivity|eauto].
Qed.
(** ** Stays *)
Lemma slice_two (v : pstr) : slice v (Some 0) (Some 2) = firstn 2 v.
Proof.
  destruct v as [|a [|b v]]; [reflexivity|reflexivity|]. unfold slice. assert (N : 2 <= zlen (a :: b :: v)) by (unfold zlen; cbn [length]; lia). revert N. generalize (zlen (a :: b :: v)). intros n N.
  replace (slice_bound n 0) with 0 by (unfold slice_bound; cbn [Z.ltb Z.compare]; lia). replace (slice_bound n 2) with 2 by (unfold slice_bound; cbn [Z.ltb Z.compare]; lia). reflexivity.
Qed.
Lemma slice_rest (v : pstr) : slice v (Some 2) None = skipn 2 v.
Proof.
  destruct v as [|a [|b v]]; [reflexivity|reflexivity|]. unfold slice. assert (N : zlen (a :: b :: v) = 2 + zlen v) by (unfold zlen; cbn [length]; lia). assert (P : 0 <= zlen v) by (unfold zlen; lia). rewrite N.
  replace (slice_bound (2 + zlen v) 2) with 2 by (unfold slice_bound; cbn [Z.ltb Z.compare]; lia). replace (2 + zlen v - 2) with (zlen v) by lia. change (Z.to_nat 2) with 2%nat. cbn [skipn]. unfold zlen. rewrite Nat2Z.id. apply firstn_all.
Qed.
Lemma stay_iff v z : given_Stay (SetStay v) = Some z <-> stay_text v z.
Proof.
  cbn [given_Stay]. rewrite slice_two, slice_rest. unfold stay_text. split.
  - destruct (py_int (firstn 2 v)) as [h|] eqn:H; [|discriminate]. destruct (py_int (skipn 2 v)) as [m|] eqn:M; [|discriminate]. intro E. injection E as <-. exists h, m. rewrite <- !int_iff. auto.
  - intros (h & m & H & M & ->). apply int_iff in H, M. now rewrite H, M.
Qed.
Lemma stay_kept r v z : (stay_text v z -> r_stay (after_calls [SetStay v] r) = z) /\ ((forall z, ~ stay_text v z) -> r_stay (after_calls [SetStay v] r) = r_stay r).
Proof.
  pose proof (record_history [SetStay v] r) as H. repeat match type of H with _ /\ _ => let A := fresh in destruct H as [A H] end.
  match goal with A : r_stay _ = _ |- _ => rewrite A end. unfold latest. cbn [last_some]. split.
  - intro T. apply stay_iff in T. now rewrite T.
  - intro T. destruct (given_Stay (SetStay v)) as [z'|] eqn:E; [|reflexivity]. apply stay_iff in E. now apply T in E.
Qed.
