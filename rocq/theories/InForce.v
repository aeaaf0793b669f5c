(** * InForce: the speed and level in force are themselves an element (lemmas behind PropsSplit). *)
From Coq Require Import ZArith NArith List Bool String Lia.
From Coq Require Import ZifyBool ZifyNat ZifyN.
From Verif Require Import PyBase PyFloat Enums ErrorTable Regex SpecRegex RegexProofs SyntaxTable Syntax SyntaxProofs Tokenizer Ers Utils Parser.
From Verif Require Import SpecNum ParserPrims PerfEq SpecParser SpecGrammar SpecAccept SpecRemoval.
Import List ListNotations.
Local Open Scope list_scope.
Local Open Scope nat_scope.

Definition a_speed (x : pstr) : Prop := some_shape (expand speed) x.
Definition a_level (y : pstr) : Prop := some_shape (expand level) y.
Ltac shapes H := let sh := fresh "sh" in let Hi := fresh "Hi" in destruct H as (sh & Hi & H); vm_compute in Hi; repeat (destruct Hi as [<-|Hi]); try contradiction.
Ltac chars H := repeat match type of H with shape_in _ _ => inversion H; clear H; subst | Forall2 _ (_ :: _) _ => inversion H; clear H; subst | Forall2 _ [] _ => inversion H; clear H; subst end.
Lemma char_is c x : in_ranges c [(x, x)] = true -> c = x.
Proof. intro H. apply in_ranges_spec in H as (a & b & [K|[]] & H1 & H2). injection K as <- <-. now apply N.le_antisymm. Qed.
Lemma speed_fits x z : a_speed x -> speed_part (x ++ z) = x /\ after_speed (x ++ z) = z /\ length x <= 5.
Proof.
  intro H. shapes H; inversion H as [|? c ? x0 Hc H0]; subst; clear H; apply char_is in Hc; subst c;
    repeat match goal with H0 : Forall2 _ _ _ |- _ => inversion H0; clear H0; subst end; repeat split; cbn; lia.
Qed.
Lemma level_fits y z : a_level y -> firstn (level_len (y ++ z)) (y ++ z) = y /\ length y <= 5.
Proof.
  intro H. shapes H; inversion H as [|? c ? x0 Hc H0]; subst; clear H; apply char_is in Hc; subst c;
    repeat match goal with H0 : Forall2 _ _ _ |- _ => inversion H0; clear H0; subst end; repeat split; cbn; lia.
Qed.
Lemma speed_level x y : a_speed x -> a_level y -> fst (classify (x ++ y)) = F15_SPEED_ALTITUDE /\ speed_part (x ++ y) = x /\ first_level (x ++ y) = y.
Proof.
  intros Hx Hy. destruct (speed_fits x y Hx) as (E1 & E2 & L1). destruct (level_fits y [] Hy) as (E3 & L2). rewrite app_nil_r in E3. split; [|split; [exact E1|]].
  - unfold classify. replace (max_token_length <? zlen (x ++ y))%Z with false.
    + assert (I : forall s, fst (get_token_type s) = F15_SPEED_ALTITUDE <-> re_in (speed +++ level) s) by (apply base_iff'; vm_compute; reflexivity).
      apply I. apply lang_seq; [apply (expand_spec speed eq_refl)|apply (expand_spec level eq_refl)]; assumption.
    + symmetry. apply Z.ltb_ge. unfold zlen. rewrite app_length. change max_token_length with 20%Z || change max_token_length with 30%Z || idtac. unfold max_token_length. lia.
  - unfold first_level. rewrite E2. exact E3.
Qed.
Definition pieces_ok (sb : sub_type) (sh : shape) : bool :=
  existsb (fun a => existsb (fun b => (length a + length b <=? length sh) && shape_incl (firstn (length a) sh) a && shape_incl (firstn (length b) (skipn (length a) sh)) b) (expand level)) (expand speed).
Definition vfr_ok' (sb : sub_type) (sh : shape) : bool :=
  existsb (fun a => (length a <=? length sh) && shape_incl (firstn (length a) sh) a) (expand speed).
Lemma pieces_text sb sh s : pieces_ok sb sh = true -> shape_in sh s -> exists x y z, s = x ++ y ++ z /\ a_speed x /\ a_level y.
Proof.
  intros H Hs. apply existsb_exists in H as (a & Ia & H). apply existsb_exists in H as (b & Ib & H). apply andb_true_iff in H as [H H2]. apply andb_true_iff in H as [H0 H1].
  exists (firstn (length a) s), (firstn (length b) (skipn (length a) s)), (skipn (length b) (skipn (length a) s)). split; [now rewrite !firstn_skipn|]. split.
  - exists a. split; [exact Ia|]. apply (shape_incl_sound _ _ _ H1). now apply Forall2_firstn.
  - exists b. split; [exact Ib|]. apply (shape_incl_sound _ _ _ H2). now apply Forall2_firstn, Forall2_skipn.
Qed.
Lemma vfr_text sb sh s : vfr_ok' sb sh = true -> shape_in sh s -> exists x z, s = x ++ z /\ a_speed x.
Proof.
  intros H Hs. apply existsb_exists in H as (a & Ia & H). apply andb_true_iff in H as [H0 H1].
  exists (firstn (length a) s), (skipn (length a) s). split; [now rewrite firstn_skipn|]. exists a. split; [exact Ia|]. apply (shape_incl_sound _ _ _ H1). now apply Forall2_firstn.
Qed.
Lemma f050 : a_level ($"F050").
Proof. apply (expand_spec level eq_refl). apply lang_alt_l. change ($"F050") with ([70%N] ++ [48%N; 53%N; 48%N]). apply lang_seq.
  - apply (lang_class _ 70 70); [now left|lia|lia].
  - change [48%N; 53%N; 48%N] with (concat [[48%N]; [53%N]; [48%N]]). apply lang_rep; [cbn; lia|]. intros s [<-|[<-|[<-|[]]]]; apply (lang_class _ 48 57); try (now left); lia.
Qed.
(** The speed and level of a modifier make up an element. *)
Lemma modifier_text t ro m : wt t -> modifier (t, ro) = Some m -> fst (classify (fst m ++ snd m)) = F15_SPEED_ALTITUDE /\ speed_part (fst m ++ snd m) = fst m /\ first_level (fst m ++ snd m) = snd m.
Proof.
  intros W M. destruct ro; [|discriminate M..]. unfold modifier in M. cbn [fst snd] in M.
  assert (K : forall b, b <> F15_UNKNOWN -> b <> F15_TOO_LONG -> all_rows b pieces_ok = true -> t_base t = b -> m = (speed_part (t_text t), first_level (t_text t)) ->
    fst (classify (fst m ++ snd m)) = F15_SPEED_ALTITUDE /\ speed_part (fst m ++ snd m) = fst m /\ first_level (fst m ++ snd m) = snd m).
  { intros b N1 N2 R B ->. destruct (all_rows_spec b _ t N1 N2 W B R) as (sh & Hs & H). destruct (pieces_text _ _ _ H Hs) as (x & y & z & E & Hx & Hy).
    cbn [fst snd]. destruct (speed_fits x (y ++ z) Hx) as (E1 & E2 & _). destruct (level_fits y z Hy) as (E3 & _).
    assert (E4 : first_level (t_text t) = y) by (unfold first_level; now rewrite E, E2). rewrite E4, E, E1. now apply speed_level. }
  destruct (t_base t) eqn:B; try discriminate M.
  - injection M as <-. cbn [fst snd]. assert (R : all_rows F15_SPEED_VFR vfr_ok' = true) by (vm_compute; reflexivity).
    destruct (all_rows_spec F15_SPEED_VFR _ t ltac:(discriminate) ltac:(discriminate) W B R) as (sh & Hs & H). destruct (vfr_text _ _ _ H Hs) as (x & z & E & Hx).
    rewrite E. destruct (speed_fits x z Hx) as (-> & _). apply speed_level; [exact Hx|exact f050].
  - injection M as <-. apply (K F15_SPEED_ALTITUDE); [discriminate|discriminate|vm_compute; reflexivity|reflexivity|reflexivity].
  - injection M as <-. apply (K F15_SPEED_ALTITUDE_ALTITUDE); [discriminate|discriminate|vm_compute; reflexivity|reflexivity|reflexivity].
  - injection M as <-. apply (K F15_SPEED_ALTITUDE_PLUS); [discriminate|discriminate|vm_compute; reflexivity|reflexivity|reflexivity].
Qed.
