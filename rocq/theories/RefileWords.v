(** * RefileWords: the words of a field written from records (lemmas behind PropsRefile). *)
From Coq Require Import ZArith NArith List Bool String Lia.
From Coq Require Import ZifyBool ZifyNat ZifyN.
From Verif Require Import PyBase PyFloat Enums ErrorTable Regex SpecRegex RegexProofs SyntaxTable Syntax SyntaxProofs Tokenizer Ers Utils Parser.
From Verif Require Import SpecTokenizer TokenizerProofs SpecNum ParserPrims PerfEq PointEq Trace SpecParser ParserInv SpecGrammar GrammarSem Grammar SpecAccept Describe AcceptFacts SpecViable Viable SpecRemoval Removal Split InForce SpecRefile.
Import List ListNotations.
Local Open Scope list_scope.
Local Open Scope nat_scope.

(** ** Words *)
Definition words (ws : list pstr) : list pstr := flat_map element_texts ws.
Lemma words_app a b : words (a ++ b) = words a ++ words b.
Proof. apply flat_map_app. Qed.
Lemma et_nil : element_texts [] = []. Proof. reflexivity. Qed.
Lemma et_joined : forall ws, element_texts (joined ws) = words ws.
Proof.
  induction ws as [|w [|x ws] IH]; [reflexivity|cbn [joined words flat_map]; now rewrite app_nil_r|].
  change (joined (w :: x :: ws)) with (w ++ 32%N :: joined (x :: ws)). unfold element_texts in *. rewrite texts_blank; [|vm_compute; tauto|discriminate].
  rewrite IH. reflexivity.
Qed.
Lemma words_filter ws : words (filter (fun w => negb (nil_b w)) ws) = words ws.
Proof. induction ws as [|[|c w] ws IH]; [reflexivity|exact IH|]. cbn [filter nil_b negb words flat_map]. f_equal. exact IH. Qed.
(** A token whose text is one element. *)
Definition one (w : pstr) : Prop := element_texts w = [w].
Definition tok_ok (t : token) : Prop := wt t /\ one (t_text t).
Lemma one_ne w : one w -> w <> []. Proof. intros H ->. discriminate H. Qed.
Lemma one_in f x : In x (element_texts f) -> one x.
Proof.
  intro H. apply texts_in in H as [N [[S ->]|K]]; [reflexivity|]. unfold one, element_texts. now apply texts_word.
Qed.
Lemma field_ok f : Forall tok_ok (field_tokens f).
Proof.
  apply Forall_forall. intros t Ht. split; [symmetry; exact (ft_typed f t Ht)|]. apply (one_in f). rewrite et_map. now apply in_map.
Qed.
Definition clean (w : pstr) : Prop := w <> [] /\ forallb (fun c => negb (char_in c f15_whitespace)) w = true.
Lemma clean_one w : clean w -> one w.
Proof.
  intros [N H]. unfold one, element_texts. apply texts_word; [exact N|]. intros c Hc K. rewrite forallb_forall in H. specialize (H c Hc).
  apply (proj2 (char_in_spec c f15_whitespace)) in K. rewrite K in H. discriminate.
Qed.
Lemma clean_app a b : clean a -> clean b -> clean (a ++ b).
Proof. intros [Na Ha] [_ Hb]. split; [destruct a; [contradiction|discriminate]|]. now rewrite forallb_app, Ha, Hb. Qed.
Lemma clean_shape sh w : sh <> [] -> shape_incl sh (map (fun _ => [(48, 57); (65, 90)]%N) sh) = true -> shape_in sh w -> clean w.
Proof.
  intros N H Hs. pose proof (shape_incl_sound _ _ _ H Hs) as K. split.
  - destruct K; [destruct sh; [contradiction|discriminate]|discriminate].
  - clear -K. assert (A : forall c, in_ranges c [(48, 57); (65, 90)]%N = true -> char_in c f15_whitespace = false).
    { intros c Hc. destruct (char_in c f15_whitespace) eqn:E; [|reflexivity]. exfalso. apply char_in_spec in E. vm_compute in E. unfold in_ranges in Hc. cbn in Hc. repeat (destruct E as [<-|E]; [discriminate Hc|]). exact E. }
    remember (map _ sh) as m eqn:Em. revert sh Em. induction K as [|rs c m s Hc K IH]; intros [|x sh] Em; try discriminate Em; [reflexivity|]. cbn [map] in Em. injection Em as -> Em. cbn [forallb].
    rewrite (A c Hc). cbn. exact (IH sh Em).
Qed.
Lemma speed_clean x : a_speed x -> clean x.
Proof. intros (sh & Hi & H). vm_compute in Hi. repeat (destruct Hi as [<-|Hi]; [apply (clean_shape _ x) in H; [exact H|discriminate|vm_compute; reflexivity]|]). destruct Hi. Qed.
Lemma level_clean x : a_level x -> clean x.
Proof. intros (sh & Hi & H). vm_compute in Hi. repeat (destruct Hi as [<-|Hi]; [apply (clean_shape _ x) in H; [exact H|discriminate|vm_compute; reflexivity]|]). destruct Hi. Qed.
Lemma first_ok w : one w -> tok_ok (first_token w).
Proof. intro H. split; [apply first_wt|exact H]. Qed.

(** ** Texts of some elements *)
Definition is_text (w : pstr) (sb : sub_type) (sh : shape) : bool := shape_incl sh (map (fun c => [(c, c)]) w).
Lemma lit_text w s : shape_in (map (fun c => [(c, c)]) w) s -> s = w.
Proof.
  remember (map _ w) as m eqn:Em. intro H. revert w Em. induction H as [|rs c m s Hc H IH]; intros [|x w] Em; try discriminate Em; [reflexivity|].
  cbn [map] in Em. injection Em as -> Em. rewrite (IH w Em). f_equal. now apply one_char.
Qed.
Lemma text_is b w t : b <> F15_UNKNOWN -> b <> F15_TOO_LONG -> all_rows b (is_text w) = true -> wt t -> t_base t = b -> t_text t = w.
Proof.
  intros N1 N2 R W B. destruct (all_rows_spec b _ t N1 N2 W B R) as (sh & Hs & K). apply lit_text. exact (shape_incl_sound _ _ _ K Hs).
Qed.
Lemma slash_text t : wt t -> t_base t = F15_SLASH -> t_text t = $"/".
Proof. apply text_is; [discriminate|discriminate|vm_compute; reflexivity]. Qed.
Lemma c_text t : wt t -> t_base t = F15_C -> t_text t = $"C".
Proof. apply text_is; [discriminate|discriminate|vm_compute; reflexivity]. Qed.
Lemma c_sub t : wt t -> t_base t = F15_C -> computed_point (t_sub t) = false.
Proof.
  intros W B. pose proof (c_text t W B) as E. unfold wt in W. rewrite E in W. apply (f_equal snd) in W. cbn [snd] in W. rewrite <- W. vm_compute. reflexivity.
Qed.
Definition vfr_end (sb : sub_type) (sh : shape) : bool :=
  existsb (fun a => shape_incl sh (a ++ map (fun c => [(c, c)]) ($"VFR"))) (expand speed).
Lemma vfr_word t : wt t -> t_base t = F15_SPEED_VFR -> a_speed (speed_part (t_text t)) /\ t_text t = speed_part (t_text t) ++ $"VFR".
Proof.
  intros W B. assert (R : all_rows F15_SPEED_VFR vfr_end = true) by (vm_compute; reflexivity).
  destruct (all_rows_spec F15_SPEED_VFR _ t ltac:(discriminate) ltac:(discriminate) W B R) as (sh & Hs & K). clear R.
  apply existsb_exists in K as (a & Ia & K). pose proof (shape_incl_sound _ _ _ K Hs) as Q. apply shape_app in Q as (x & z & E & Hx & Hz). apply lit_text in Hz. subst z.
  assert (A : a_speed x) by (exists a; auto). destruct (speed_fits x ($"VFR") A) as (E1 & _). rewrite E, E1. auto.
Qed.
Lemma mod_pieces t m : wt t -> modifier (t, ROut) = Some m -> a_speed (fst m) /\ a_level (snd m).
Proof.
  intros W M. unfold modifier in M. cbn [fst snd] in M.
  assert (K : forall b, b <> F15_UNKNOWN -> b <> F15_TOO_LONG -> all_rows b pieces_ok = true -> t_base t = b -> m = (speed_part (t_text t), first_level (t_text t)) ->
    a_speed (fst m) /\ a_level (snd m)).
  { intros b N1 N2 R B ->. destruct (all_rows_spec b _ t N1 N2 W B R) as (sh & Hs & H). destruct (pieces_text _ _ _ H Hs) as (x & y & z & E & Hx & Hy).
    cbn [fst snd]. destruct (speed_fits x (y ++ z) Hx) as (E1 & E2 & _). destruct (level_fits y z Hy) as (E3 & _).
    assert (E4 : first_level (t_text t) = y) by (unfold first_level; now rewrite E, E2). rewrite E4, E, E1. auto. }
  destruct (t_base t) eqn:B; try discriminate M.
  - injection M as <-. cbn [fst snd]. split; [exact (proj1 (vfr_word t W B))|exact f050].
  - injection M as <-. apply (K F15_SPEED_ALTITUDE); [discriminate|discriminate|vm_compute; reflexivity|reflexivity|reflexivity].
  - injection M as <-. apply (K F15_SPEED_ALTITUDE_ALTITUDE); [discriminate|discriminate|vm_compute; reflexivity|reflexivity|reflexivity].
  - injection M as <-. apply (K F15_SPEED_ALTITUDE_PLUS); [discriminate|discriminate|vm_compute; reflexivity|reflexivity|reflexivity].
Qed.
Lemma clock_stay t : wt t -> t_base t = F15_STAY_TIME -> clock (stay_min (t_text t)) = t_text t.
Proof.
  intros W B. assert (R : all_rows F15_STAY_TIME (fun sb sh => shape_incl sh ([(48, 50)] :: [(48, 57)] :: [(48, 53)] :: [[(48, 57)]])%N) = true) by (vm_compute; reflexivity).
  destruct (all_rows_spec F15_STAY_TIME _ t ltac:(discriminate) ltac:(discriminate) W B R) as (sh & Hs & K). clear R. pose proof (shape_incl_sound _ _ _ K Hs) as Q.
  destruct (stay_fields t W B) as (h1 & h2 & m1 & m2 & E & D & Rg). rewrite E in *. clear Hs K E. cbn [stay_min] in *. unfold hhmm, digit_val in *.
  repeat match goal with H : shape_in (_ :: _) _ |- _ => inversion H; clear H; subst | H : Forall2 _ (_ :: _) _ |- _ => inversion H; clear H; subst end.
  unfold in_ranges in *. cbn in *.
  assert (V1 : (48 <= h1 <= 50)%N) by lia. assert (V2 : (48 <= h2 <= 57)%N) by lia. assert (V3 : (48 <= m1 <= 53)%N) by lia. assert (V4 : (48 <= m2 <= 57)%N) by lia. clear -V1 V2 V3 V4.
  unfold clock, digit_of.
  set (a := (Z.of_N h1 - 48)%Z). set (b := (Z.of_N h2 - 48)%Z). set (c := (Z.of_N m1 - 48)%Z). set (d := (Z.of_N m2 - 48)%Z).
  assert (A1 : (((a * 10 + b) * 60 + (c * 10 + d)) / 600 = a)%Z) by (symmetry; apply (Z.div_unique _ _ _ (b * 60 + c * 10 + d)%Z); lia).
  assert (A2 : (((a * 10 + b) * 60 + (c * 10 + d)) / 60 = a * 10 + b)%Z) by (symmetry; apply (Z.div_unique _ _ _ (c * 10 + d)%Z); lia).
  assert (A3 : (((a * 10 + b) * 60 + (c * 10 + d)) mod 60 = c * 10 + d)%Z) by (symmetry; apply (Z.mod_unique _ _ (a * 10 + b)%Z); lia).
  assert (A4 : (((a * 10 + b) * 60 + (c * 10 + d)) mod 10 = d)%Z) by (symmetry; apply (Z.mod_unique _ _ ((a * 10 + b) * 6 + c)%Z); lia).
  assert (A5 : ((a * 10 + b) mod 10 = b)%Z) by (symmetry; apply (Z.mod_unique _ _ a); lia).
  assert (A6 : ((c * 10 + d) / 10 = c)%Z) by (symmetry; apply (Z.div_unique _ _ _ d); lia).
  rewrite A1, A2, A3, A4, A5, A6. unfold a, b, c, d. repeat f_equal; lia.
Qed.
