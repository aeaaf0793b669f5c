(** * Units: levels that differ only in what they are measured from. *)
From Coq Require Import ZArith NArith List Bool String Lia ZifyBool ZifyNat ZifyN.
From Coq Require Import Floats.SpecFloat.
From Verif Require Import RegexProofs.
From Verif Require Import PyBase PyFloat Enums Regex SyntaxTable Syntax Tokenizer Ers Utils Parser SpecRegex SpecNum SpecParser SpecGrammar SpecAccept SpecDiagnosis SpecReader SpecComplete SpecRename SpecFlow SpecUnits.
From Verif Require Import TokenizerProofs SyntaxProofs PerfEq Describe Flow Writing.
Import List ListNotations.
Local Open Scope list_scope.
Local Open Scope Z_scope.

Lemma type_sa s : fst (get_token_type s) = F15_SPEED_ALTITUDE <-> re_in (speed +++ level) s.
Proof. revert s. apply base_iff'; vm_compute; reflexivity. Qed.
Lemma type_plus s : fst (get_token_type s) = F15_SPEED_ALTITUDE_PLUS <-> re_in (speed +++ level +++ lit "PLUS") s.
Proof. revert s. apply base_iff'; vm_compute; reflexivity. Qed.
Lemma lit_in c s : re_in (lit1 c) s <-> s = [c].
Proof.
  split.
  - intro H. inversion H as [|rs a b x I1 I2 I3| | | |]; subst. destruct I1 as [I1|[]]. injection I1 as <- <-. f_equal. lia.
  - intros ->. apply (lang_class _ c c); [now left|lia|lia].
Qed.
Lemma alt_in a b s : re_in (RAlt a b) s <-> re_in a s \/ re_in b s.
Proof. split; [intro H; inversion H; subst; auto|]. intros [H|H]; [now apply lang_alt_l|now apply lang_alt_r]. Qed.
Lemma speed_in s : re_in speed s -> exists c ds, s = c :: ds /\ (c = 75 \/ c = 78 \/ c = 77)%N /\ List.length s = speed_len s.
Proof.
  unfold speed. cbn [any_of]. rewrite !alt_in. unfold speed_with. rewrite !seq_in.
  intros [H|[H|H]]; destruct H as (x & y & -> & Hx & Hy); apply lit_in in Hx as ->; apply digits_in in Hy as [_ L]; (eexists; eexists; split; [reflexivity|]; split; [auto|]); cbn in *; now rewrite L.
Qed.
Definition lvl_digits (c : N) : nat := if orb (N.eqb c 70) (N.eqb c 65) then 3 else 4.
Lemma level_in s : re_in level s <-> exists c ds, s = c :: ds /\ (c = 70 \/ c = 65 \/ c = 83 \/ c = 77)%N /\ all_digits ds /\ List.length ds = lvl_digits c.
Proof.
  unfold level. cbn [any_of]. rewrite !alt_in. unfold level_with. rewrite !seq_in. split.
  - intros [H|[H|[H|H]]]; destruct H as (x & y & -> & Hx & Hy); apply lit_in in Hx as ->; apply digits_in in Hy as [D L]; (eexists; eexists; split; [reflexivity|]; auto).
  - intros (c & ds & -> & Hc & D & L). assert (X : forall k, c = k -> exists x y, c :: ds = x ++ y /\ re_in (lit1 k) x /\ re_in (digits (if orb (N.eqb k 70) (N.eqb k 65) then 3 else 4)) y).
    { intros k <-. exists [c], ds. split; [reflexivity|]. split; [now apply lit_in|]. apply digits_in. now split. }
    destruct Hc as [Hc|[Hc|[Hc|Hc]]]; [left|right; left|right; right; left|right; right; right]; now apply X.
Qed.
Lemma unit_digits c d : same_unit c d -> lvl_digits c = lvl_digits d /\ is_feet c = is_feet d /\ level_metres c = level_metres d /\ (d = 70 \/ d = 65 \/ d = 83 \/ d = 77)%N.
Proof. intros [H|[H|[H|[H|[]]]]]; injection H as <- <-; repeat split; auto. Qed.
(** Where the level begins. *)
Lemma letter_parts s c d rest a b : same_unit c d -> s = a ++ b -> re_in speed a -> s = speed_part s ++ c :: rest ->
  a = speed_part s /\ b = c :: rest /\ (forall x, speed_part (a ++ x) = a /\ after_speed (a ++ x) = x).
Proof.
  intros U E A Es. destruct (speed_in a A) as (k & ds & Ea & _ & L).
  assert (X : forall x, speed_part (a ++ x) = a /\ after_speed (a ++ x) = x).
  { intro x. unfold speed_part, after_speed. assert (Q : speed_len (a ++ x) = List.length a) by (rewrite L, Ea; reflexivity). rewrite Q. split; [rewrite firstn_app, Nat.sub_diag, firstn_all; apply app_nil_r|].
    rewrite skipn_app, Nat.sub_diag, skipn_all. reflexivity. }
  destruct (X b) as [X1 X2]. rewrite <- E in X1, X2. split; [now symmetry|]. split; [|exact X]. rewrite X1 in Es. rewrite E in Es. now apply app_inv_head in Es.
Qed.
Record letter_facts (t u : token) : Prop := {
  lf_base : t_base u = t_base t; lf_speed : speed_part (t_text u) = speed_part (t_text t);
  lf_level : same_figures (first_level (t_text t)) (first_level (t_text u)); lf_second : second_level (t_text u) = second_level (t_text t);
  lf_t : figures_in_order t; lf_u : figures_in_order u }.
Lemma is_speed_bases t : In (t_base t) [F15_SPEED_ALTITUDE; F15_SPEED_ALTITUDE_PLUS] -> is_speed t.
Proof. intros [H|[H|[]]]; unfold is_speed; rewrite <- H; cbn; auto. Qed.
Lemma bad_free c ds : (c = 70%N -> decimal ds mod 5 = 0) -> bad_level (c :: ds) = false.
Proof. intro H. unfold bad_level. destruct (N.eqb_spec c 70); [rewrite H by assumption; reflexivity|reflexivity]. Qed.
Lemma letter_known t u : wt t -> wt u -> other_letter t u -> letter_facts t u.
Proof.
  intros Wt Wu (B & c & d & rest & U & Fl & Et & Eu).
  assert (Gt : fst (get_token_type (t_text t)) = t_base t).
  { rewrite <- (classify_get (t_text t)); [unfold wt in Wt; rewrite Wt; reflexivity|]. unfold wt in Wt. rewrite Wt. cbn [fst]. destruct B as [B|[B|[]]]; rewrite <- B; discriminate. }
  destruct (unit_digits c d U) as (Ud & Uf & Um & Hd).
  assert (Main : forall a ds tail, t_text t = a ++ c :: ds ++ tail -> re_in speed a -> List.length ds = lvl_digits c -> rest = ds ++ tail -> (forall x, speed_part (a ++ x) = a /\ after_speed (a ++ x) = x) ->
    t_text u = a ++ d :: ds ++ tail -> t_base u = t_base t -> letter_facts t u).
  { intros a ds tail E1 Ha Ld Er X E2 Bu.
    assert (Fst : forall k, lvl_digits k = lvl_digits c -> is_feet k = is_feet c -> firstn (level_len (k :: ds ++ tail)) (k :: ds ++ tail) = k :: ds /\ skipn (level_len (k :: ds ++ tail)) (k :: ds ++ tail) = tail).
    { intros k Lk Fk. assert (Q : level_len (k :: ds ++ tail) = Datatypes.S (List.length ds)).
      { unfold level_len. rewrite Ld, <- Lk. unfold lvl_digits, is_feet. destruct (N.eqb k 70 || N.eqb k 65)%bool; reflexivity. }
      rewrite Q. cbn [firstn skipn]. rewrite firstn_app, skipn_app, Nat.sub_diag, firstn_all, skipn_all. cbn [firstn skipn]. rewrite app_nil_r. now split. }
    destruct (X (c :: ds ++ tail)) as [P1 P2], (X (d :: ds ++ tail)) as [Q1 Q2]. destruct (Fst c eq_refl eq_refl) as [F1 F2], (Fst d (eq_sym Ud) (eq_sym Uf)) as [F3 F4].
    assert (L1 : first_level (t_text t) = c :: ds) by (unfold first_level; rewrite E1, P2; exact F1).
    assert (L2 : first_level (t_text u) = d :: ds) by (unfold first_level; rewrite E2, Q2; exact F3).
    assert (Dm : (c = 70 \/ d = 70)%N -> decimal ds mod 5 = 0).
    { intro Hx. specialize (Fl Hx). rewrite Er in Fl. assert (L3 : List.length ds = 3%nat) by (rewrite Ld; destruct Hx as [Hx|Hx]; [rewrite Hx; reflexivity|rewrite Ud, Hx; reflexivity]).
      rewrite <- L3, firstn_app, Nat.sub_diag, firstn_all in Fl. cbn [firstn] in Fl. rewrite app_nil_r in Fl. exact Fl. }
    assert (Fo : forall v k, t_base v = t_base t -> first_level (t_text v) = k :: ds -> (k = 70%N -> decimal ds mod 5 = 0) -> figures_in_order v).
    { intros v k Bv Lv Kv. unfold figures_in_order. rewrite Bv. assert (Lf : level_faults v = []).
      { unfold level_faults. rewrite Lv, (bad_free _ _ Kv), Bv. destruct B as [B|[B|[]]]; rewrite <- B; reflexivity. }
      assert (Uc : unconvertible v = false) by (unfold unconvertible; rewrite Bv; destruct B as [B|[B|[]]]; rewrite <- B; reflexivity).
      destruct B as [B|[B|[]]]; rewrite <- B; now split. }
    constructor.
    - exact Bu.
    - rewrite E1, E2. congruence.
    - right. exists c, d, ds. auto.
    - unfold second_level. rewrite E1, E2, P2, Q2. congruence.
    - apply (Fo t c); auto.
    - apply (Fo u d); auto. }
  assert (Typ : forall b, t_base t = b -> b <> F15_TOO_LONG -> b <> F15_UNKNOWN -> fst (get_token_type (t_text u)) = b -> (zlen (t_text u) <= 25)%Z -> t_base u = t_base t).
  { intros b Bb _ _ Gu Lz. unfold wt in Wu. destruct (classify_spec (t_text u)) as (_ & Cl & _). rewrite (Cl Lz) in Wu. rewrite Wu in Gu. cbn [fst] in Gu. congruence. }
  assert (Ls : forall a, re_in speed a -> (List.length a <= 5)%nat).
  { intros a Ha. destruct (speed_in a Ha) as (k & ds & -> & _ & L). rewrite L. unfold speed_len. destruct (N.eqb k 77); lia. }
  assert (Lv : forall k, (lvl_digits k <= 4)%nat) by (intro k; unfold lvl_digits; destruct (_ || _)%bool; lia).
  destruct B as [B|[B|[]]]; rewrite <- B in Gt.
  - apply type_sa in Gt. apply seq_in in Gt as (a & b & Eab & Ha & Hb). destruct (letter_parts _ c d rest a b U Eab Ha Et) as (A1 & A2 & X).
    apply level_in in Hb as (c' & ds & Eb & Hc & Dd & Ld). rewrite A2 in Eb. injection Eb as Ec1 Ec2. subst c' ds. rewrite <- A1 in Et, Eu.
    apply (Main a rest []); rewrite ?app_nil_r; try assumption; [reflexivity|]. apply (Typ F15_SPEED_ALTITUDE); try discriminate; [now symmetry| |].
    + apply type_sa. rewrite Eu. apply seq_in. exists a, (d :: rest). split; [reflexivity|]. split; [exact Ha|]. apply level_in. exists d, rest. rewrite <- Ud. auto.
    + rewrite Eu. unfold zlen. rewrite app_length. cbn [List.length]. specialize (Ls a Ha). specialize (Lv c). lia.
  - apply type_plus in Gt. apply seq_in in Gt as (a & b & Eab & Ha & Hb). destruct (letter_parts _ c d rest a b U Eab Ha Et) as (A1 & A2 & X).
    apply seq_in in Hb as (b1 & b2 & -> & Hb & Hp). apply level_in in Hb as (c' & ds & -> & Hc & Dd & Ld). cbn [app] in A2. injection A2 as Ec1 Ec2. subst c' rest. rewrite <- A1 in Et, Eu.
    assert (Lp : b2 = $"PLUS").
    { revert Hp. change (lit "PLUS") with (lit1 80 +++ lit1 76 +++ lit1 85 +++ lit1 83). rewrite !seq_in. intros (x & y & -> & Hx & Hy). apply lit_in in Hx as ->. apply seq_in in Hy as (x & z & -> & Hx & Hy). apply lit_in in Hx as ->. apply seq_in in Hy as (x & w & -> & Hx & Hy). apply lit_in in Hx as ->. apply lit_in in Hy as ->. reflexivity. }
    apply (Main a ds b2); try assumption; [reflexivity|]. apply (Typ F15_SPEED_ALTITUDE_PLUS); try discriminate; [now symmetry| |].
    + apply type_plus. rewrite Eu. apply seq_in. exists a, (d :: ds ++ b2). split; [reflexivity|]. split; [exact Ha|]. apply seq_in. exists (d :: ds), b2. split; [reflexivity|]. split; [|exact Hp]. apply level_in. exists d, ds. rewrite <- Ud. auto.
    + rewrite Eu, Lp. unfold zlen. rewrite !app_length. cbn [List.length]. rewrite app_length. change (List.length ($"PLUS")) with 4%nat. specialize (Ls a Ha). specialize (Lv c). lia.
Qed.
Lemma figures_value l m : same_figures l m -> level_of l = level_of m /\ forall v, value_or_zero l v = value_or_zero m v.
Proof. intros [->|(c & d & ds & U & -> & ->)]; [auto|]. destruct (unit_digits c d U) as (_ & _ & Um & _). cbn [level_of value_or_zero]. rewrite Um. auto. Qed.
Lemma figures_refl l : same_figures l l.
Proof. now left. Qed.

Section G.
Variable G : geodesic.
Lemma opposite_letters f g t u : same_but_letters f g -> opposite f g t u -> t_text t = t_text u \/ other_letter t u.
Proof. unfold same_but_letters, opposite. intros F (n & A & B). revert n A B. induction F as [|x y a b H F IH]; intros [|n] A B; try discriminate; cbn in A, B; [congruence|eauto]. Qed.
Lemma letter_counter t u : wt t -> wt u -> t_text t = t_text u \/ other_letter t u -> counterpart t u.
Proof.
  intros Wt Wu [E|O].
  - destruct (same_text t u Wt Wu E) as [B1 B2]. split; [exact B1|]. split; [now left|now left].
  - pose proof (letter_known t u Wt Wu O) as []. split; [now symmetry|]. split; [right; left; apply is_speed_bases, O|]. right. right. now split.
Qed.
Lemma field_wts f : Forall wt (field_tokens f).
Proof. eapply Forall_impl; [|apply field_wt]. now intros a [H _]. Qed.
Lemma same_structure_letters f g : same_but_letters f g -> same_structure f g.
Proof.
  unfold same_but_letters, same_structure. intro F. pose proof (field_wts f) as A. pose proof (field_wts g) as B. induction F as [|t u l m H F IH]; [constructor|]. inversion A; subst. inversion B; subst. constructor; [now apply letter_counter|auto].
Qed.
Local Open Scope nat_scope.
Theorem letters depth f g : same_but_letters f g -> field_tokens f <> [] -> 3 * n_tokens f <= depth + 1 ->
  match parse_field15 G depth f, parse_field15 G depth g with
  | Ok a s, Ok b z =>
      a = b /\ Forall2 (measured_otherwise (opposite f g)) (e_recs (s_ers s)) (e_recs (s_ers z)) /\
      Forall2 (same_report (opposite f g)) (e_errs (s_ers s)) (e_errs (s_ers z)) /\ e_rules (s_ers s) = e_rules (s_ers z)
  | Exn x _, Exn y _ => x = y
  | _, _ => False
  end.
Proof.
  intros F N D.
  assert (K : forall t u, opposite f g t u -> t_text t = t_text u /\ t_base t = t_base u \/ letter_facts t u /\ In (t_base t) [F15_SPEED_ALTITUDE; F15_SPEED_ALTITUDE_PLUS]).
  { intros t u O. destruct (opposite_wt f g t u O) as [[Wt _] [Wu _]]. destruct (opposite_letters f g t u F O) as [E|E]; [left; split; [exact E|now apply same_text]|right]. split; [now apply letter_known|apply E]. }
  pose (RV := fun sp lv sp' lv' : pstr => sp = sp' /\ same_figures lv lv'). pose (RT := fun (a : pstr) (x : pynum) (b : pstr) (y : pynum) => a = b /\ x = y).
  pose proof (flow_all G RV RT depth f g (same_structure_letters f g F) N D) as H. match type of H with ?A -> ?B -> ?C1 -> ?C2 -> ?C3 -> ?C4 -> ?X => assert (X0 : X) end.
  { apply H; unfold RV, RT; clear H.
    - split; [reflexivity|now left].
    - now split.
    - intros t u O B. destruct (K t u O) as [[-> _]|[_ [E|[E|[]]]]]; [split; [reflexivity|now left]| |]; rewrite B in E; discriminate E.
    - intros t u O B NV. destruct (K t u O) as [[-> _]|[[] _]]; [split; [reflexivity|now left]|]. split; [now symmetry|assumption].
    - intros t u a x b y O B [_ ->]. destruct (K t u O) as [[-> _]|[[] _]]; [now split|]. split; [now symmetry|reflexivity].
    - intros t u O B. destruct (K t u O) as [[-> _]|[_ [E|[E|[]]]]]; [now split| |]; rewrite B in E; discriminate E. }
  clear H. destruct (parse_field15 G depth f) as [a s|x s], (parse_field15 G depth g) as [b z|y z]; try exact X0. destruct X0 as (E1 & Rl & E3 & E4).
  split; [exact E1|]. split; [|now split]. eapply F2_split; [|exact Rl]. intros r q (Sh & _ & Y & Z & (W1 & W2) & (T1 & T2) & (S1 & S2) & (S3 & S4)).
  assert (Not : forall t u, opposite f g t u -> ~ is_speed t -> t_text t = t_text u).
  { intros t u O NS. destruct (K t u O) as [[E _]|[_ E]]; [exact E|]. destruct NS. now apply is_speed_bases. }
  split; [exact Sh|]. split; [exact W2|]. split; [exact W1|]. split; [exact T1|]. destruct (figures_value _ _ W2) as [L1 L2]. split; [|split].
  - unfold same_si. rewrite S1, S2, S3, S4, W1, L1, L2. auto.
  - apply Y. intros t u O C. rewrite (Not t u O); [reflexivity|]. intro Is. apply is_speed_base in Is. destruct (opposite_wt f g t u O) as [[Wt _] _]. apply is_coordinate_sub in C. rewrite (coordinate_point t Wt C) in Is. discriminate Is.
  - apply Z. intros t u O C. apply (Not t u O). intro Is. apply is_speed_base in Is. unfold is_stay in C. rewrite C in Is. discriminate Is.
Qed.
End G.

(** A test. *)
Definition unitb (c d : N) : bool := existsb (fun p => N.eqb c (fst p) && N.eqb d (snd p)) [(70, 65); (65, 70); (83, 77); (77, 83)]%N.
Definition other_letterb (t u : token) : bool :=
  (base_eqb (t_base t) F15_SPEED_ALTITUDE || base_eqb (t_base t) F15_SPEED_ALTITUDE_PLUS) &&
  match after_speed (t_text t), after_speed (t_text u) with
  | c :: rest, d :: rest' => unitb c d && pstr_eqb rest rest' && (negb (N.eqb c 70 || N.eqb d 70) || (decimal (firstn 3 rest) mod 5 =? 0)) && pstr_eqb (speed_part (t_text t)) (speed_part (t_text u))
  | _, _ => false
  end.
Fixpoint all_letters (l m : list token) : bool :=
  match l, m with [], [] => true | t :: l', u :: m' => (pstr_eqb (t_text t) (t_text u) || other_letterb t u) && all_letters l' m' | _, _ => false end.
Lemma parts_of s : s = speed_part s ++ after_speed s.
Proof. symmetry. apply firstn_skipn. Qed.
Lemma letter_test t u : other_letterb t u = true -> other_letter t u.
Proof.
  unfold other_letterb, other_letter. rewrite andb_true_iff. intros [A B]. split.
  { apply orb_true_iff in A as [A|A]; apply base_eqb_eq in A; rewrite A; cbn; auto. }
  pose proof (parts_of (t_text t)) as E1. pose proof (parts_of (t_text u)) as E2.
  destruct (after_speed (t_text t)) as [|c rest] eqn:X1; [discriminate|]. destruct (after_speed (t_text u)) as [|d rest'] eqn:X2; [discriminate|].
  rewrite !andb_true_iff in B. destruct B as [[[B1 B2] B3] B4]. apply pstr_eqb_eq in B2, B4. subst rest'. exists c, d, rest.
  split; [|split; [intros [->| ->]; cbn in B3; rewrite ?orb_true_r in B3; now apply Z.eqb_eq|split; [exact E1|rewrite B4; exact E2]]].
  unfold unitb in B1. apply existsb_exists in B1 as ((x & y) & H & K). apply andb_true_iff in K as [K1 K2]. apply N.eqb_eq in K1, K2. cbn [fst snd] in *. now subst.
Qed.
Lemma same_but_letters_test f g : all_letters (field_tokens f) (field_tokens g) = true -> same_but_letters f g.
Proof.
  unfold same_but_letters. generalize (field_tokens f) (field_tokens g). induction l as [|t l IH]; intros [|u m] H; try discriminate; [constructor|].
  cbn [all_letters] in H. apply andb_true_iff in H as [H1 H2]. constructor; [|now apply IH]. apply orb_true_iff in H1 as [H1|H1]; [left; now apply pstr_eqb_eq|right; now apply letter_test].
Qed.
