(** * ErsFacts: re-use of a route sequence (lemmas behind PropsErs). *)
From Coq Require Import ZArith NArith List Bool String Lia.
From Coq Require Import Floats.SpecFloat.
From Coq Require Import ZifyBool ZifyNat ZifyN.
From Verif Require Import PyBase PyFloat Enums ErrorTable Tokenizer Ers Utils Parser.
From Verif Require Import SpecTokenizer TokenizerProofs ParserPrims ParseTrace SpecParser ParserFacts ErrMono RecMono.
Import List ListNotations.
Local Open Scope list_scope.
Local Open Scope nat_scope.

Section G.
Variable G : geodesic.
Lemma parse_verdict depth s b s' : parse_f15 G depth s = Ok b s' -> (b = true <-> e_errs (s_ers s') = []).
Proof.
  assert (Z : forall l : list rrec, (zlen l =? 0)%Z = true <-> l = []) by (intro l; rewrite zlen0; destruct l; split; congruence).
  unfold parse_f15. intro H. apply bind_inv in H as (u & s1 & _ & H). apply bind_inv in H as (o & s2 & _ & H). destruct o as [t|].
  - apply bind_inv in H as (u2 & s3 & _ & H). apply bind_inv in H as (oa & s4 & _ & H). apply bind_inv in H as (op & s5 & _ & H). destruct op as [p|].
    + do 6 (apply bind_inv in H as (? & ? & _ & H)). apply bind_inv in H as (? & ? & _ & H). apply bind_inv in H as (e & s6 & H6 & H).
      unfold n_errors in H6. injection H6 as <- <-. unfold ret in H. injection H as <- <-. apply Z.
    + apply bind_inv in H as (e & s6 & H6 & H). unfold n_errors in H6. injection H6 as <- <-. unfold ret in H. injection H as <- <-. apply Z.
  - apply bind_inv in H as (m & s3 & _ & H). apply bind_inv in H as (u3 & s4 & H4 & H). unfold ers_mod in H4. injection H4 as <- <-.
    apply bind_inv in H as (oa & s5 & H5 & H). unfold ret in H. injection H as <- <-. split; [discriminate|]. intro K.
    match type of H5 with append_rec _ ?x = _ => assert (M : grows x s5) by (pose proof (mono_append (dummy ($"ADES")) x) as M; rewrite H5 in M; exact M) end.
    destruct M as [e M]. unfold errs_of in M. rewrite K in M. unfold add_error in M. cbn [s_ers e_errs] in M. symmetry in M.
    apply app_eq_nil in M as [M _]. apply app_eq_nil in M as [_ M]. discriminate.
Qed.
(** Errors stay. *)
Lemma stays_rejected depth toks x k b s : e_errs x <> [] -> parse_f15 G depth (mkSt toks x k) = Ok b s -> b = false.
Proof.
  intros N H. destruct b; [|reflexivity]. apply (parse_verdict depth) in H as V. exfalso. apply N.
  pose proof (parse_errs G depth (mkSt toks x k)) as M. rewrite H in M. destruct M as [e M]. unfold errs_of in M. cbn [st_out s_ers] in M.
  assert (E : e_errs (s_ers s) = []) by now apply V. rewrite E in M. symmetry in M. now apply app_eq_nil in M as [M _].
Qed.
Lemma errors_kept depth toks x k b s : parse_f15 G depth (mkSt toks x k) = Ok b s -> exists e, e_errs (s_ers s) = e_errs x ++ e.
Proof. intro H. pose proof (parse_errs G depth (mkSt toks x k)) as M. rewrite H in M. exact M. Qed.
(** Records stay, with their names and positions, and at least one is added. *)
Lemma records_kept depth toks x k b s : parse_f15 G depth (mkSt toks x k) = Ok b s ->
  exists old new, e_recs (s_ers s) = old ++ new /\ new <> [] /\ map place old = map place (e_recs x).
Proof.
  intro H. apply parse_places in H as (e & d & E & _). unfold places in E. cbn [s_ers] in E. symmetry in E.
  exists (firstn (length (e_recs x)) (e_recs (s_ers s))), (skipn (length (e_recs x)) (e_recs (s_ers s))). split; [symmetry; apply firstn_skipn|].
  pose proof (f_equal (@length _) E) as El. rewrite !app_length, !map_length in El. cbn [length] in El. split.
  - intro C. apply (f_equal (@length _)) in C. rewrite skipn_length in C. cbn [length] in C. lia.
  - rewrite <- firstn_map, <- E. rewrite <- (map_length place), firstn_app, Nat.sub_diag, firstn_all. cbn [firstn]. apply app_nil_r.
Qed.
Lemma last_shift {A} (l m : list A) x y n : l ++ x :: m ++ [y] = n -> forall p z, n = p ++ [z] -> In x p.
Proof.
  intros E p z Ep. subst n. change (l ++ x :: m ++ [y]) with (l ++ (x :: m) ++ [y]) in Ep. rewrite app_assoc in Ep. apply app_inj_tail in Ep as [<- _].
  apply in_or_app. right. now left.
Qed.
Lemma never_the_same depth f1 f2 b1 s1 b2 s2 k b s :
  parse_field15 G depth f1 = Ok b1 s1 -> parse_field15 G depth f2 = Ok b2 s2 ->
  parse_f15 G depth (mkSt (tokenize_string f15_whitespace f2) (s_ers s1) k) = Ok b s ->
  map place (e_recs (s_ers s)) <> map place (e_recs (s_ers s2)).
Proof.
  intros H1 H2 H E. destruct (record_origin G _ _ _ _ H1) as (a & mid & z & js & E1 & _ & Z1 & _).
  destruct (record_origin G _ _ _ _ H2) as (a2 & mid2 & z2 & js2 & E2 & _ & _ & _ & F2).
  apply parse_places in H as (e & d & P & _). unfold places in P. cbn [s_ers] in P. rewrite E, E1, E2 in P. cbn [map app] in P.
  rewrite !map_app in P. cbn [map] in P. pose proof (f_equal (@tl _) P) as P'. cbn [tl] in P'. rewrite <- app_assoc in P'. cbn [app] in P'.
  symmetry in P'. pose proof (last_shift _ _ _ _ _ P' _ _ eq_refl) as I. apply in_map_iff in I as (r & Er & Hr).
  assert (T : exists t, In t (field_tokens f2) /\ stands_for t r).
  { clear -F2 Hr. induction F2 as [|j q js m (t & Ht & St) F IH]; [destruct Hr|]. destruct Hr as [<-|Hr]; [|now apply IH]. exists t. split; [now apply nth_error_In in Ht|exact St]. }
  destruct T as (t & It & (S1 & S2 & _)). unfold field_tokens in It. apply in_map_iff in It as (t0 & <- & It). rewrite tokenize_string_toks in It. cbn [tk_list] in It.
  destruct (tkz_addresses _ _ _ (toks_tokenization f15_whitespace f2) _ It) as (A & _). destruct Z1 as (_ & Z2 & Z3 & _). unfold place in Er. injection Er as _ Q1 Q2.
  cbn [typed t_start t_end] in S1, S2. lia.
Qed.
End G.

(** Facts behind C44 and C47. *)
Section Getters.
Local Open Scope Z_scope.
Lemma element_at_spec : forall (x : ers) (i : Z), i <> zlen (e_recs x) ->
  (0 <= i < zlen (e_recs x) -> exists r, get_element_at x i = inr (Some (Z.to_nat i)) /\ nth_error (e_recs x) (Z.to_nat i) = Some r) /\
  (~ 0 <= i < zlen (e_recs x) -> get_element_at x i = inr None).
Proof.
  intros x i N. unfold get_element_at, get_number_of_elements. split; intro H.
  - destruct (_ || _)%bool eqn:E; [lia|]. destruct (i =? _)%Z eqn:E2; [lia|]. destruct (nth_error (e_recs x) (Z.to_nat i)) as [r|] eqn:En; [now exists r|].
    apply nth_error_None in En. unfold zlen in H. lia.
  - destruct (_ || _)%bool eqn:E; [reflexivity|]. lia.
Qed.

Lemma element_at_count : forall x : ers, get_element_at x (zlen (e_recs x)) = inl IndexError.
Proof.
  intro x. unfold get_element_at, get_number_of_elements. destruct (_ || _)%bool eqn:E; [unfold zlen in E; lia|]. now rewrite Z.eqb_refl.
Qed.

Lemma other_getters : forall x : ers, e_recs x <> [] ->
  get_first_element x = inr (Some 0%nat) /\
  get_last_element x = inr (Some (length (e_recs x) - 1)%nat) /\
  get_previous_to_last_element x = inr (if (length (e_recs x) =? 1)%nat then None else Some (length (e_recs x) - 2)%nat).
Proof.
  intros x H. assert (L : (1 <= length (e_recs x))%nat) by (destruct (e_recs x); [congruence|cbn; lia]).
  unfold get_first_element, get_last_element, get_previous_to_last_element, get_element_at, get_number_of_elements, zlen. split; [|split].
  - destruct (_ || _)%bool eqn:E; [lia|]. destruct (_ =? _)%Z eqn:E2; [lia|]. reflexivity.
  - destruct (0 <? _)%Z eqn:E0; [|lia]. destruct (_ || _)%bool eqn:E; [lia|]. destruct (_ =? _)%Z eqn:E2; [lia|]. do 2 f_equal. lia.
  - destruct (length (e_recs x) =? 1)%nat eqn:E1; destruct (_ || _)%bool eqn:E; try lia; [reflexivity|]. destruct (_ =? _)%Z eqn:E2; [lia|]. do 2 f_equal. lia.
Qed.
End Getters.

(** Parse field [f2] into an existing route sequence (parse_field15.py:53-72 with an ERS that is not new). *)
Definition reparse G depth (f2 : pstr) (x : ers) (k : nat) : out bool := parse_f15 G depth (mkSt (tokenize_string f15_whitespace f2) x k).
Lemma reuse_differs : forall G depth (f1 f2 : pstr) b1 s1 b2 s2 k b s,
  parse_field15 G depth f1 = Ok b1 s1 -> parse_field15 G depth f2 = Ok b2 s2 -> reparse G depth f2 (s_ers s1) k = Ok b s ->
  e_recs (s_ers s) <> e_recs (s_ers s2) /\
  map (fun r => (r_name r, r_start r, r_end r)) (e_recs (s_ers s)) <> map (fun r => (r_name r, r_start r, r_end r)) (e_recs (s_ers s2)).
Proof.
  intros G depth f1 f2 b1 s1 b2 s2 k b s H1 H2 H. pose proof (never_the_same G depth f1 f2 b1 s1 b2 s2 k b s H1 H2 H) as N.
  split; [|exact N]. intro E. apply N. now rewrite E.
Qed.
