(** * Capitals: the characters of accepted fields. *)
From Coq Require Import ZArith NArith List Bool String Lia.
From Coq Require Import ZifyBool ZifyNat ZifyN.
From Verif Require Import PyBase PyFloat Enums Regex Syntax Tokenizer Ers Utils Parser.
From Verif Require Import SpecTokenizer TokenizerProofs SpecNum PerfEq SyntaxProofs ParserFacts SpecParser SpecGrammar Grammar SpecAccept Accept Describe AcceptFacts SpecLayout Layout SpecViable Viable SpecRemoval Removal Connector RegexProofs SpecCapitals.
Import List ListNotations.
Local Open Scope list_scope.
Local Open Scope nat_scope.

Definition kmn (sh : shape) : bool :=
  match sh with rs :: _ => forallb (fun r => (fst r =? snd r)%N && ((fst r =? 75) || (fst r =? 77) || (fst r =? 78))%N) rs | [] => false end.
Section G.
Variable G : geodesic.
Lemma recognised_plain x : fst (classify x) <> F15_UNKNOWN -> fst (classify x) <> F15_TOO_LONG -> Forall plain x.
Proof. intros H1 H2. apply Forall_forall. intros c Hc. exact (proj2 (classify_recognised x H1 H2) c Hc). Qed.
Lemma outside depth f s : parse_field15 G depth f = Ok true s -> forall t, In (t, ROut) (field_roles f) -> Forall plain (t_text t).
Proof.
  intros H t Ht. pose proof (accepted_recognised G depth f s H t Ht) as R. destruct (roles_steps G f depth s H) as (ss & D & Y & Er & B & _).
  assert (Hi : In t (yield ss)).
  { rewrite Y. unfold field_roles, roles in Ht. rewrite Y in *. clear - Ht Er Y D. pose proof (words_ryield ss) as _. unfold field_roles, roles in Er. rewrite Er in Ht.
    rewrite <- Y. clear Er Y. revert Ht. clear D. induction ss as [|st ss IH]; [intros []|]. rewrite ryield_cons, yield_cons, !in_app_iff. intros [K|K]; [left|right; now apply IH].
    destruct st; cbn [rstep tokens_of map In] in *; try (apply in_map_iff in K as (y & E & K); congruence); intuition congruence. }
  pose proof (B t Hi) as C. apply recognised_plain; rewrite <- C; cbn [fst]; intro E; rewrite E in R; discriminate.
Qed.
Lemma first_letter depth f s : parse_field15 G depth f = Ok true s -> exists c x rest, element_texts f = (c :: x) :: rest /\ (c = 75 \/ c = 77 \/ c = 78)%N.
Proof.
  intro H. destruct (roles_steps G f depth s H) as (ss & D & Y & Er & B & _). destruct ss as [|st ss]; [discriminate|]. cbn [derives] in D. destruct D as (F & P & D). rewrite yield_cons in Y, B.
  assert (Hs : exists t, tokens_of st = [t] /\ In (t_base t) [F15_SPEED_ALTITUDE; F15_SPEED_VFR]).
  { destruct st; try discriminate F; exists t; cbn [proper] in P; split; try reflexivity; cbn [In]; intuition congruence. }
  destruct Hs as (t & Et & Hb). rewrite Et in *. cbn [app] in Y, B. pose proof (wt_by_text _ B) as W. apply Forall_inv in W.
  rewrite et_map, <- Y. cbn [map]. 
  assert (S : some_shape (shapes_with (fun y => base_eqb (fst y) F15_SPEED_ALTITUDE || base_eqb (fst y) F15_SPEED_VFR)) (t_text t)).
  { apply wt_shape; [exact W|reflexivity|reflexivity|]. cbn [fst]. cbn [In] in Hb. destruct Hb as [<-|[<-|[]]]; reflexivity. }
  destruct S as (sh & Hin & Sh). assert (Ck : kmn sh = true) by (clear Sh; revert sh Hin; apply forallb_forall; vm_compute; reflexivity). 
  destruct Sh as [|rs c sh x Hc Sh]; [discriminate|]. exists c, x, (map t_text (yield ss)). split; [reflexivity|].
  cbn [kmn] in Ck. unfold in_ranges in Hc. apply existsb_exists in Hc as ((lo & hi) & Hr & Hc). rewrite forallb_forall in Ck. specialize (Ck _ Hr). cbn [fst snd] in *. lia.
Qed.
End G.
Lemma ttexts_chars w : forall s text x c, In x (ttexts w text s) -> In c x -> In c text \/ In c s.
Proof.
  induction s as [|d s IH]; intros text x c Hx Hc; cbn [ttexts] in Hx.
  - destruct text; [destruct Hx|]. destruct Hx as [<-|[]]. now left.
  - destruct (char_in d w).
    + apply in_app_or in Hx as [Hx|Hx]; [destruct text; [destruct Hx|]; destruct Hx as [<-|[]]; now left|]. right.
      apply in_app_or in Hx as [Hx|Hx]; [destruct (N.eqb d slash); [|destruct Hx]; destruct Hx as [<-|[]]; destruct Hc as [<-|[]]; now left|]. destruct (IH _ _ _ Hx Hc) as [[]|K]. now right.
    + destruct (IH _ _ _ Hx Hc) as [K|K]; [apply in_app_or in K as [K|[<-|[]]]|]; cbn [In]; auto.
Qed.
Lemma element_chars f x c : In x (element_texts f) -> In c x -> In c f.
Proof. unfold element_texts. rewrite texts_ttexts. intros Hx Hc. destruct (ttexts_chars _ _ _ _ _ Hx Hc) as [[]|K]. exact K. Qed.
Lemma lower_none f c : In c (lower f) -> ~ capital c.
Proof. unfold lower, capital. intro H. apply in_map_iff in H as (d & <- & _). destruct ((65 <=? d)%N && (d <=? 90)%N) eqn:E; lia. Qed.
Lemma no_capitals G depth f s : (forall c, In c f -> ~ capital c) -> parse_field15 G depth f <> Ok true s.
Proof.
  intros N H. destruct (first_letter G depth f s H) as (c & x & rest & E & Hc). apply (N c).
  - apply (element_chars f (c :: x)); [rewrite E|]; now left.
  - unfold capital. lia.
Qed.
Lemma lowered G depth f s : parse_field15 G depth (lower f) <> Ok true s.
Proof. apply no_capitals. apply lower_none. Qed.
