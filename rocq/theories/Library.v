(** * Library: the geodesic library influences coordinates and legs only. *)
From Coq Require Import ZArith NArith List Bool String Lia.
From Verif Require Import PyBase PyFloat Enums ErrorTable Tokenizer Ers Utils Parser SpecNum SpecParser SpecGrammar SpecReader SpecComplete SpecLibrary.
From Verif Require Import ParserFacts ReaderFacts CompleteFacts.
Import List ListNotations.
Local Open Scope list_scope.
Local Open Scope nat_scope.

Section Two.
Variables G H : geodesic.
Lemma record_two i : same_but_geodesy (record_of G i) (record_of H i) /\ untouched (record_of G i) (record_of H i).
Proof.
  unfold record_of. cbv zeta. split.
  - repeat (split; [reflexivity|]). cbn [r_llv r_name r_lat r_lon]. intro N. destruct (i_located i); [|split; reflexivity].
    unfold coordinates. destruct (Datatypes.length (i_name i)) as [|[|[|[|[|[|[|[|[|[|[|[|[|[|[|[|[|[|n]]]]]]]]]]]]]]]]]]; try (split; reflexivity).
    all: exfalso; apply N; cbn; tauto.
  - unfold untouched. cbn [r_llv]. intros ->. reflexivity.
Qed.
Lemma leg_two r q rest rest' : same_but_geodesy r q /\ untouched r q -> same_but_geodesy (with_leg G r rest) (with_leg H q rest') /\ untouched (with_leg G r rest) (with_leg H q rest').
Proof.
  intros [(E1 & E2 & E3 & E4 & E5 & E6 & E7 & E8 & E9 & E10 & E11 & E12 & E13 & E14 & E15 & E16 & E17) U]. unfold with_leg. rewrite E16.
  destruct (r_llv q) eqn:Lq; cbv zeta.
    split; [|unfold untouched; destruct (next_located rest), (next_located rest'); cbn; rewrite E16; discriminate].
    unfold same_but_geodesy. destruct (next_located rest), (next_located rest'); cbn; rewrite ?E16, ?Lq; repeat (split; [assumption||reflexivity|]); rewrite E16 in E17; exact E17.
  - split; [repeat (split; [assumption|]); split; [congruence|exact E17]|exact U].
Qed.
Lemma route_two l : Forall2 (fun r q => same_but_geodesy r q /\ untouched r q) (route_of G l) (route_of H l).
Proof. unfold route_of. induction l as [|i l IH]; cbn [map with_legs]; constructor; [|exact IH]. apply leg_two, record_two. Qed.
Lemma F2_both {A B} (Q R : A -> B -> Prop) l m : Forall2 (fun a b => Q a b /\ R a b) l m -> Forall2 Q l m /\ Forall2 R l m.
Proof. induction 1 as [|a b l m [X Y] F [IH1 IH2]]; split; constructor; auto. Qed.

Lemma library d d' field b b' s z : parse_field15 G d field = Ok b s -> parse_field15 H d' field = Ok b' z ->
  b = b' /\ e_errs (s_ers s) = e_errs (s_ers z) /\ e_rules (s_ers s) = e_rules (s_ers z) /\
  Forall2 same_but_geodesy (e_recs (s_ers s)) (e_recs (s_ers z)) /\ Forall2 untouched (e_recs (s_ers s)) (e_recs (s_ers z)).
Proof.
  intros A B. destruct (field_tokens field) as [|t ts] eqn:E.
  - unfold parse_field15 in A, B. destruct (field_start field) as (l & E1 & F & N). rewrite F in E. apply map_eq_nil in E. subst l. rewrite E1, parse_empty in A, B.
    injection A as <- <-. injection B as <- <-. repeat (split; [reflexivity|]). split; repeat constructor.
  - assert (N : field_tokens field <> []) by (rewrite E; discriminate). destruct (complete G d field b s N A) as (l & e & R1 & -> & R2). destruct (complete H d' field b' z N B) as (l' & e' & R3 & -> & R4).
    rewrite R1 in R3. injection R3 as <- <-. rewrite R2, R4. unfold ers_of. cbn [e_errs e_rules e_recs]. repeat (split; [reflexivity|]). apply F2_both, route_two.
Qed.
Lemma library_raises d field : 3 * n_tokens field <= d + 1 ->
  match parse_field15 G d field, parse_field15 H d field with Ok _ _, Ok _ _ => True | Exn x _, Exn y _ => x = y | _, _ => False end.
Proof.
  intro D. destruct (field_tokens field) as [|t ts] eqn:E.
  - unfold parse_field15. destruct (field_start field) as (l & E1 & F & N). rewrite F in E. apply map_eq_nil in E. subst l. rewrite E1, !parse_empty. exact I.
  - assert (N : field_tokens field <> []) by (rewrite E; discriminate). pose proof (read_or_raise G d field N D) as A. pose proof (read_or_raise H d field N D) as B.
    destruct (reading (field_tokens field)) as [[l e|]|]; [| |contradiction].
    + destruct A as (b & s & ->), B as (b' & s' & ->). exact I.
    + destruct A as (s & ->), B as (s' & ->). reflexivity.
Qed.
End Two.
