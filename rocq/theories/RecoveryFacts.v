(** * RecoveryFacts: the invariants of the reading machine for the results of the parser. *)
From Coq Require Import ZArith NArith List Bool String Lia ZifyBool Sorted.
From Verif Require Import PyBase PyFloat Enums Tokenizer Ers Utils Parser SpecNum SpecParser SpecGrammar SpecAccept SpecDiagnosis SpecReader SpecRecovery ReaderFacts AcceptFacts ReaderOrder.
Import List ListNotations.
Local Open Scope list_scope.
Local Open Scope Z_scope.

Lemma starts_lt field : StronglySorted Z.lt (map t_start (field_tokens field)).
Proof.
  destruct (field_order field) as [O0 F]. induction O0 as [|t l H IH Hf]; cbn [map]; [constructor|]. inversion F as [|? ? F1 F2]; subst.
  constructor; [now apply IH|]. apply Forall_map. apply Forall_forall. intros x X. rewrite Forall_forall in Hf. specialize (Hf x X). lia.
Qed.
Lemma starts_le field : StronglySorted Z.le (map t_start (field_tokens field)).
Proof. pose proof (starts_lt field) as H. induction H as [|t l H IH Hf]; constructor; [exact IH|]. revert Hf. apply Forall_impl. intros. lia. Qed.

(** The records of the machine and those of the parser. *)
Definition same_place (i j : item) : Prop := i_start i = i_start j /\ i_end i = i_end j /\ i_text i = i_text j.
Lemma conclude_recs L s : exists l' z, fst (conclude L s) = l' ++ [z] /\ Forall2 same_place (all s) l'.
Proof.
  unfold conclude, all. cbv zeta. cbn [fst]. set (l := n_before s ++ [n_last s]).
  assert (R : forall l0, Forall2 same_place l0 l0) by (intro l0; induction l0; constructor; [repeat split|assumption]).
  set (l' := match L, l with t :: _, i :: r => _ | _, _ => _ end).
  exists l'. eexists. split; [reflexivity|]. unfold l'. destruct L as [|t L]; [apply R|]. destruct l as [|i r]; [apply R|].
  destruct (base_eqb (t_base t) F15_SPEED_VFR); [|apply R]. constructor; [repeat split|apply R].
Qed.
Lemma conclude_reports L s : exists e, snd (conclude L s) = n_reports s ++ e.
Proof.
  unfold conclude. cbv zeta. cbn [snd]. destruct L as [|t [|u L]]; [exists []; now rewrite app_nil_r| |exists []; now rewrite app_nil_r].
  destruct (base_eqb (t_base t) F15_SPEED_ALTITUDE); [eexists; reflexivity|exists []; now rewrite app_nil_r].
Qed.
Lemma Forall2_Exists_lr {A B} (R : A -> B -> Prop) (P : A -> Prop) (Q : B -> Prop) a b : Forall2 R a b -> (forall x y, R x y -> P x -> Q y) -> Exists P a -> Exists Q b.
Proof. intros F H E. induction F; inversion E; subst; [constructor; eauto|apply Exists_cons_tl; auto]. Qed.
Lemma item_exists (P : item -> Prop) (Q : rrec -> Prop) l : (forall r, P (item_of r) -> Q r) -> Exists P (map item_of l) -> Exists Q l.
Proof. intros H E. induction l as [|a l IH]; cbn [map] in E; inversion E; subst; [constructor; auto|apply Exists_cons_tl; auto]. Qed.

Section G.
Variable G : geodesic.
(** The machine behind a run. *)
Lemma run_notes depth field b s : field_tokens field <> [] -> parse_field15 G depth field = Ok b s ->
  exists q, begin (field_tokens field) = Done q /\
    map item_of (e_recs (s_ers s)) = fst (conclude (field_tokens field) q) /\
    Forall2 (fun p x => reports (fst p) (snd p) x) (snd (conclude (field_tokens field) q)) (e_errs (s_ers s)) /\
    b = (match snd (conclude (field_tokens field) q) with [] => true | _ => false end).
Proof.
  intros Hne H. destruct (whole_result G depth field b s Hne H) as (l & e & R & A & B & C & _). unfold reading in R.
  destruct (begin (field_tokens field)) as [q|q|]; [|discriminate|discriminate]. exists q. split; [reflexivity|].
  destruct (conclude (field_tokens field) q) as [l0 e0]. injection R as -> ->. auto.
Qed.
Lemma nothing_skipped depth field b s : field_tokens field <> [] -> parse_field15 G depth field = Ok b s ->
  exists before after, field_tokens field = before ++ after /\
    (forall t, In t before -> is_element t = true -> shown (s_ers s) t) /\
    (after = [] \/ b = false /\ exists l t, before = l ++ [t] /\ t_base t = F15_BREAK_END).
Proof.
  intros Hne H. destruct (run_notes depth field b s Hne H) as (q & Q & A & B & C). destruct (read_covers _ _ Q) as (d & r & D1 & D2 & D3).
  exists d, r. split; [exact D1|]. destruct (conclude_recs (field_tokens field) q) as (l' & z & R1 & R2). destruct (conclude_reports (field_tokens field) q) as [e Re]. rewrite R1 in A. rewrite Re in B, C. split.
  - intros t Ht El. rewrite Forall_forall in D2. destruct (D2 t Ht El) as [K|[[m K]|K]].
    + left. apply (item_exists (fun i => i_start i = t_start t /\ i_end i = t_end t)); [auto|]. rewrite A. apply Exists_app. left.
      eapply Forall2_Exists_lr; [exact R2| |exact K]. intros x y (S1 & S2 & _) [X1 X2]. now rewrite <- S1, <- S2.
    + right. left. eapply Forall2_Exists_lr; [exact B| |]; [|apply Exists_app; left; apply Exists_exists; exists (t, m); split; [exact K|exact (eq_refl (t, m))]].
      intros [t' m'] y R E. injection E as -> ->. destruct R as (R3 & R4 & R5 & _). auto.
    + right. right. apply (item_exists (fun i => exists u v, i_text i = u ++ t_text t ++ v)); [auto|]. rewrite A. apply Exists_app. left.
      eapply Forall2_Exists_lr; [exact R2| |exact K]. intros x y (_ & _ & S3) (u & v & X). exists u, v. now rewrite <- S3.
  - destruct D3 as [D3|(d' & t & D3 & D4 & D5)]; [now left|]. right. split; [|now exists d', t]. rewrite C. destruct (n_reports q); [congruence|reflexivity].
Qed.
Lemma all_shown depth field b s t : parse_field15 G depth field = Ok b s -> (forall x, In x (field_tokens field) -> t_base x <> F15_BREAK_END) ->
  In t (field_tokens field) -> is_element t = true -> shown (s_ers s) t.
Proof.
  intros H N Ht El. assert (Hne : field_tokens field <> []) by (intro E; rewrite E in Ht; destruct Ht).
  destruct (nothing_skipped depth field b s Hne H) as (d & r & D1 & D2 & [ -> | (_ & l & x & -> & X) ]).
  - rewrite app_nil_r in D1. apply D2; [now rewrite <- D1|exact El].
  - exfalso. apply (N x); [rewrite D1; apply in_or_app; left; apply in_or_app; right; now left|exact X].
Qed.
Lemma starts_items l : map r_start l = map i_start (map item_of l).
Proof. rewrite map_map. reflexivity. Qed.
Lemma has_exists m L q errs0 : has m q = true -> Forall2 (fun p x => reports (fst p) (snd p) x) (snd (conclude L q)) errs0 -> Exists (fun x => exists t, reports t m x) errs0.
Proof.
  intros H F. destruct (conclude_reports L q) as [e E]. rewrite E in F. unfold has in H. apply existsb_exists in H as ((t & m') & I0 & X). cbn in X. apply Z.eqb_eq in X. subst m'.
  eapply Forall2_Exists_lr; [exact F| |]; [|apply Exists_app; left; apply Exists_exists; exists (t, m); split; [exact I0|exact (eq_refl (t, m))]].
  intros [t' m'] y R E'. injection E' as -> ->. eexists. exact R.
Qed.
Lemma records_in_order depth field b s : field_tokens field <> [] -> parse_field15 G depth field = Ok b s ->
  Exists (fun x => exists t, reports t 48 x) (e_errs (s_ers s)) \/
  exists a mid z, e_recs (s_ers s) = a :: mid ++ [z] /\ StronglySorted Z.lt (map r_start mid).
Proof.
  intros Hne H. destruct (run_notes depth field b s Hne H) as (q & Q & A & B & _). destruct (read_in_order _ _ (starts_lt field) Q) as [K|K].
  - left. exact (has_exists 48 _ q _ K B).
  - right. destruct (conclude_recs (field_tokens field) q) as (l' & z & R1 & R2). rewrite R1 in A. unfold all, places in *.
    destruct (n_before q) as [|i0 r].
    + destruct l' as [|a [|]]; inversion R2; subst; [|inversion H5]. destruct (e_recs (s_ers s)) as [|x [|y [|]]]; try discriminate A. exists x, [], y. split; [reflexivity|constructor].
    + cbn [app] in R2. inversion R2 as [|? a ? m' S0 S1]; subst. destruct (e_recs (s_ers s)) as [|x w]; [discriminate|]. cbn [map app] in A. injection A as _ A.
      destruct w as [|z0 w] using rev_ind; [symmetry in A; now apply app_eq_nil in A|]. clear IHw. rewrite map_app in A. cbn [map] in A. apply app_inj_tail in A as [A _].
      exists x, w, z0. split; [reflexivity|]. rewrite starts_items, A. replace (map i_start m') with (map i_start (r ++ [n_last q])); [exact K|]. clear - S1. induction S1 as [|? ? ? ? [X _] _ IH]; cbn [map]; [reflexivity|congruence].
Qed.
Lemma errors_in_order depth field b s : field_tokens field <> [] -> parse_field15 G depth field = Ok b s ->
  Exists (fun x => exists t, reports t 48 x \/ reports t 28 x) (e_errs (s_ers s)) \/ StronglySorted Z.le (map r_start (e_errs (s_ers s))).
Proof.
  intros Hne H. destruct (run_notes depth field b s Hne H) as (q & Q & A & B & _). destruct (reports_in_order _ _ (starts_le field) Q) as [K|K].
  - left. unfold late in K. apply orb_true_iff in K as [K|K]; (eapply Exists_impl; [|exact (has_exists _ _ q _ K B)]); intros x [t X]; exists t; auto.
  - right. assert (E : map r_start (e_errs (s_ers s)) = map (fun p => t_start (fst p)) (snd (conclude (field_tokens field) q))).
    { clear - B. induction B as [|? ? ? ? (_ & X & _) _ IH]; cbn [map]; [reflexivity|congruence]. }
    rewrite E. unfold conclude. cbv zeta. cbn [snd]. unfold errs in K. destruct (field_tokens field) as [|t [|u L]] eqn:F; [exact K| |exact K].
    destruct (base_eqb (t_base t) F15_SPEED_ALTITUDE) eqn:X; [|exact K]. apply base_eqb_eq in X. unfold begin, start in Q. rewrite X in Q. cbn in Q. injection Q as <-.
    cbn [n_reports report]. rewrite map_app. cbn [map fst]. clear.
    assert (G1 : forall (l : list Z) , StronglySorted Z.le (map (fun _ => t_start t) l ++ [t_start t])); [|].
    { induction l as [|m l IH]; [repeat constructor|]. constructor; [exact IH|]. apply Forall_app. split; [apply Forall_map, Forall_forall; intros; lia|repeat constructor; lia]. }
    change (map (fun p : token * Z => t_start (fst p)) (n_reports (speeds t blank_notes))) with (errs (speeds t blank_notes)). rewrite errs_speeds. exact (G1 _).
Qed.
End G.
