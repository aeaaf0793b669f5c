(** * Accept: a field is accepted exactly when its tokens form a sentence, and then its records
    are the effect of the steps of the derivation. *)
From Coq Require Import ZArith NArith List Bool String Lia.
From Coq Require Import ZifyBool ZifyNat ZifyN.
From Verif Require Import PyBase PyFloat Enums ErrorTable Tokenizer Ers Utils Parser.
From Verif Require Import TokenizerProofs ParserPrims PerfEq PointEq Trace ParseTrace SpecParser ParserFacts ErrMono SpecGrammar GrammarSem Grammar.
Import List ListNotations.
Local Open Scope list_scope.
Local Open Scope nat_scope.

Definition core0 : core := mkK [] adep0 [].
(** The records of a derivation, without and with ADES. *)
Definition core_recs (v : bool) (k : core) : list rrec :=
  (if v then list_upd 0 (set_r_rules RULE_V) else (fun l => l)) (k_l k ++ [k_p k]).
Definition core_final (v : bool) (k : core) : list rrec := core_recs v k ++ [ades_rec (core_recs v k)].

Section G.
Variable G : geodesic.

Definition accept_out (L : list token) (o : out bool) : Prop :=
  match o with
  | Ok b s =>
      (b = true -> exists ss cur calls, derives XStart ss /\ yield ss = L /\
         let rs := core_final (is_vfr_first L) (effs G 0 ss core0) in
         s = mkSt (mkTokens L cur) (mkErs rs [] (derived rs)) calls) /\
      (sentence L -> b = true)
  | Exn e _ => sentence L -> e = RecursionError
  end.

Lemma not_first t L1 : t_base t <> F15_SPEED_VFR -> t_base t <> F15_SPEED_ALTITUDE -> ~ sentence (t :: L1).
Proof.
  intros N1 N2 (ss & D & Y). destruct ss as [|s r]; [discriminate|]. cbn [derives] in D. destruct D as (F & P & _).
  rewrite yield_cons in Y. destruct s; try discriminate F; cbn [tokens_of app proper] in *; injection Y as -> _; tauto.
Qed.
Lemma first_vfr t L1 : t_base t = F15_SPEED_VFR -> sentence (t :: L1) -> exists r, derives (XText KVfr) r /\ yield r = L1.
Proof.
  intros B (ss & D & Y). destruct ss as [|s r]; [discriminate|]. cbn [derives] in D. destruct D as (F & P & D).
  rewrite yield_cons in Y. destruct s; try discriminate F; cbn [tokens_of app proper after] in *; injection Y as -> Y; [destruct P; congruence|]. exists r. auto.
Qed.
Lemma first_alt t L1 : t_base t = F15_SPEED_ALTITUDE -> sentence (t :: L1) -> levels_ok t /\ L1 <> [] /\ exists r, derives XAdep r /\ yield r = L1.
Proof.
  intros B (ss & D & Y). destruct ss as [|s r]; [discriminate|]. cbn [derives] in D. destruct D as (F & P & D).
  rewrite yield_cons in Y. destruct s; try discriminate F; cbn [tokens_of app proper after] in *; injection Y as -> Y; [|congruence]. split; [tauto|]. split; [rewrite <- Y; tauto|]. exists r. auto.
Qed.
Lemma closing_out L cur l p errs k : closing (stt L cur l p errs [] k)
  = Ok (match errs with [] => true | _ => false end)
       (mkSt (mkTokens L cur) (mkErs ((l ++ [p]) ++ [ades_rec (l ++ [p])]) errs (derived ((l ++ [p]) ++ [ades_rec (l ++ [p])]))) k).
Proof. rewrite closing_eq, zlen0. reflexivity. Qed.

(** An error at the start. *)
Lemma accept_err depth L t m x : In t L -> Forall wt L -> us_le x -> defined_error m = true -> ~ sentence L ->
  accept_out L (bind (run G depth (CErrSync t m)) (fun _ => closing) (st_of L [] x)).
Proof.
  intros It HL US D Ns. unfold bind. pose proof (errsync_grows G depth t m (st_of L [] x) D) as E.
  pose proof (run_sat G L [] HL depth (CErrSync t m) 0 x US (conj It D)) as S. unfold sat in S.
  destruct (run G depth (CErrSync t m) (st_of L [] x)) as [[] s|e s]; [|intro; contradiction].
  destruct S as (y & -> & _). destruct E as (e & E & Ne). unfold st_of at 1. rewrite closing_out. cbn [accept_out].
  split; [|intro; contradiction]. change (errs_of (st_of L [] y)) with (c_errs y) in E. destruct (c_errs y); [|discriminate].
  symmetry in E. apply app_eq_nil in E as [_ E]. contradiction.
Qed.
Theorem accept_parse depth L0 c0 k : L0 <> [] -> accept_out (map assign_syntax L0) (parse_f15 G depth (mkSt (mkTokens L0 c0) new_ers k)).
Proof.
  intro Hne. pose proof (assign_syntax_all L0) as HL. destruct (map assign_syntax L0) as [|t L1] eqn:E0; [destruct L0; [congruence|discriminate]|].
  rewrite (parse_eq G depth L0 c0 k t L1 E0). set (L := t :: L1) in *.
  assert (US : us_le (cfg0 k)) by (intros i []). assert (It : In t L) by now left.
  destruct (t_base t) eqn:Eb; try (apply accept_err; auto; apply not_first; rewrite Eb; discriminate).
  - (* speed/VFR first *)
    assert (P : prec L (CSpdVfr t) (cfg0 k)) by (split; [reflexivity|exact Eb]).
    pose proof (run_J G L [] HL depth _ _ P) as H. unfold J in H.
    pose proof (run_sat G L [] HL depth (CSpdVfr t) 0 (cfg0 k) US (conj eq_refl (conj (le_n 0) (conj (fun F => F) Eb)))) as S. unfold sat in S.
    assert (C : sentence L -> can G L (CSpdVfr t) (cfg0 k)).
    { intro Sn. destruct (first_vfr t L1 Eb Sn) as (r & Dr & Yr). cbn [can can_t tgt]. split; [exact I|]. exists r. auto. }
    rewrite bind_assoc. unfold bind at 1. destruct (run G depth (CSpdVfr t) (st_of L [] (cfg0 k))) as [[] s|e s]; [|cbn [accept_out]; auto].
    destruct S as (y & -> & _). destruct H as [H1 H2]. change (errs_of (st_of L [] y)) with (c_errs y) in *. cbn [cfg0 c_errs] in H1, H2.
    unfold st_of at 1. rewrite bind_assoc.
    bok (first_elem_eq L (Z.of_nat (c_cur y)) (c_l y) (c_p y) (c_errs y) [] (c_k y)). cbn [deref opt_or]. rewrite bind_assoc. bret.
    assert (U : exists l p, upd 0 (set_r_rules RULE_V) (stt L (Z.of_nat (c_cur y)) (c_l y) (c_p y) (c_errs y) [] (c_k y))
                  = Ok tt (stt L (Z.of_nat (c_cur y)) l p (c_errs y) [] (c_k y)) /\ l ++ [p] = list_upd 0 (set_r_rules RULE_V) (c_l y ++ [c_p y])).
    { unfold upd, stt. cbn [s_ers e_recs s_toks s_calls e_errs e_rules]. destruct (c_l y) as [|f l].
      - exists [], (set_r_rules RULE_V (c_p y)). split; reflexivity.
      - exists (set_r_rules RULE_V f :: l), (c_p y). split; reflexivity. }
    destruct U as (l & p & U & El). bok U. rewrite closing_out. cbn [accept_out]. split.
    + intro B. assert (Ee : c_errs y = []) by (destruct (c_errs y); [reflexivity|discriminate]). specialize (H1 Ee). cbn [good good_t tgt] in H1.
      destruct H1 as [_ (r & Dr & Yr & (cur & calls & _ & Es))]. exists (SFirstVfr t :: r), (Z.of_nat (c_cur y)), (c_k y).
      split; [cbn [derives follows proper after]; auto|]. split; [rewrite yield_cons; cbn [tokens_of app]; rewrite Yr; reflexivity|].
      rewrite (effs_1 G 0 (SFirstVfr t) t r core0 eq_refl). cbv zeta.
      assert (V : is_vfr_first L = true) by (unfold is_vfr_first, L; rewrite Eb; reflexivity). rewrite V, El, Ee.
      assert (Ek : c_l y ++ [c_p y] = k_l (effs G 1 r (eff1 G 0 (SFirstVfr t) core0)) ++ [k_p (effs G 1 r (eff1 G 0 (SFirstVfr t) core0))]).
      { apply (f_equal (fun s => e_recs (s_ers s))) in Es. unfold st_of, stt in Es. cbn [s_ers e_recs c_l c_p] in Es. exact Es. }
      rewrite Ek. reflexivity.
    + intro Sn. rewrite (H2 (C Sn)). reflexivity.
  - (* speed/level first *)
    assert (P : prec L (CSpdAlt t) (cfg0 k)) by (split; [reflexivity|exact Eb]).
    pose proof (run_J G L [] HL depth _ _ P) as H. unfold J in H.
    pose proof (run_sat G L [] HL depth (CSpdAlt t) 0 (cfg0 k) US (conj It Eb)) as S. unfold sat in S.
    assert (C : sentence L -> can G L (CSpdAlt t) (cfg0 k)).
    { intro Sn. destruct (first_alt t L1 Eb Sn) as (Lv & _ & r & Dr & Yr). cbn [can can_t tgt c_l cfg0]. split; [exact Lv|]. exists r. auto. }
    rewrite bind_assoc. unfold bind at 1. destruct (run G depth (CSpdAlt t) (st_of L [] (cfg0 k))) as [[] s|e s]; [|cbn [accept_out]; auto].
    destruct S as (y & -> & R & _). destruct H as [H1 H2]. change (errs_of (st_of L [] y)) with (c_errs y) in *. cbn [cfg0 c_errs] in H1, H2.
    pose proof (reach_us_le G L _ _ R US) as Uy.
    rewrite bind_assoc. unfold bind at 1. unfold tok_count at 1. cbv beta iota.
    destruct (_ =? 1)%Z eqn:E1.
    + assert (L1e : L1 = []).
      { unfold get_number_of_tokens, st_of, stt, zlen in E1. cbn [s_toks tk_list] in E1. unfold L in E1. cbn [length] in E1. destruct L1; [reflexivity|cbn [length] in E1; lia]. }
      apply accept_err; auto. intro Sn. destruct (first_alt t L1 Eb Sn) as (_ & K & _). contradiction.
    + assert (L1e : L1 <> []).
      { intro K. unfold get_number_of_tokens, st_of, stt, zlen in E1. cbn [s_toks tk_list] in E1. unfold L in E1. rewrite K in E1. discriminate. }
      bret. unfold st_of at 1. rewrite closing_out. cbn [accept_out]. split.
      * intro B. assert (Ee : c_errs y = []) by (destruct (c_errs y); [reflexivity|discriminate]). specialize (H1 Ee). cbn [good good_t tgt c_l cfg0] in H1.
        destruct H1 as [Lv (r & Dr & Yr & (cur & calls & _ & Es))]. exists (SFirst t :: r), (Z.of_nat (c_cur y)), (c_k y).
        split; [cbn [derives follows proper after]; split; [reflexivity|]; split; [|exact Dr]; split; [exact Eb|]; split; [exact Lv|]; rewrite Yr; exact L1e|].
        split; [rewrite yield_cons; cbn [tokens_of app]; rewrite Yr; reflexivity|].
        rewrite (effs_1 G 0 (SFirst t) t r core0 eq_refl). cbv zeta.
        assert (V : is_vfr_first L = false) by (unfold is_vfr_first, L; rewrite Eb; reflexivity). rewrite V, Ee.
        assert (Ek : c_l y ++ [c_p y] = k_l (effs G 1 r (eff1 G 0 (SFirst t) core0)) ++ [k_p (effs G 1 r (eff1 G 0 (SFirst t) core0))]).
        { apply (f_equal (fun s => e_recs (s_ers s))) in Es. unfold st_of, stt in Es. cbn [s_ers e_recs c_l c_p] in Es. exact Es. }
        rewrite Ek. reflexivity.
      * intro Sn. rewrite (H2 (C Sn)). reflexivity.
Qed.
End G.

Section Field.
Variable G : geodesic.
Lemma accepted depth field s : parse_field15 G depth field = Ok true s ->
  exists ss, derives XStart ss /\ yield ss = field_tokens field /\
    let rs := core_final (is_vfr_first (field_tokens field)) (effs G 0 ss core0) in s_ers s = mkErs rs [] (derived rs).
Proof.
  unfold parse_field15. destruct (field_start field) as (l & E & F & N). rewrite E, F. intro H.
  destruct l as [|t l]; [rewrite parse_empty in H; discriminate|].
  pose proof (accept_parse G depth (t :: l) 0 0 ltac:(discriminate)) as A. rewrite H in A. cbn [accept_out] in A. destruct A as [A _].
  destruct (A eq_refl) as (ss & cur & calls & D & Y & ->). exists ss. auto.
Qed.
Lemma accepted_sentence depth field s : parse_field15 G depth field = Ok true s -> sentence (field_tokens field).
Proof. intro H. destruct (accepted _ _ _ H) as (ss & D & Y & _). exists ss. auto. Qed.
Lemma sentence_accepted depth field : 3 * n_tokens field <= depth + 1 -> sentence (field_tokens field) -> exists s, parse_field15 G depth field = Ok true s.
Proof.
  intros Hd Sn. unfold parse_field15. destruct (field_start field) as (l & E & F & N). rewrite E. rewrite F in Sn. rewrite N in Hd.
  destruct l as [|t l]; [destruct Sn as (ss & D & Y); destruct ss as [|s r]; [discriminate|]; cbn [derives] in D; destruct D as (K & _); destruct s; discriminate|].
  pose proof (accept_parse G depth (t :: l) 0 0 ltac:(discriminate)) as A. pose proof (no_recursion_error G depth (t :: l) 0%Z 0 Hd) as R.
  destruct (parse_f15 _ _ _) as [b s|e s]; cbn [accept_out] in A.
  - destruct A as [_ A]. rewrite (A Sn). exists s. reflexivity.
  - exfalso. apply R. exact (A Sn).
Qed.
Lemma accepts_iff depth field : 3 * n_tokens field <= depth + 1 -> ((exists s, parse_field15 G depth field = Ok true s) <-> sentence (field_tokens field)).
Proof. intro H. split; [intros [s K]; exact (accepted_sentence _ _ _ K)|exact (sentence_accepted depth field H)]. Qed.
End Field.
