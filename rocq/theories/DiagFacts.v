(** * DiagFacts: the first error of parse_f15 and of whole fields. *)
From Coq Require Import ZArith NArith List Bool String Lia.
From Coq Require Import ZifyBool ZifyNat ZifyN.
From Verif Require Import PyBase PyFloat Enums ErrorTable Tokenizer Ers Utils Parser.
From Verif Require Import TokenizerProofs ParserPrims PerfEq PointEq Trace ParseTrace SpecParser ParserFacts ErrMono SpecGrammar GrammarSem Grammar Accept SpecDiagnosis Diagnosis.
Import List ListNotations.
Local Open Scope list_scope.
Local Open Scope nat_scope.

(** The messages are those of the table. *)
Definition okp (p : place) : bool := match p with PLast m => defined_error m | _ => true end.
Lemma okp_after p t : okp p = true -> okp (place_after p t) = true.
Proof. intro H. unfold place_after. destruct p; try (destruct (t_base t); reflexivity); reflexivity. Qed.
Lemma misplaced_ok p t : okp p = true -> defined_error (misplaced p t) = true.
Proof.
  intro H. assert (Es : defined_error (stray_end t) = true) by (unfold stray_end; destruct (t_sub t); reflexivity).
  unfold misplaced. destruct p; try exact H; destruct (t_base t); try reflexivity; exact Es.
Qed.
Lemma angles_ok t u m : angles t = Report u m -> defined_error m = true /\ u = t.
Proof.
  unfold angles, angle_fault, deg_fault, min_fault, brg_fault, or_else. intro H.
  destruct (t_sub t); try discriminate H;
    repeat match type of H with context [over ?a ?c] => destruct (over a c) | context [over_min ?a ?c ?e] => destruct (over_min a c e) end;
    try discriminate H; injection H as <- <-; split; reflexivity.
Qed.
Lemma levels_rep t u m : levels t = Report u m -> defined_error m = true /\ u = t.
Proof. unfold levels. destruct (unconvertible t); [discriminate|]. destruct (level_fault t); [|discriminate]. intro H. injection H as <- <-. split; reflexivity. Qed.
Lemma value_rep p t r u m : value_fault p t r = Report u m -> defined_error m = true /\ u = t.
Proof.
  unfold value_fault. destruct p as [| | | | |b| |sl b|sl|q|q|sk|sl|k|k|n]; try (destruct (t_base t); try discriminate; apply angles_ok); try apply angles_ok; try apply levels_rep.
  destruct k; try apply angles_ok. destruct r as [|x [|sp r]]; try apply angles_ok. destruct (base_eqb _ _); [discriminate|apply angles_ok].
Qed.
(** The tokens a place remembers. *)
Definition held (p : place) : list token :=
  match p with PSlash t _ | PClimb t | PClimbPt t | PClimbSl t | PStayTok t | PStaySl t => [t] | _ => [] end.
Lemma held_after p t u : In u (held (place_after p t)) -> u = t \/ In u (held p).
Proof. unfold place_after, held. destruct p; try (destruct (t_base t)); cbn [In]; intuition congruence. Qed.
Lemma diag_rep ts : forall p u m, okp p = true -> diag p ts = Report u m -> defined_error m = true /\ (In u ts \/ In u (held p)).
Proof.
  induction ts as [|t ts IH]; intros p u m Hp H; cbn [diag] in H.
  - unfold stop in H. destruct p; try discriminate H; injection H as <- <-; (split; [reflexivity|right; left; reflexivity]).
  - assert (Gen : (if fits p t then then_ (value_fault p t ts) (diag (place_after p t) ts) else Report t (misplaced p t)) = Report u m -> defined_error m = true /\ (In u (t :: ts) \/ In u (held p))).
    { clear H. intro H. destruct (fits p t).
      - unfold then_ in H. destruct (value_fault p t ts) as [|t' m'|] eqn:E; [|injection H as -> ->|discriminate].
        + destruct (IH _ _ _ (okp_after p t Hp) H) as [D [K|K]]; (split; [exact D|]); [left; now right|]. destruct (held_after _ _ _ K) as [->|Q]; [left; now left|now right].
        + destruct (value_rep _ _ _ _ _ E) as [D ->]. split; [exact D|]. left. now left.
      - injection H as <- <-. split; [now apply misplaced_ok|]. left. now left. }
    destruct p; try exact (Gen H). clear Gen.
    destruct (base_eqb _ _); [injection H as <- <-; split; [reflexivity|left; now left]|].
    assert (Go : forall q, held q = [] -> okp q = true -> diag q ts = Report u m -> defined_error m = true /\ (In u (t :: ts) \/ In u (held (PText k)))).
    { intros q Hh Hq Hd. destruct (IH _ _ _ Hq Hd) as [D [K|K]]; [split; [exact D|left; now right]|]. rewrite Hh in K. destruct K. }
    destruct (ends _ _); [|exact (Go (PText k) eq_refl eq_refl H)]. destruct (resume k ts); [exact (Go (PText k) eq_refl eq_refl H)|exact (Go (PJoin k) eq_refl eq_refl H)|].
    destruct ts as [|q ts]; [discriminate|]. injection H as <- <-. split; [reflexivity|]. left. right. now left.
Qed.
Lemma diagnose_rep ts u m : diagnose ts = Report u m -> defined_error m = true /\ In u ts.
Proof.
  destruct ts as [|t ts]; [discriminate|]. unfold diagnose.
  assert (Go : forall q, held q = [] -> okp q = true -> diag q ts = Report u m -> defined_error m = true /\ In u (t :: ts)).
  { intros q Hh Hq Hd. destruct (diag_rep _ _ _ _ Hq Hd) as [D [K|K]]; [split; [exact D|now right]|]. rewrite Hh in K. destruct K. }
  destruct (t_base t); try (intro H; injection H as <- <-; split; [reflexivity|now left]).
  - exact (Go (PText KVfr) eq_refl eq_refl).
  - unfold then_. destruct (levels t) as [|t' m'|] eqn:E; [|intro H; injection H as -> ->; destruct (levels_rep _ _ _ E) as [D ->]; split; [exact D|now left]|discriminate].
    destruct ts as [|q ts]; [intro H; injection H as <- <-; split; [reflexivity|now left]|]. exact (Go PAdep eq_refl eq_refl).
Qed.

Section G.
Variable G : geodesic.

(** How parse_f15 ends. *)
Definition ends_as (o : out bool) (v : verdict) : Prop :=
  match o with
  | Exn RecursionError _ => True
  | _ =>
      match v with
      | Fine => exists s, o = Ok true s /\ e_errs (s_ers s) = []
      | Report t n => (exists r, e_errs (s_ers (final o)) = err t n :: r) /\ forall b s, o = Ok b s -> b = false
      | Fails => exists s, o = Exn ValueError s
      end
  end.
Lemma closing_ends L l p errs cur k v : (match v with Fine => errs = [] | Report t n => exists r, errs = err t n :: r | Fails => False end) ->
  ends_as (closing (stt L cur l p errs [] k)) v.
Proof.
  intro H. rewrite closing_out. unfold ends_as, final. cbn [s_ers e_errs]. destruct v; [| |destruct H].
  - rewrite H. eexists. split; reflexivity.
  - destruct H as [r ->]. split; [exists r; reflexivity|]. intros b s K. injection K as <- _. reflexivity.
Qed.
(** An error at the start. *)
Lemma ends_err depth L t m u n x : In u L -> Forall wt L -> us_le x -> defined_error n = true -> (c_errs x = [] /\ t = u /\ m = n \/ exists r, c_errs x = err t m :: r) ->
  ends_as (bind (run G depth (CErrSync u n)) (fun _ => closing) (st_of L [] x)) (Report t m).
Proof.
  intros It HL US Dn Hx. unfold bind. pose proof (D_err G L [] depth u n x Dn) as H. unfold D in H.
  pose proof (run_sat G L [] HL depth (CErrSync u n) 0 x US (conj It Dn)) as S. unfold sat in S.
  assert (K : forall s, (exists r, errs_of s = c_errs x ++ err u n :: r) -> exists r, errs_of s = err t m :: r).
  { intros s [r E]. rewrite E. destruct Hx as [(-> & -> & ->)|[r' ->]]; [exists r; reflexivity|]. eexists. reflexivity. }
  destruct (run G depth (CErrSync u n) (st_of L [] x)) as [[] s|e s].
  - destruct S as (y & -> & _). unfold st_of at 1. apply closing_ends. destruct (K _ H) as [r E]. exists r. exact E.
  - destruct e; try exact I; (split; [exact (K _ H)|intros b s' Q; discriminate]).
Qed.
Theorem parse_ends depth L0 c0 k : L0 <> [] -> ends_as (parse_f15 G depth (mkSt (mkTokens L0 c0) new_ers k)) (diagnose (map assign_syntax L0)).
Proof.
  intro Hne. pose proof (assign_syntax_all L0) as HL. destruct (map assign_syntax L0) as [|t L1] eqn:E0; [destruct L0; [congruence|discriminate]|].
  rewrite (parse_eq G depth L0 c0 k t L1 E0). unfold diagnose. cbv beta iota. set (L := t :: L1) in *.
  assert (US : us_le (cfg0 k)) by (intros i []). assert (It : In t L) by now left.
  destruct (t_base t) eqn:Eb; try (refine (ends_err depth L t 1 t 1 (cfg0 k) It HL US eq_refl _); left; repeat split; reflexivity).
  - (* speed/VFR first *)
    assert (P : prec L (CSpdVfr t) (cfg0 k)) by (split; [reflexivity|exact Eb]).
    pose proof (run_D G L [] HL depth _ _ P) as H. cbn [dvc cfg0 c_cur] in H. unfold D in H. change (at_ L (PText KVfr) 1) with (diag (PText KVfr) L1) in H. cbn [c_errs app] in H.
    pose proof (run_sat G L [] HL depth (CSpdVfr t) 0 (cfg0 k) US (conj eq_refl (conj (le_n 0) (conj (fun F => F) Eb)))) as S. unfold sat in S.
    rewrite bind_assoc. unfold bind at 1. change (mkC 0 [] adep0 [] [] k) with (cfg0 k) in H. destruct (run G depth (CSpdVfr t) (st_of L [] (cfg0 k))) as [[] s|e s].
    + destruct S as (y & -> & _). unfold st_of at 1. rewrite bind_assoc.
      bok (first_elem_eq L (Z.of_nat (c_cur y)) (c_l y) (c_p y) (c_errs y) [] (c_k y)). cbn [deref opt_or]. rewrite bind_assoc. bret.
      assert (U : exists l p, upd 0 (set_r_rules RULE_V) (stt L (Z.of_nat (c_cur y)) (c_l y) (c_p y) (c_errs y) [] (c_k y))
                    = Ok tt (stt L (Z.of_nat (c_cur y)) l p (c_errs y) [] (c_k y))).
      { unfold upd, stt. cbn [s_ers e_recs s_toks s_calls e_errs e_rules]. destruct (c_l y) as [|f l].
        - exists [], (set_r_rules RULE_V (c_p y)). reflexivity.
        - exists (set_r_rules RULE_V f :: l), (c_p y). reflexivity. }
      destruct U as (l & p & U). bok U. apply closing_ends. change (errs_of (st_out (Ok tt (st_of L [] y)))) with (c_errs y) in H.
      destruct (diag (PText KVfr) L1); [destruct H as (s & K & E); injection K as <-; exact E|exact H|destruct H as (s & K); discriminate].
    + destruct e; try exact I; (destruct (diag (PText KVfr) L1); [destruct H as (s' & K & _); discriminate|split; [exact H|intros b s' Q; discriminate]|destruct H as (s' & K); try discriminate K; eexists; reflexivity]).
  - (* speed/level first *)
    assert (P : prec L (CSpdAlt t) (cfg0 k)) by (split; [reflexivity|exact Eb]).
    pose proof (run_D G L [] HL depth _ _ P) as H. cbn [dvc cfg0 c_cur c_l] in H. unfold D in H. change (at_ L PAdep 1) with (diag PAdep L1) in H. cbn [c_errs app] in H.
    pose proof (run_sat G L [] HL depth (CSpdAlt t) 0 (cfg0 k) US (conj It Eb)) as S. unfold sat in S.
    rewrite bind_assoc. unfold bind at 1. change (mkC 0 [] adep0 [] [] k) with (cfg0 k) in H. destruct (run G depth (CSpdAlt t) (st_of L [] (cfg0 k))) as [[] s|e s].
    + destruct S as (y & -> & R & _). pose proof (reach_us_le G L _ _ R US) as Uy.
      rewrite bind_assoc. unfold bind at 1. unfold tok_count at 1. cbv beta iota.
      assert (H' : match then_ (levels t) (diag PAdep L1) with Fine => c_errs y = [] | Report u m => exists r, c_errs y = err u m :: r | Fails => False end).
      { destruct (then_ (levels t) (diag PAdep L1)); [destruct H as (s & K & E); injection K as <-; exact E|exact H|destruct H as (s & K); discriminate]. }
      destruct (_ =? 1)%Z eqn:E1.
      * assert (L1e : L1 = []).
        { unfold get_number_of_tokens, st_of, stt, zlen in E1. cbn [s_toks tk_list] in E1. unfold L in E1. cbn [length] in E1. destruct L1; [reflexivity|cbn [length] in E1; lia]. }
        rewrite L1e in H' |- *. unfold then_ in *. destruct (levels t) as [|u m|]; [| |destruct H'].
        -- cbn [diag stop] in H'. apply ends_err; auto.
        -- apply ends_err; auto.
      * assert (L1e : exists q r, L1 = q :: r).
        { destruct L1 as [|q r]; [|eauto]. exfalso. unfold get_number_of_tokens, st_of, stt, zlen in E1. cbn [s_toks tk_list] in E1. unfold L in E1. discriminate. }
        destruct L1e as (q & r & L1e). bret. unfold st_of at 1. apply closing_ends. rewrite L1e in *. exact H'.
    + assert (Ev : exists v, v = then_ (levels t) (match L1 with [] => Report t 49 | _ => diag PAdep L1 end)) by eauto. destruct Ev as [v Ev]. rewrite <- Ev.
      destruct e; try exact I; unfold then_ in *; (destruct (levels t) as [|u m|];
       [ destruct L1 as [|q r]; [cbn [diag stop] in H; destruct H as (s' & K & _); discriminate|];
         rewrite Ev; destruct (diag PAdep (q :: r)); [destruct H as (s' & K & _); discriminate|split; [exact H|intros b s' Q; discriminate]|destruct H as (s' & K); try discriminate K; eexists; reflexivity]
       | rewrite Ev; split; [exact H|intros b s' Q; discriminate]
       | rewrite Ev; destruct H as (s' & K); try discriminate K; eexists; reflexivity ]).
Qed.

(** ** Fields *)
Lemma field_ends depth field : field_tokens field <> [] -> ends_as (parse_field15 G depth field) (diagnose (field_tokens field)).
Proof.
  intro Hne. unfold parse_field15. destruct (field_start field) as (l & E & F & N). rewrite E. rewrite F in *. apply parse_ends. destruct l; [contradiction|discriminate].
Qed.
Theorem first_error_field depth field b s : field_tokens field <> [] -> parse_field15 G depth field = Ok b s ->
  match diagnose (field_tokens field) with
  | Fine => b = true /\ e_errs (s_ers s) = []
  | Report t m => b = false /\ exists e es, e_errs (s_ers s) = e :: es /\ reports t m e
  | Fails => False
  end.
Proof.
  intros Hne H. pose proof (field_ends depth field Hne) as E. rewrite H in E. unfold ends_as, final in E.
  destruct (diagnose (field_tokens field)) as [|t m|] eqn:Dg.
  - destruct E as (s' & K & Ee). injection K as -> ->. auto.
  - destruct E as [[r Er] Hb]. split; [exact (Hb _ _ eq_refl)|]. exists (err t m), r. split; [exact Er|]. apply err_reports. exact (proj1 (diagnose_rep _ _ _ Dg)).
  - destruct E as [s' K]. discriminate.
Qed.
Lemma no_rec depth field : 3 * n_tokens field <= depth + 1 -> forall s, parse_field15 G depth field <> Exn RecursionError s.
Proof.
  intros Hd s. unfold parse_field15. destruct (field_start field) as (l & E & F & N). rewrite E. rewrite N in Hd.
  pose proof (no_recursion_error G depth l 0%Z 0 Hd) as R. intro K. rewrite K in R. now apply R.
Qed.
Theorem fails_field depth field : field_tokens field <> [] -> 3 * n_tokens field <= depth + 1 -> diagnose (field_tokens field) = Fails ->
  exists s, parse_field15 G depth field = Exn ValueError s.
Proof.
  intros Hne Hd Hf. pose proof (field_ends depth field Hne) as E. rewrite Hf in E. pose proof (no_rec depth field Hd) as R. unfold ends_as in E.
  destruct (parse_field15 G depth field) as [b s|[] s]; try exact E. exfalso. now apply (R s).
Qed.
Theorem fine_field depth field : field_tokens field <> [] -> 3 * n_tokens field <= depth + 1 -> diagnose (field_tokens field) = Fine ->
  exists s, parse_field15 G depth field = Ok true s.
Proof.
  intros Hne Hd Hf. pose proof (field_ends depth field Hne) as E. rewrite Hf in E. pose proof (no_rec depth field Hd) as R. unfold ends_as in E.
  destruct (parse_field15 G depth field) as [b s|[] s]; try (destruct E as (s' & E & _); eauto). exfalso. now apply (R s).
Qed.
End G.

Theorem fine_sentence (G : geodesic) field : field_tokens field <> [] -> (diagnose (field_tokens field) = Fine <-> sentence (field_tokens field)).
Proof.
  intro Hne. set (d := 3 * n_tokens field). assert (Hd : 3 * n_tokens field <= d + 1) by (unfold d; lia). rewrite <- (accepts_iff G d field Hd). split.
  - intro Hf. exact (fine_field G d field Hne Hd Hf).
  - intros [s H]. pose proof (first_error_field G d field true s Hne H) as K. destruct (diagnose (field_tokens field)); [reflexivity| |destruct K].
    destruct K as [K _]. discriminate.
Qed.
Lemma diagnose_names ts t m : diagnose ts = Report t m -> error_message m <> None /\ In t ts.
Proof. intro H. destruct (diagnose_rep _ _ _ H) as [D I]. split; [|exact I]. unfold defined_error in D. destruct (error_message m); discriminate. Qed.
