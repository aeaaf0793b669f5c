(** * ParserFacts: properties of all runs of the parser (lemmas behind PropsParser). *)
From Coq Require Import ZArith NArith List Bool String Lia.
From Coq Require Import Floats.SpecFloat.
From Coq Require Import ZifyBool ZifyNat ZifyN.
From Verif Require Import PyBase PyFloat Enums ErrorTable Regex SyntaxTable Syntax Tokenizer Ers Utils Parser.
From Verif Require Import SpecTokenizer TokenizerProofs SyntaxProofs SpecNum NumTables NumProofs ParserPrims PerfEq PointEq Trace ParseTrace SpecParser ParserInv.
Import List ListNotations.
Local Open Scope list_scope.
Local Open Scope nat_scope.

(** ** Tokens of a field *)
Lemma typed_assign t : typed t = assign_syntax t.
Proof. unfold typed, assign_syntax. destruct (classify (t_text t)). reflexivity. Qed.
Lemma field_tokens_eq field : field_tokens field = map assign_syntax (tk_list (tokenize_string f15_whitespace field)).
Proof. apply map_ext. exact typed_assign. Qed.
Lemma n_tokens_len field : length (field_tokens field) = n_tokens field.
Proof. apply map_length. Qed.
Lemma field_start field : exists l, tokenize_string f15_whitespace field = mkTokens l 0 /\ field_tokens field = map assign_syntax l /\ n_tokens field = length l.
Proof.
  unfold n_tokens. rewrite field_tokens_eq, tokenize_string_toks. cbn [tk_list]. eauto.
Qed.
Lemma blank_no_tokens field : (forall c, In c field -> blank c) -> field_tokens field = [].
Proof.
  intro H. assert (E : texts f15_whitespace field = []).
  { induction field as [|c f IH]; [reflexivity|]. change (c :: f) with ([] ++ c :: f).
    assert (Hc : blank c) by (apply H; now left).
    rewrite texts_blank; [|destruct Hc as [->|[->|[->| ->]]]; cbn; tauto|destruct Hc as [->|[->|[->| ->]]]; discriminate].
    rewrite IH by (intros; apply H; now right). reflexivity. }
  unfold texts in E. apply map_eq_nil in E. unfold field_tokens. now rewrite E.
Qed.

Section G.
Variable G : geodesic.

(** ** Empty token list *)
Definition empty_err : rrec := set_r_err ($"Field 15 is empty") (new_rec ($"NULL") 0 0 F15_UNKNOWN F15_SB_UNKNOWN).
Lemma parse_empty depth c k :
  parse_f15 G depth (mkSt (mkTokens [] c) new_ers k)
  = Ok false (mkSt (mkTokens [] 0) (mkErs [dummy ($"ADEP"); dummy ($"ADES")] [empty_err] []) k).
Proof. reflexivity. Qed.

(** ** Depth and exceptions *)
Lemma no_recursion_error depth L0 c0 k : 3 * length L0 <= depth + 1 ->
  ~ raises (parse_f15 G depth (mkSt (mkTokens L0 c0) new_ers k)) RecursionError.
Proof.
  intros H R. destruct L0 as [|t L0]; [rewrite parse_empty in R; exact R|].
  pose proof (parse_trace G depth (t :: L0) c0 k ltac:(discriminate)) as O. unfold outcome in O. rewrite map_length in O.
  destruct (parse_f15 _ _ _); [exact R|]. cbn in R. subst. destruct O as (y & _ & _ & _ & [[_ K]|[K _]]); [|discriminate]. cbn [length] in *. lia.
Qed.
Lemma parse_exn_cases depth field : 3 * n_tokens field <= depth + 1 ->
  returns (parse_field15 G depth field) \/
  (raises (parse_field15 G depth field) ValueError /\ exists t, In t (field_tokens field) /\ raising_text (t_text t)).
Proof.
  intro H. unfold parse_field15. destruct (field_start field) as (l & E & F & N). rewrite E. rewrite N in H. rewrite F.
  destruct l as [|t l]; [left; exact I|].
  pose proof (parse_trace G depth (t :: l) 0 0 ltac:(discriminate)) as O. unfold outcome in O. rewrite map_length in O.
  destruct (parse_f15 _ _ _); [left; exact I|]. destruct O as (y & _ & _ & _ & [[_ K]|[-> (t' & K1 & K2)]]); [cbn [length] in *; lia|].
  right. split; [reflexivity|]. exists t'. split; [exact K1|]. apply na_text; [|exact K2].
  pose proof (assign_syntax_all (t :: l)) as A. rewrite Forall_forall in A. now apply A.
Qed.
Lemma calls_linear depth L0 c0 k : s_calls (final (parse_f15 G depth (mkSt (mkTokens L0 c0) new_ers k))) <= k + 6 * length L0.
Proof.
  destruct L0 as [|t L0]; [rewrite parse_empty; cbn; lia|].
  pose proof (parse_trace G depth (t :: L0) c0 k ltac:(discriminate)) as O. unfold outcome in O. rewrite map_length in O.
  destruct (parse_f15 _ _ _).
  - destruct O as (y & _ & -> & _ & B). cbn [final s_calls]. lia.
  - destruct O as (y & _ & -> & B & _). unfold st_of, stt. cbn [final s_calls]. lia.
Qed.
Lemma tokens_kept depth L0 c0 k : tk_list (s_toks (final (parse_f15 G depth (mkSt (mkTokens L0 c0) new_ers k)))) = map typed L0.
Proof.
  destruct L0 as [|t L0]; [reflexivity|]. rewrite (map_ext _ _ typed_assign).
  pose proof (parse_trace G depth (t :: L0) c0 k ltac:(discriminate)) as O. unfold outcome in O.
  destruct (parse_f15 _ _ _).
  - destruct O as (y & _ & -> & _). reflexivity.
  - destruct O as (y & _ & -> & _). reflexivity.
Qed.

(** *** Only texts and positions matter *)
Lemma typed_skin t t' : skin t = skin t' -> typed t = typed t'.
Proof. unfold skin, typed. intro H. injection H as -> -> ->. reflexivity. Qed.
Lemma map_typed_skin : forall L L', map skin L = map skin L' -> map typed L = map typed L'.
Proof. induction L as [|t L IH]; intros [|t' L'] H; try discriminate; [reflexivity|]. injection H as H1 H2 H3 H4. cbn [map]. f_equal; [apply typed_skin; unfold skin; congruence|]. now apply IH. Qed.
Lemma parse_skin depth L L' c c' e k : map skin L = map skin L' ->
  parse_f15 G depth (mkSt (mkTokens L c) e k) = parse_f15 G depth (mkSt (mkTokens L' c') e k).
Proof.
  intro H. apply map_typed_skin in H. rewrite !(map_ext _ _ typed_assign) in H.
  unfold parse_f15, assign_syntax_descriptions. unfold bind at 1 3. cbn [s_toks tk_list tk_cur s_ers s_calls]. rewrite H.
  unfold tok_first, get_first_token. unfold bind at 1 3. cbn [s_toks tk_list tk_cur s_ers s_calls]. reflexivity.
Qed.
Lemma skin_typed L : map skin (map typed L) = map skin L.
Proof. rewrite map_map. apply map_ext. reflexivity. Qed.

(** ** Result of a returning run *)
Lemma parsed depth field b s : parse_field15 G depth field = Ok b s -> field_tokens field <> [] ->
  let L := field_tokens field in
  Forall wt L /\
  exists y, reach G L (cfg0 0) y /\ s_ers s = mkErs (final_recs (is_vfr_first L) y) (c_errs y) (derived (final_recs (is_vfr_first L) y)) /\
    b = match c_errs y with [] => true | _ => false end.
Proof.
  unfold parse_field15. destruct (field_start field) as (l & E & F & N). rewrite E, F. intros H Hn. cbv zeta. split; [apply assign_syntax_all|].
  assert (Hl : l <> []) by (intros ->; apply Hn; reflexivity).
  pose proof (parse_trace G depth l 0 0 Hl) as O. unfold outcome in O. rewrite H in O. destruct O as (y & R & -> & B & _). exists y. auto.
Qed.
Lemma parsed_empty depth field b s : parse_field15 G depth field = Ok b s -> field_tokens field = [] ->
  b = false /\ s_ers s = mkErs [dummy ($"ADEP"); dummy ($"ADES")] [empty_err] [].
Proof.
  unfold parse_field15. destruct (field_start field) as (l & E & F & N). rewrite E, F. intros H Hn. apply map_eq_nil in Hn. subst l.
  rewrite parse_empty in H. injection H as <- <-. auto.
Qed.
Lemma empty_or field : field_tokens field = [] \/ field_tokens field <> [].
Proof. destruct (field_tokens field); [now left|right; discriminate]. Qed.

(** Map over the final records. *)
Lemma list_upd_map {B} (f : rrec -> B) g : (forall r, f (g r) = f r) -> forall l i, map f (list_upd i g l) = map f l.
Proof. intros H l. induction l as [|a l IH]; intros [|i]; cbn [list_upd map]; rewrite ?H, ?IH; reflexivity. Qed.
Lemma field_recs_map {B} (f : rrec -> B) v y : (forall r s, f (set_r_rules s r) = f r) -> map f (field_recs v y) = map f (recs y).
Proof. intro H. unfold field_recs. destruct v; [apply list_upd_map; intro; apply H|reflexivity]. Qed.
Lemma list_upd_ne {A} (f : A -> A) l i : l <> [] -> list_upd i f l <> [].
Proof. destruct l, i; cbn; congruence. Qed.
Lemma recs_ne y : recs y <> [].
Proof. unfold recs. intro H. apply app_eq_nil in H as [_ H]. discriminate. Qed.
Lemma field_recs_ne v y : field_recs v y <> [].
Proof. unfold field_recs. destruct v; [apply list_upd_ne|]; apply recs_ne. Qed.

Lemma ident_aero nm r : ident r = ident (dummy nm) -> aerodrome nm r.
Proof. unfold ident. intro H. injection H as H1 H2 H3 H4 H5. unfold aerodrome. auto. Qed.
Lemma from_tok_stands L j r : from_tok L j (ident r) -> exists t, nth_error L j = Some t /\ stands_for t r.
Proof.
  intros (t & Ht & H). exists t. split; [exact Ht|]. cbn in H. destruct H as (A & B & C & D). unfold stands_for. split; [exact A|]. split; [exact B|]. split; [exact C|].
  destruct D as [D|[D1 D2]]; [left; exact D|right]. split; [destruct (t_base t); try discriminate D1; cbn; tauto|].
  exact D2.
Qed.
Lemma Forall2_map_r {A B C} (R : A -> C -> Prop) (f : B -> C) l : forall l', Forall2 R l (map f l') -> Forall2 (fun a b => R a (f b)) l l'.
Proof. induction l as [|a l IH]; intros [|b l'] H; inversion H; subst; constructor; auto. Qed.
Lemma Forall2_impl' {A B} (R S : A -> B -> Prop) l l' : (forall a b, R a b -> S a b) -> Forall2 R l l' -> Forall2 S l l'.
Proof. intros H. induction 1; constructor; auto. Qed.

(** Where the records come from. *)
Lemma record_origin depth field b s : parse_field15 G depth field = Ok b s ->
  exists a mid z js, e_recs (s_ers s) = a :: mid ++ [z] /\ aerodrome ($"ADEP") a /\ aerodrome ($"ADES") z /\
    NoDup js /\ Forall2 (fun j r => exists t, nth_error (field_tokens field) j = Some t /\ stands_for t r) js mid.
Proof.
  intro H. destruct (empty_or field) as [E|E].
  - destruct (parsed_empty _ _ _ _ H E) as [_ ->]. exists (dummy ($"ADEP")), [], (dummy ($"ADES")), []. repeat split; constructor.
  - destruct (parsed _ _ _ _ H E) as (HL & y & R & -> & _). set (L := field_tokens field) in *. cbn [e_recs].
    destruct (reach_origin G L _ _ R) as (N & rest & E1 & F). unfold final_recs.
    rewrite <- (field_recs_map ident (is_vfr_first L) y) in E1 by reflexivity.
    destruct (field_recs (is_vfr_first L) y) as [|a mid] eqn:Ef; [discriminate|]. pose proof (f_equal (hd (ident a)) E1) as E1a. pose proof (f_equal (@tl _) E1) as E1b. cbn [map hd tl] in E1a, E1b.
    exists a, mid, (ades_rec (a :: mid)), (c_us y). split; [reflexivity|]. split; [now apply ident_aero|].
    split; [now apply ident_aero|]. split; [exact N|]. subst rest. apply Forall2_map_r in F. revert F. apply Forall2_impl'. intros j r. apply from_tok_stands.
Qed.

(** Return value. *)
Lemma return_value depth field b s : parse_field15 G depth field = Ok b s -> (b = true <-> e_errs (s_ers s) = []).
Proof.
  intro H. destruct (empty_or field) as [E|E].
  - destruct (parsed_empty _ _ _ _ H E) as [-> ->]. cbn. split; discriminate.
  - destruct (parsed _ _ _ _ H E) as (_ & y & _ & -> & ->). cbn [e_errs]. destruct (c_errs y); split; congruence.
Qed.

(** Errors. *)
Lemma fill_replace t m : replace_char 33%N t m = fill t m.
Proof. induction m as [|c m IH]; [reflexivity|]. unfold replace_char in *. cbn [flat_map fill]. destruct (N.eqb c 33); cbn [app]; now rewrite IH. Qed.
Lemma err_reports t m : defined_error m = true -> reports t m (err t m).
Proof.
  intro H. unfold defined_error in H. destruct (error_message m) as [tm|] eqn:E; [|discriminate].
  unfold reports, err, msg, err_rec. rewrite E. repeat (split; [reflexivity|]). exists tm. split; [reflexivity|]. cbn. apply fill_replace.
Qed.
Lemma errors_report depth field b s : parse_field15 G depth field = Ok b s -> field_tokens field <> [] ->
  Forall (fun e => exists t m, In t (field_tokens field) /\ reports t m e) (e_errs (s_ers s)).
Proof.
  intros H E. destruct (parsed _ _ _ _ H E) as (HL & y & R & -> & _). cbn [e_errs].
  eapply Forall_impl; [|exact (reach_err_ok G _ _ _ R)]. intros e (t & m & H1 & H2 & ->). exists t, m. split; [exact H1|now apply err_reports].
Qed.

(** First element. *)
Lemma first_error depth L0 c0 k t L1 : map assign_syntax L0 = t :: L1 -> t_base t <> F15_SPEED_ALTITUDE -> t_base t <> F15_SPEED_VFR ->
  forall b s, parse_f15 G depth (mkSt (mkTokens L0 c0) new_ers k) = Ok b s -> b = false /\ exists es, e_errs (s_ers s) = err t 1 :: es.
Proof.
  intros E0 N1 N2 b s H. pose proof (assign_syntax_all L0) as HL. rewrite E0 in HL. rewrite (parse_eq G depth L0 c0 k t L1 E0) in H.
  assert (H' : bind (run G depth (CErrSync t 1)) (fun _ => closing) (st_of (t :: L1) [] (cfg0 k)) = Ok b s)
    by (destruct (t_base t); congruence). clear H.
  destruct depth as [|d]; [discriminate H'|]. set (L := t :: L1) in *.
  set (x := errc (tickc (cfg0 k)) t 1).
  assert (E1 : run G (S d) (CErrSync t 1) (st_of L [] (cfg0 k)) = run G d CReSync (st_of L [] x)) by reflexivity.
  unfold bind in H'. rewrite E1 in H'. clear E1.
  pose proof (run_sat G L [] HL d CReSync 0 x ltac:(intros i []) I) as S. unfold sat in S.
  destruct (run G d CReSync (st_of L [] x)) as [u s'|]; [|discriminate]. destruct S as (y & -> & R & _).
  unfold st_of in H'. rewrite closing_eq in H'. injection H' as <- <-. destruct (reach_errs G L _ _ R) as (es & Es). cbn [c_errs x errc tickc cfg0 app] in Es.
  cbn [s_ers e_errs]. rewrite Es. split; [now rewrite zlen0|]. now exists es.
Qed.
Lemma first_element depth field b s t L1 : parse_field15 G depth field = Ok b s -> field_tokens field = t :: L1 ->
  t_base t <> F15_SPEED_ALTITUDE -> t_base t <> F15_SPEED_VFR ->
  b = false /\ exists e es, e_errs (s_ers s) = e :: es /\ reports t 1 e.
Proof.
  unfold parse_field15. destruct (field_start field) as (l & E & F & N). rewrite E, F. intros H E0 N1 N2.
  destruct (first_error _ _ _ _ _ _ E0 N1 N2 _ _ H) as (B & es & Es). split; [exact B|]. exists (err t 1), es. split; [exact Es|]. now apply err_reports.
Qed.

(** Rules. *)
Lemma some_rules_spec x l : some_rules x l = true <-> exists r, In r l /\ r_rules r = x.
Proof.
  unfold some_rules. rewrite existsb_exists. split; intros (r & A & B); exists r; (split; [exact A|]); [now apply pstr_eqb_eq|now apply pstr_eqb_eq in B || apply pstr_eqb_eq].
Qed.
Lemma rules_upd (l : list rrec) : Forall some_flight_rules l -> Forall some_flight_rules (list_upd 0 (set_r_rules RULE_V) l).
Proof. intro H. destruct H as [|r l H1 H2]; [constructor|]. constructor; [right; right; left; reflexivity|exact H2]. Qed.
Lemma rules_field depth field b s : parse_field15 G depth field = Ok b s -> field_tokens field <> [] ->
  exists first mid before last,
    e_recs (s_ers s) = mid ++ [before; last] /\ hd_error (e_recs (s_ers s)) = Some first /\
    Forall some_flight_rules (e_recs (s_ers s)) /\ r_rules last = r_rules before /\
    (e_rules (s_ers s) = $"V" <-> r_rules first = $"VFR" /\ ~ exists r, In r (e_recs (s_ers s)) /\ r_rules r = $"IFR") /\
    (e_rules (s_ers s) = $"Z" <-> r_rules first = $"VFR" /\ exists r, In r (e_recs (s_ers s)) /\ r_rules r = $"IFR") /\
    (e_rules (s_ers s) = $"I" <-> r_rules first <> $"VFR" /\ ~ exists r, In r (e_recs (s_ers s)) /\ r_rules r = $"VFR") /\
    (e_rules (s_ers s) = $"Y" <-> r_rules first <> $"VFR" /\ exists r, In r (e_recs (s_ers s)) /\ r_rules r = $"VFR").
Proof.
  intros H E. destruct (parsed _ _ _ _ H E) as (HL & y & R & -> & _). set (L := field_tokens field) in *. cbn [e_recs e_rules].
  pose proof (reach_rules G L _ _ R) as Ru. fold (recs y) in *. set (v := is_vfr_first L).
  assert (Rf : Forall some_flight_rules (field_recs v y)) by (unfold field_recs; destruct v; [now apply rules_upd|exact Ru]).
  destruct (rev_case (field_recs v y)) as [K|(mid & q & K)]; [now destruct (field_recs_ne v y)|].
  assert (Ez : r_rules (ades_rec (field_recs v y)) = r_rules q) by (rewrite K; unfold ades_rec; now rewrite last_last).
  assert (Q : some_flight_rules q) by (rewrite K in Rf; rewrite Forall_app in Rf; destruct Rf as [_ Rf]; now inversion Rf).
  assert (Ra : Forall some_flight_rules (final_recs v y)).
  { unfold final_recs. apply Forall_app. split; [exact Rf|]. constructor; [|constructor]. unfold some_flight_rules. now rewrite Ez. }
  assert (exists f rest, final_recs v y = f :: rest) as (f & rest & Ef).
  { unfold final_recs. rewrite K. destruct mid; cbn [app]; eauto. }
  exists f, mid, q, (ades_rec (field_recs v y)).
  split; [unfold final_recs; rewrite K at 1; now rewrite <- app_assoc|]. split; [now rewrite Ef|]. split; [exact Ra|]. split; [exact Ez|].
  rewrite <- !some_rules_spec. rewrite <- (pstr_eqb_eq (r_rules f)). unfold derived. rewrite Ef.
  destruct (pstr_eqb (r_rules f) ($"VFR")), (some_rules ($"IFR") (f :: rest)), (some_rules ($"VFR") (f :: rest));
    repeat split; intros; try discriminate; try congruence; intuition congruence.
Qed.

(** Performance. *)
Lemma lvl_si_spec s : lvl_text s -> exists c ds, s = c :: ds /\ In c [70; 65; 83; 77]%N /\ all_digits ds /\ zlen ds = (if is_feet c then 3 else 4)%Z /\
  (if is_feet c then rounds_to (decimal ds * 100 * 3048) 10000 (lvl_si s) else lvl_si s = decimal ds * 10)%Z.
Proof.
  intros (c & ds & -> & Hc & Hd & Hl). exists c, ds. repeat (split; [assumption || reflexivity|]). cbn [lvl_si]. unfold level_metres, is_metric.
  destruct (is_feet c) eqn:Ef; [apply nearest_spec; lia|]. destruct Hc as [<-|[<-|[<-|[<-|[]]]]]; try discriminate; reflexivity.
Qed.
Lemma spd_si_spec s alt : spd_text s -> (0 <= alt)%Z -> exists c ds, s = c :: ds /\ In c [75; 78; 77]%N /\ all_digits ds /\ zlen ds = (if N.eqb c 77 then 3 else 4)%Z /\
  (if N.eqb c 75 then rounds_to (decimal ds * 2777778) 10000000 (spd_si s alt)
       else if N.eqb c 78 then rounds_to (decimal ds * 514444) 1000000 (spd_si s alt)
       else exists f, mach_to_ms_speed (decimal ds) alt = inr f /\ f_trunc (fadd f (flit 1 2)) = inr (spd_si s alt)).
Proof.
  intros (c & ds & -> & Hc & Hd & Hl) Ha. exists c, ds. repeat (split; [assumption || reflexivity|]). cbn [spd_si]. unfold speed_ms.
  destruct Hc as [<-|[<-|[<-|[]]]]; cbn [N.eqb Pos.eqb] in *; try (apply nearest_spec; lia).
  apply all_digits_forallb in Hd. assert (B : (0 <= decimal ds < 1000)%Z) by (apply (pow10_le ds 3); [unfold zlen in *; lia|exact Hd]).
  destruct (mach_conv (decimal ds) alt B Ha) as (f & E1 & E2). exists f. auto.
Qed.
Lemma lvl_text_str s : lvl_text s -> lvl_str s.
Proof.
  intros (c & ds & -> & _ & Hd & Hl). exists c, ds. split; [reflexivity|]. split; [intros ->; destruct (is_feet c); discriminate|].
  split; [now apply all_digits_forallb|lia].
Qed.
Lemma perf_spec r : perf_ok (perf r) -> no_performance r \/ si_agrees r.
Proof.
  unfold perf. intros [E|(s & v & Hs & Hv & E)]; injection E as E1 E2 E3 E4; [left; unfold no_performance; auto|right].
  pose proof (lvl_si_nonneg s (lvl_text_str s Hs)) as Nn.
  destruct (lvl_si_spec s Hs) as (c & ds & -> & A1 & A2 & A3 & A4). destruct (spd_si_spec v _ Hv Nn) as (u & es & -> & B1 & B2 & B3 & B4).
  exists c, ds, u, es. rewrite E1, E3. repeat (split; [assumption || reflexivity|]).
  exists (lvl_si (c :: ds)), (spd_si (u :: es) (lvl_si (c :: ds))). auto.
Qed.
Lemma Forall_perf_map l l' : map perf l = map perf l' -> Forall (fun r => perf_ok (perf r)) l -> Forall (fun r => perf_ok (perf r)) l'.
Proof. apply Forall_map_eq. Qed.
Lemma perf_field depth field b s : parse_field15 G depth field = Ok b s ->
  Forall (fun r => no_performance r \/ si_agrees r) (e_recs (s_ers s)).
Proof.
  intro H. destruct (empty_or field) as [E|E].
  - destruct (parsed_empty _ _ _ _ H E) as [_ ->]. cbn [e_recs]. repeat constructor.
  - destruct (parsed _ _ _ _ H E) as (HL & y & R & -> & _). cbn [e_recs]. apply (Forall_impl _ perf_spec).
    unfold final_recs. apply Forall_app. split; [|constructor; [now left|constructor]].
    eapply Forall_perf_map; [symmetry; apply (field_recs_map perf); reflexivity|]. exact (reach_perf G _ HL _ _ R).
Qed.
End G.

(** ** Unbounded recursion *)
Section Deep.
Variable G : geodesic.
Variable L : list token.
Hypothesis Hs : forall i t, nth_error L i = Some t -> t_base t = if S i =? length L then F15_STAY else F15_STAR.
Lemma deep_two d cur t l p errs ru k m : defined_error m = true -> d < 2 ->
  exists s, run G d (CErrSync t m) (stt L cur l p errs ru k) = Exn RecursionError s.
Proof.
  intros Hm Hd. destruct d as [|[|d]]; [eexists; reflexivity| |lia].
  cbn [run]. bok (tick_eq L cur l p errs ru k). cbn [body]. unfold b_add_error_and_re_sync.
  bok (add_err_eq t m L cur l p errs ru (S k) Hm). eexists. reflexivity.
Qed.
Lemma deep_run d : forall i t l p errs ru k m, defined_error m = true -> i < length L -> d < 3 * (length L - 1 - i) + 2 ->
  exists s, run G d (CErrSync t m) (stt L (Z.of_nat i) l p errs ru k) = Exn RecursionError s.
Proof.
  induction d as [d IH] using (well_founded_induction lt_wf). intros i t l p errs ru k m Hm Hi Hd.
  destruct (Nat.eq_dec (S i) (length L)) as [El|El]; [apply deep_two; [exact Hm|lia]|].
  destruct d as [|d]; [eexists; reflexivity|].
  cbn [run]. bok (tick_eq L (Z.of_nat i) l p errs ru k). cbn [body]. unfold b_add_error_and_re_sync.
  bok (add_err_eq t m L (Z.of_nat i) l p errs ru (S k) Hm).
  destruct d as [|d]; [eexists; reflexivity|].
  cbn [run]. bok (tick_eq L (Z.of_nat i) l p (errs ++ [err t m]) ru (S k)). cbn [body]. unfold b_re_sync, next_or_return.
  bok (tok_next_eq L (Z.of_nat i) l p (errs ++ [err t m]) ru (S (S k))).
  replace (Z.of_nat i + 1)%Z with (Z.of_nat (S i)) by lia. rewrite get_token_at_nth.
  destruct (nth_error L (S i)) as [t1|] eqn:E1; [|apply nth_error_None in E1; lia].
  rewrite (Hs (S i) t1 E1). destruct (Nat.eqb_spec (S (S i)) (length L)) as [E|E].
  - (* the last one *)
    destruct d as [|d]; [eexists; reflexivity|].
    cbn [run]. bok (tick_eq L (Z.of_nat (S i)) l p (errs ++ [err t m]) ru (S (S k))). cbn [body]. unfold b_stay.
    bok (tok_next_eq L (Z.of_nat (S i)) l p (errs ++ [err t m]) ru (S (S (S k)))).
    replace (Z.of_nat (S i) + 1)%Z with (Z.of_nat (S (S i))) by lia. rewrite get_token_at_nth.
    destruct (nth_error L (S (S i))) as [t2|] eqn:E2; [assert (nth_error L (S (S i)) <> None) as K by congruence; apply nth_error_Some in K; lia|].
    apply deep_two; [reflexivity|lia].
  - destruct d as [|d]; [eexists; reflexivity|].
    cbn [run]. bok (tick_eq L (Z.of_nat (S i)) l p (errs ++ [err t m]) ru (S (S k))). cbn [body]. unfold b_star.
    bok (add_record_eq t1 L (Z.of_nat (S i)) l p (errs ++ [err t m]) ru (S (S (S k)))).
    bok (tok_peek_eq L (Z.of_nat (S i)) (l ++ [p]) (carry p (tok_rec t1)) (errs ++ [err t m]) ru (S (S (S k))) 1).
    replace (Z.of_nat (S i) + 1)%Z with (Z.of_nat (S (S i))) by lia. rewrite get_token_at_nth.
    destruct (nth_error L (S (S i))) as [t2|] eqn:E2; [|apply nth_error_None in E2; lia].
    apply IH; [lia|reflexivity|lia|lia].
Qed.
End Deep.
(** STAR n times, then STAY1. *)
Definition stars (n : nat) : pstr := join_sp (repeat ($"STAR") n ++ [$"STAY1"]).
Lemma stars_texts n : texts f15_whitespace (stars n) = repeat ($"STAR") n ++ [$"STAY1"].
Proof.
  apply texts_join; [now left|]. intros x Hx. apply in_app_or in Hx as [Hx|[<-|[]]]; [apply repeat_spec in Hx; subst|]; (split; [discriminate|]); right; intros c Hc K; cbn in Hc, K;
  (repeat (destruct Hc as [<-|Hc]; [repeat (destruct K as [K|K]; [discriminate|]); exact K|])); exact Hc.
Qed.
Lemma nth_repeat_app {A} (x y : A) n i z : nth_error (repeat x n ++ [y]) i = Some z -> z = if S i =? S n then y else x.
Proof.
  revert i. induction n as [|n IH]; intros [|i] H; cbn [repeat app nth_error] in H; try (injection H as <-; reflexivity).
  - destruct i; discriminate.
  - apply IH in H. exact H.
Qed.
Lemma stars_tokens n : (forall i t, nth_error (field_tokens (stars n)) i = Some t -> t_base t = if S i =? S n then F15_STAY else F15_STAR) /\ n_tokens (stars n) = S n.
Proof.
  pose proof (stars_texts n) as E. unfold texts in E. split.
  - intros i t H. unfold field_tokens in H. rewrite nth_error_map in H. destruct (nth_error (tk_list _) i) as [u|] eqn:Eu; [|discriminate]. injection H as <-. cbn [t_base typed].
    apply (map_nth_error t_text) in Eu. rewrite E in Eu. apply nth_repeat_app in Eu. rewrite Eu. destruct (S i =? S n); reflexivity.
  - unfold n_tokens. rewrite <- (map_length t_text), E, app_length, repeat_length. cbn. lia.
Qed.
Lemma stars_deep G n depth : depth + 1 < 3 * S n -> raises (parse_field15 G depth (stars n)) RecursionError.
Proof.
  intro H. destruct (stars_tokens n) as [Hs Hn]. unfold parse_field15. destruct (field_start (stars n)) as (l & E & F & N).
  rewrite E. rewrite F in Hs. destruct (map assign_syntax l) as [|t L1] eqn:E0; [apply map_eq_nil in E0; subst l; cbn in N; lia|].
  rewrite (parse_eq G depth l 0 0 t L1 E0). assert (Ln : length (t :: L1) = S n) by (rewrite <- E0, map_length; congruence).
  assert (Hs' : forall i x, nth_error (t :: L1) i = Some x -> t_base x = if S i =? length (t :: L1) then F15_STAY else F15_STAR) by (rewrite Ln; exact Hs).
  destruct (deep_run G (t :: L1) Hs' depth 0 t [] adep0 [] [] 0 1%Z eq_refl ltac:(lia) ltac:(lia)) as (s & K).
  pose proof (Hs 0 t eq_refl) as B. unfold st_of. cbn [cfg0 c_cur c_l c_p c_errs c_k].
  destruct (1 =? S n); rewrite B; rewrite (bind_exn _ _ _ _ _ K); reflexivity.
Qed.

(** ** Statements of PropsParser *)
Lemma adep_ades G depth field b s : parse_field15 G depth field = Ok b s ->
  exists a mid z, e_recs (s_ers s) = a :: mid ++ [z] /\ aerodrome ($"ADEP") a /\ aerodrome ($"ADES") z /\
    Forall (fun r => exists t, In t (field_tokens field) /\ stands_for t r) mid.
Proof.
  intro H. destruct (record_origin G _ _ _ _ H) as (a & mid & z & js & E & A & Z & _ & F). exists a, mid, z. repeat (split; [assumption|]).
  clear -F. induction F as [|j r js mid (t & Ht & St) F IH]; constructor; [|exact IH]. exists t. split; [now apply nth_error_In in Ht|exact St].
Qed.
Lemma records_from_tokens G depth field b s : parse_field15 G depth field = Ok b s ->
  exists a mid z js, e_recs (s_ers s) = a :: mid ++ [z] /\ NoDup js /\
    Forall2 (fun j r => exists t, nth_error (field_tokens field) j = Some t /\ stands_for t r) js mid /\
    length (e_recs (s_ers s)) <= n_tokens field + 2.
Proof.
  intro H. destruct (record_origin G _ _ _ _ H) as (a & mid & z & js & E & _ & _ & N & F). exists a, mid, z, js. repeat (split; [assumption|]).
  rewrite E. cbn [length]. rewrite app_length. cbn [length]. rewrite <- (Forall2_len _ _ _ F), <- n_tokens_len.
  assert (I : incl js (seq 0 (length (field_tokens field)))).
  { clear -F. induction F as [|j r js mid (t & Ht & St) F IH]; intros i Hi; [destruct Hi|]. destruct Hi as [<-|Hi]; [|now apply IH].
    apply in_seq. assert (nth_error (field_tokens field) j <> None) by congruence. apply nth_error_Some in H. lia. }
  pose proof (NoDup_incl_length N I) as K. rewrite seq_length in K. lia.
Qed.
Lemma limit_exact G n depth : (forall field, n_tokens field = S n -> ~ raises (parse_field15 G depth field) RecursionError) <-> 3 * S n <= depth + 1.
Proof.
  split.
  - intro H. destruct (le_lt_dec (3 * S n) (depth + 1)) as [K|K]; [exact K|]. exfalso. apply (H (stars n)); [exact (proj2 (stars_tokens n))|now apply stars_deep].
  - intros H field N. unfold parse_field15. destruct (tokenize_string f15_whitespace field) as [l c] eqn:E. apply no_recursion_error. unfold n_tokens in N. rewrite E in N. cbn [tk_list] in N. lia.
Qed.
Lemma empty_field G depth field : (forall c, In c field -> blank c) ->
  exists s a z e, parse_field15 G depth field = Ok false s /\
    e_recs (s_ers s) = [a; z] /\ aerodrome ($"ADEP") a /\ aerodrome ($"ADES") z /\
    e_errs (s_ers s) = [e] /\ r_name e = $"NULL" /\ r_err e = $"Field 15 is empty" /\ r_base e = F15_UNKNOWN /\
    e_rules (s_ers s) = [].
Proof.
  intro H. apply blank_no_tokens in H. unfold parse_field15. destruct (field_start field) as (l & E & F & N). rewrite F in H.
  apply map_eq_nil in H. subst l. rewrite E, parse_empty. eexists _, _, _, _. split; [reflexivity|]. repeat split; reflexivity.
Qed.
Lemma parse_again G depth L c k :
  parse_f15 G depth (mkSt (s_toks (final (parse_f15 G depth (mkSt (mkTokens L c) new_ers k)))) new_ers k)
  = parse_f15 G depth (mkSt (mkTokens L c) new_ers k).
Proof.
  pose proof (tokens_kept G depth L c k) as T. destruct (s_toks _) as [L' c'] eqn:E. cbn [tk_list] in T. subst L'.
  apply parse_skin. apply skin_typed.
Qed.
Lemma never_raises_witness G depth : 30 <= depth -> raises (parse_field15 G depth ($"N0450F350 PNT C/PNT/N0450A0505S1130")) ValueError.
Proof. intro H. replace depth with (30 + (depth - 30)) by lia. generalize (depth - 30). intro d. clear. vm_compute. reflexivity. Qed.
