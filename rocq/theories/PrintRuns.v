(** * PrintRuns: the values of every result fit into the columns of the printed report. *)
From Coq Require Import ZArith NArith List Bool String Lia.
From Coq Require Import Floats.SpecFloat.
From Coq Require Import ZifyBool ZifyNat ZifyN.
From Verif Require Import PyBase PyFloat Enums ErrorTable Regex SyntaxTable Syntax Tokenizer Ers Xml Utils Parser Print.
From Verif Require Import SpecTokenizer TokenizerProofs SyntaxProofs SpecNum NumTables FloatProofs NumProofs SpecText TextProofs.
From Verif Require Import ParserPrims PerfEq PointEq Trace ParseTrace SpecParser ParserInv ParserFacts SpecLegs LegFacts SpecPrint AcceptFacts PrintFacts.
Import List ListNotations.
Local Open Scope list_scope.
Local Open Scope Z_scope.

(** ** Bounds of the values of a record, for all runs *)
Lemma digits_len ds n : zlen ds <= n -> all_digits ds -> 0 <= decimal ds < 10 ^ n.
Proof. intros H D. apply pow10_le; [exact H|]. now apply all_digits_forallb. Qed.
Lemma nearest_bound num den z : 0 < den -> rounds_to num den z -> 0 <= num -> num <= 99998 * den -> 0 <= z < 10 ^ 5.
Proof. unfold rounds_to. intros H1 H2 H3 H4. change (10 ^ 5) with 100000. nia. Qed.
Lemma lvl_text_bound s : lvl_text s -> zlen s <= 6 /\ 0 <= lvl_si s < 10 ^ 5.
Proof.
  intro H. split.
  - destruct H as (c & ds & -> & _ & _ & L). rewrite zlen_cons. destruct (is_feet c); lia.
  - destruct (lvl_si_spec s H) as (c & ds & -> & A1 & A2 & A3 & A4). destruct (is_feet c).
    + pose proof (digits_len ds 3 ltac:(lia) A2) as B. change (10 ^ 3) with 1000 in B. refine (nearest_bound _ _ _ _ A4 _ _); lia.
    + pose proof (digits_len ds 4 ltac:(lia) A2) as B. change (10 ^ 4) with 10000 in B. rewrite A4. change (10 ^ 5) with 100000. lia.
Qed.
Lemma mach_top : mach_ms 999 0 = 3427.
Proof. vm_compute. reflexivity. Qed.
Lemma spd_text_bound s alt : spd_text s -> 0 <= alt -> zlen s <= 6 /\ 0 <= spd_si s alt < 10 ^ 5.
Proof.
  intros H Ha. split.
  - destruct H as (c & ds & -> & _ & _ & L). rewrite zlen_cons. destruct (N.eqb c 77); lia.
  - destruct (spd_si_spec s alt H Ha) as (c & ds & -> & A1 & A2 & A3 & A4).
    destruct (N.eqb c 77) eqn:Ec.
    + apply N.eqb_eq in Ec. subst c. pose proof (digits_len ds 3 ltac:(lia) A2) as B. change (10 ^ 3) with 1000 in B.
      cbn [spd_si]. change (N.eqb 77 77) with true. cbv iota.
      pose proof (mach_ms_mono (decimal ds) 999 alt 0 ltac:(lia) ltac:(lia) ltac:(lia)) as M. rewrite mach_top in M.
      assert (0 <= mach_ms (decimal ds) alt) by (unfold mach_ms; apply Z.div_pos; [apply fv_nonneg|apply Z.pow_pos_nonneg; unfold KS; lia]).
      change (10 ^ 5) with 100000. lia.
    + pose proof (digits_len ds 4 ltac:(lia) A2) as B. change (10 ^ 4) with 10000 in B.
      destruct (N.eqb c 75) eqn:E75; [refine (nearest_bound _ _ _ _ A4 _ _); lia|]. destruct (N.eqb c 78) eqn:E78; [refine (nearest_bound _ _ _ _ A4 _ _); lia|].
      exfalso. destruct A1 as [<-|[<-|[<-|[]]]]; first [discriminate Ec|discriminate E75|discriminate E78].
Qed.
Lemma lvl_str_bound s : lvl_str s -> zlen s <= 7 /\ 0 <= lvl_si s < 10 ^ 7.
Proof.
  intros (c & ds & -> & Ne & D & L). rewrite zlen_cons. split; [destruct (is_feet c); lia|]. cbn [lvl_si].
  assert (B : 0 <= decimal ds < 10 ^ 4) by (apply pow10_le; [destruct (is_feet c); lia|exact D]). change (10 ^ 4) with 10000 in B. change (10 ^ 7) with 10000000.
  unfold level_metres. destruct (is_feet c); [|destruct (is_metric c); lia].
  unfold nearest. split; [apply Z.div_pos; lia|apply Z.div_lt_upper_bound; lia].
Qed.
Lemma perf_bound r : perf_ok (perf r) -> zlen (r_alt r) <= 6 /\ zlen (r_speed r) <= 6 /\ 0 <= num_z (r_alt_si r) < 10 ^ 5 /\ 0 <= num_z (r_speed_si r) < 10 ^ 5.
Proof.
  unfold perf. intros [E|(s & v & Hs & Hv & E)]; injection E as E1 E2 E3 E4; rewrite E1, E2, E3, E4; cbn [num_z].
  - change (zlen (@nil N)) with 0. change (10 ^ 5) with 100000. lia.
  - destruct (lvl_text_bound s Hs) as [A1 A2]. destruct (spd_text_bound v (lvl_si s) Hv (proj1 A2)) as [B1 B2]. auto.
Qed.

(** The target of a cruise climb. *)
Section Climb.
Variable G : geodesic.
Variable L : list token.
Hypothesis HL : Forall wt L.
Definition climb (r : rrec) := (r_cto r, r_cto_si r).
Definition climb_ok (q : pstr * pynum) : Prop := zlen (fst q) <= 7 /\ 0 <= num_z (snd q) < 10 ^ 7.
Lemma keeps_climb : keeps climb.
Proof. repeat split; intros []; reflexivity. Qed.
Lemma climb_nil : climb_ok ([], PyZeroFloat).
Proof. split; [vm_compute; discriminate|]. cbn [snd num_z]. change (10 ^ 7) with 10000000. lia. Qed.
Lemma climb_break t r : climb (append_break_text t r) = climb r.
Proof. unfold append_break_text. destruct (pstr_eqb _ _); reflexivity. Qed.
Lemma ev_climb x y : all_recs (fun r => climb_ok (climb r)) x -> ev G L x y -> all_recs (fun r => climb_ok (climb r)) y.
Proof.
  intros [Hl Hp] E. destruct E; unfold all_recs in *; cbn [tickc nextc errc recc with_p with_p_errs ptc vfrc c_l c_p] in *;
    try (split; [exact Hl|exact Hp]).
  - split; [apply Forall_app; split; [exact Hl|constructor; [exact Hp|constructor]]|exact climb_nil].
  - split; [exact Hl|]. rewrite Forall_forall in HL. destruct (sap_fields t (HL _ H) H0) as (a' & b' & C & _ & _ & P).
    rewrite H1 in C. injection C as <- <-. split; [cbn [climb fst sap_rec set_r_rules set_spd set_r_speed_si set_r_speed set_r_cto r_cto]; rewrite P; vm_compute; discriminate|exact (proj2 Hp)].
  - split; [exact Hl|]. exact (lvl_str_bound _ H4).
  - split; [|exact climb_nil]. apply Forall_app. split; [exact Hl|]. constructor; [exact Hp|constructor].
  - split; [exact Hl|]. now rewrite climb_break.
  - split; [|now rewrite (keeps_pt _ G keeps_climb)]. eapply (Forall_map_eq climb climb_ok); [|exact Hl]. symmetry. apply (keeps_prev _ G keeps_climb).
Qed.
Lemma reach_climb k y : reach G L (cfg0 k) y -> Forall (fun r => climb_ok (climb r)) (recs y).
Proof.
  intro R. apply all_recs_recs. apply (reach_ind_inv G L (all_recs (fun r => climb_ok (climb r))) ev_climb _ _ R).
  split; [constructor|exact climb_nil].
Qed.
End Climb.

(** ** Coordinates *)
Lemma bounded_at_most k n x : 0 <= k -> finite_nonneg x -> scaled x <= k * 2 ^ 3000 -> at_most k (signed n x).
Proof.
  intros Hk F S. assert (A : at_most k x).
  { destruct x as [| | |[] m e]; try exact I; try contradiction. cbn [at_most scaled finite_nonneg] in *. destruct F as [F _].
    destruct (Z.le_gt_cases 0 e) as [P|P].
    - replace (Z.max e 0) with e by lia. replace (Z.max (- e) 0) with 0 by lia. rewrite Z.pow_0_r, Z.mul_1_r.
      rewrite Z.pow_add_r in S by lia. rewrite Z.mul_assoc in S. apply Z.mul_le_mono_pos_r in S; [exact S|apply Z.pow_pos_nonneg; lia].
    - replace (Z.max e 0) with 0 by lia. replace (Z.max (- e) 0) with (- e) by lia. rewrite Z.pow_0_r, Z.mul_1_r.
      replace 3000 with (- e + (e + 3000)) in S at 2 by lia. rewrite (Z.pow_add_r 2 (- e)) in S by lia. rewrite Z.mul_assoc in S.
      apply Z.mul_le_mono_pos_r in S; [exact S|apply Z.pow_pos_nonneg; lia]. }
  destruct n; [|exact A]. destruct x; exact A.
Qed.
Lemma exactly_at_most n x v k : exactly x v -> 0 <= v <= k -> at_most k (signed n x).
Proof.
  intros [F E] H. apply bounded_at_most; [lia|exact F|]. rewrite E. apply Z.mul_le_mono_nonneg_r; [apply Z.pow_nonneg; lia|lia].
Qed.
Lemma within_at_most n x num k : within 43 x num 60 -> 0 <= k -> num + 60 <= 60 * k -> at_most k (signed n x).
Proof.
  intros [F E] H K. apply bounded_at_most; [lia|exact F|]. set (S := scaled x) in *. clearbody S.
  assert (P : 0 < 2 ^ 3000) by (apply Z.pow_pos_nonneg; lia). set (T := 2 ^ 3000) in *. clearbody T. change (2 ^ 43) with 8796093022208 in E. nia.
Qed.
Lemma digits_app a b : all_digits (a ++ b) -> all_digits a /\ all_digits b.
Proof. unfold all_digits. intro H. split; intros c I; apply H; apply in_or_app; auto. Qed.
Lemma lat_long_bound s rest la lo : lat_long s rest la lo -> at_most 999 la /\ at_most 9999 lo.
Proof.
  intros [(d & h & g & e & x & y & _ & D & L1 & L2 & _ & _ & -> & X & -> & Y)|
          (d & m & h & g & n & e & x & y & _ & D & L1 & L2 & L3 & L4 & _ & _ & -> & X & -> & Y)].
  - apply digits_app in D as [D1 D2].
    pose proof (digits_len d 2 ltac:(lia) D1) as B1. pose proof (digits_len g 3 ltac:(lia) D2) as B2. change (10 ^ 2) with 100 in B1. change (10 ^ 3) with 1000 in B2.
    split; [apply (exactly_at_most _ _ (decimal d)); [exact X|lia]|apply (exactly_at_most _ _ (decimal g)); [exact Y|lia]].
  - apply digits_app in D as [D1 D]. apply digits_app in D as [D2 D]. apply digits_app in D as [D3 D4].
    pose proof (digits_len d 2 ltac:(lia) D1) as B1. pose proof (digits_len m 2 ltac:(lia) D2) as B2.
    pose proof (digits_len g 3 ltac:(lia) D3) as B3. pose proof (digits_len n 2 ltac:(lia) D4) as B4. change (10 ^ 2) with 100 in *. change (10 ^ 3) with 1000 in *.
    split; [apply (within_at_most _ _ _ _ X); lia|apply (within_at_most _ _ _ _ Y); lia].
Qed.
Lemma at_most_le j k f : at_most j f -> j <= k -> at_most k f.
Proof.
  destruct f as [| | |n m e]; cbn [at_most]; auto. intros H K. assert (0 < 2 ^ Z.max (- e) 0) by (apply Z.pow_pos_nonneg; lia). nia.
Qed.

Section Runs.
Variable G : geodesic.
Hypothesis HG : sane G.
Lemma coords_fit r : no_coords r \/ (r_llv r = true /\ coords_of G (r_name r) (r_lat r) (r_lon r)) ->
  zlen (fmt_2f (r_lat r)) <= 7 /\ zlen (fmt_2f (r_lon r)) <= 8.
Proof.
  intro H. assert (A : at_most 999 (r_lat r) /\ at_most 9999 (r_lon r)).
  { destruct H as [(_ & -> & ->)|(_ & [H|(b & d & la & lo & brg & dist & _ & _ & _ & _ & _ & _ & E)])].
    - split; exact I.
    - exact (lat_long_bound _ _ _ _ H).
    - destruct (proj1 HG la lo brg dist) as [A B]. rewrite <- E in A, B. cbn [fst snd] in A, B. split; [exact A|apply (at_most_le 999); [exact B|lia]]. }
  destruct A as [A B]. pose proof (proj1 (float_len 3 999 _ ltac:(lia) ltac:(change (10 ^ 3) with 1000; lia) ltac:(lia) A)).
  pose proof (proj1 (float_len 4 9999 _ ltac:(lia) ltac:(change (10 ^ 4) with 10000; lia) ltac:(lia) B)). lia.
Qed.
Lemma joined_or_not l : legs G l -> Forall (fun r => no_leg r \/ exists q, joined G r q) l.
Proof.
  intro H. apply Forall_forall. intros r I. apply in_split in I as (l1 & l2 & ->). apply legs_split in H. unfold leg in H.
  destruct (r_llv r); [|now left]. destruct l2 as [|p m]; [now left|]. destruct (r_llv p); [right; eauto|]. destruct m as [|q m]; [now left|].
  destruct (r_llv q); [right; eauto|now left].
Qed.
Lemma leg_fit r : no_leg r \/ (exists q, joined G r q) -> zlen (fmt_2f (r_brg r)) <= 7 /\ zlen (fmt_2f (r_dist r)) <= 11.
Proof.
  intros [[-> ->]|[q E]]; [vm_compute; split; discriminate|]. unfold joined in E.
  destruct (proj2 HG (r_lat r) (r_lon r) (r_lat q) (r_lon q)) as (A & B & C). rewrite <- E in A, B, C. cbn [fst snd] in A, B, C.
  pose proof (proj1 (float_len 3 999 _ ltac:(lia) ltac:(change (10 ^ 3) with 1000; lia) ltac:(lia) A)).
  pose proof (proj2 (float_len 8 99999999 _ ltac:(lia) ltac:(change (10 ^ 8) with 100000000; lia) ltac:(lia) B) C). lia.
Qed.
(** Every token of a field lies in the field. *)
Lemma token_place field t : In t (field_tokens field) -> 0 <= t_start t <= zlen field /\ 0 <= t_end t <= zlen field.
Proof.
  unfold field_tokens. intro H. apply in_map_iff in H as (t0 & <- & H). cbn [typed t_start t_end]. rewrite tokenize_string_toks in H. cbn [tk_list] in H.
  destruct (tkz_addresses _ _ _ (toks_tokenization f15_whitespace field) _ H) as (A & B & _). lia.
Qed.
Lemma record_place depth field b s : parse_field15 G depth field = Ok b s ->
  Forall (fun r => 0 <= r_start r <= zlen field /\ 0 <= r_end r <= zlen field) (e_recs (s_ers s)).
Proof.
  intro H. destruct (adep_ades G _ _ _ _ H) as (a & mid & z & -> & (_ & A1 & A2 & _) & (_ & Z1 & Z2 & _) & F).
  assert (P : 0 <= zlen field) by (unfold zlen; lia).
  constructor; [lia|]. apply Forall_app. split; [|constructor; [lia|constructor]].
  eapply Forall_impl; [|exact F]. intros r (t & I & E1 & E2 & _). rewrite E1, E2. now apply token_place.
Qed.
Lemma all_final {B} (f : rrec -> B) (P : B -> Prop) depth field b s : parse_field15 G depth field = Ok b s ->
  (forall r v, f (set_r_rules v r) = f r) ->
  (forall nm v, P (f (set_r_rules v (dummy nm)))) -> (forall y, reach G (field_tokens field) (cfg0 0) y -> Forall wt (field_tokens field) -> Forall (fun r => P (f r)) (recs y)) ->
  Forall (fun r => P (f r)) (e_recs (s_ers s)).
Proof.
  intros H K D R. destruct (empty_or field) as [E|E].
  - destruct (parsed_empty G _ _ _ _ H E) as [_ ->]. cbn [e_recs]. constructor; [|constructor; [|constructor]]; specialize (D ($"ADEP") []) as D1; specialize (D ($"ADES") []) as D2; [exact D1|exact D2].
  - destruct (parsed G _ _ _ _ H E) as (HL & y & Y & -> & _). cbn [e_recs]. unfold final_recs. apply Forall_app. split; [|constructor; [apply D|constructor]].
    eapply Forall_map_eq; [symmetry; apply (field_recs_map f); exact K|]. exact (R y Y HL).
Qed.
Lemma record_fit depth field b s : parse_field15 G depth field = Ok b s -> zlen field < 10 ^ 6 ->
  Forall (fun r => zlen (r_name r) <= 17 -> fits r) (e_recs (s_ers s)).
Proof.
  intros H HF.
  assert (A1 : Forall (fun r => perf_ok (perf r)) (e_recs (s_ers s))).
  { apply (all_final perf perf_ok depth field b s H); [reflexivity|intros; now left|]. intros y Y HL. exact (reach_perf G _ HL _ _ Y). }
  assert (A2 : Forall (fun r => climb_ok (climb r)) (e_recs (s_ers s))).
  { apply (all_final climb climb_ok depth field b s H); [reflexivity|intros; exact climb_nil|]. intros y Y HL. exact (reach_climb G _ HL _ _ Y). }
  pose proof (record_place _ _ _ _ H) as A3. pose proof (stays_in_range G _ _ _ _ H) as A4. pose proof (joined_or_not _ (legs_field G _ _ _ _ H)) as A5.
  assert (A6 : Forall some_flight_rules (e_recs (s_ers s))).
  { destruct (empty_or field) as [E|E].
    - destruct (parsed_empty G _ _ _ _ H E) as [_ ->]. cbn [e_recs]. repeat constructor.
    - now destruct (rules_field G _ _ _ _ H E) as (_ & _ & _ & _ & _ & _ & K & _). }
  apply Forall_forall. intros r I N. rewrite Forall_forall in A1, A2, A3, A4, A5, A6.
  destruct (perf_bound r (A1 r I)) as (P1 & P2 & P3 & P4). destruct (A2 r I) as [C1 C2]. cbn [climb fst snd] in C1, C2. destruct (A3 r I) as [S1 S2].
  pose proof (A4 r I) as T. cbv beta in T. destruct (leg_fit r (A5 r I)) as [L1 L2]. destruct (coords_fit r (coords_all G _ _ _ _ r H I)) as [Q1 Q2].
  assert (R : zlen (r_rules r) <= 6) by (specialize (A6 r I); unfold some_flight_rules in A6; cbn [In] in A6; destruct A6 as [<-|[<-|[<-|[<-|[<-|[]]]]]]; vm_compute; discriminate).
  assert (X : 10 ^ 5 <= 10 ^ 6) by (vm_compute; discriminate). assert (X' : 1439 < 10 ^ 5) by reflexivity.
  constructor; try assumption; try (apply str_len; lia); apply plain_len; lia.
Qed.
Lemma error_fit depth field b s : parse_field15 G depth field = Ok b s -> zlen field < 10 ^ 6 ->
  Forall (fun r => zlen (r_name r) <= 17 -> fits r) (e_errs (s_ers s)).
Proof.
  intros H HF. destruct (empty_or field) as [E|E].
  - destruct (parsed_empty G _ _ _ _ H E) as [_ ->]. cbn [e_errs]. constructor; [|constructor]. intros _. constructor; vm_compute; discriminate.
  - destruct (parsed G _ _ _ _ H E) as (HL & y & Y & -> & _). cbn [e_errs]. eapply Forall_impl; [|exact (reach_err_ok G _ _ _ Y)].
    intros e (t & m & H1 & H2 & ->) N. destruct (token_place field t H1) as [S1 S2].
    assert (Q : exists x, err t m = set_r_err x (new_rec (t_text t) (t_start t) (t_end t) (t_base t) (t_sub t))) by (eexists; reflexivity).
    destruct Q as [x Q]. rewrite Q in *. clear Q.
    constructor; try exact N; try (apply str_len; [lia|]; cbn [set_r_err new_rec r_start r_end]; lia); vm_compute; discriminate.
Qed.
End Runs.
