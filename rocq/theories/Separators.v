(** * Separators: parsing with other separators than the documented ones. *)
From Coq Require Import ZArith NArith List Bool String Lia.
From Coq Require Import ZifyBool ZifyNat ZifyN.
From Verif Require Import PyBase PyFloat Enums Regex Syntax Tokenizer Ers Utils Parser.
From Verif Require Import SpecTokenizer TokenizerProofs SpecNum PerfEq SyntaxProofs ParserPrims Trace ParseTrace SpecParser ParserInv ParserFacts SpecLegs SpecGrammar GrammarSem Grammar SpecAccept Accept Describe AcceptFacts RegexProofs.
From Verif Require Import SpecReader ReaderFacts SpecComplete LegFacts CompleteFacts Reuse SpecSeparators.
Import List ListNotations.
Local Open Scope list_scope.
Local Open Scope Z_scope.

(** ** The set of separators *)
Lemma char_in_same w w' c : (In c w <-> In c w') -> char_in c w = char_in c w'.
Proof. intro H. destruct (char_in c w) eqn:E, (char_in c w') eqn:E'; try reflexivity; [apply char_in_spec in E; apply char_in_false in E'|apply char_in_spec in E'; apply char_in_false in E]; tauto. Qed.
Lemma toks_same w w' : forall s i text, (forall c, In c s -> In c w <-> In c w') -> toks w i text s = toks w' i text s.
Proof.
  induction s as [|c s IH]; intros i text H; [reflexivity|]. cbn [toks]. rewrite (char_in_same w w' c) by (apply H; now left).
  assert (H' : forall d, In d s -> In d w <-> In d w') by (intros; apply H; now right). rewrite !(IH _ _ H'). reflexivity.
Qed.
Lemma tokens_same w w' s : (forall c, In c s -> In c w <-> In c w') -> tokenize_string w s = tokenize_string w' s.
Proof. intro H. rewrite !tokenize_string_toks. now rewrite (toks_same w w'). Qed.
Lemma parse_same G depth w w' f : (forall c, In c f -> In c w <-> In c w') -> parse_with G depth w f = parse_with G depth w' f.
Proof. intro H. unfold parse_with. now rewrite (tokens_same w w'). Qed.
Lemma with_list G depth w f : parse_with G depth w f = parse_list G depth (list_with w f).
Proof. unfold parse_with, parse_list, list_with. rewrite tokenize_string_toks. reflexivity. Qed.

(** ** The default *)
Lemma f15_default c : In c f15_whitespace <-> In c default_whitespace \/ c = slash.
Proof. unfold f15_whitespace, default_whitespace, slash. cbn [In]. intuition congruence. Qed.
Lemma default_noslash : ~ In slash default_whitespace.
Proof. unfold default_whitespace, slash. cbn. intuition congruence. Qed.
Lemma addresses_split s t : addresses s t -> exists p q, s = p ++ t_text t ++ q /\ zlen p = t_start t /\ zlen (t_text t) = t_end t - t_start t.
Proof.
  intros (H1 & H2 & H3). unfold slice, slice_bound in H3.
  destruct (t_start t <? 0) eqn:E1; [lia|]. destruct (t_end t <? 0) eqn:E2; [lia|].
  replace (Z.max 0 (Z.min (zlen s) (t_start t))) with (t_start t) in H3 by lia.
  replace (Z.max 0 (Z.min (zlen s) (t_end t))) with (t_end t) in H3 by lia.
  exists (firstn (Z.to_nat (t_start t)) s), (skipn (Z.to_nat (t_end t - t_start t)) (skipn (Z.to_nat (t_start t)) s)).
  rewrite <- H3. rewrite firstn_skipn, firstn_skipn. split; [reflexivity|]. unfold zlen in *. rewrite !firstn_length, skipn_length. lia.
Qed.
Lemma inside_char s t c : addresses s t -> In c (t_text t) -> exists i, inside t i /\ char_at s i c.
Proof.
  intros A H. destruct (addresses_split s t A) as (p & q & -> & E1 & E2). apply In_nth_error in H as [k Hk].
  assert (Lk : (k < List.length (t_text t))%nat) by (apply nth_error_Some; congruence). exists (zlen p + Z.of_nat k). unfold inside, zlen in *. split; [lia|].
  split; [lia|]. replace (Z.to_nat _) with (List.length p + k)%nat by lia. rewrite nth_error_app2 by lia. replace (_ + k - _)%nat with k by lia. now rewrite nth_error_app1.
Qed.
Lemma apart_tokens f : slashes_apart f -> list_with default_whitespace f = list_with f15_whitespace f.
Proof.
  intro A. unfold list_with. rewrite !tokenize_string_toks. cbn [tk_list]. apply (tokenization_unique f15_whitespace f); [|apply toks_tokenization].
  destruct (toks_tokenization default_whitespace f) as [T1 T2 T3 T4 T5]. set (l := toks default_whitespace 0 [] f) in *. constructor; try assumption.
  - intros i c H. rewrite (T3 i c H). pose proof (f15_default c) as F. unfold separator. pose proof default_noslash as N. destruct (N.eq_dec c slash) as [->|Nc]; tauto.
  - intros t Ht. destruct (T4 t Ht) as [[S _]|(M1 & M2 & M3)]; [destruct (default_noslash S)|]. pose proof (T1 t Ht) as Ad. unfold separator in *.
    destruct (in_dec N.eq_dec slash (t_text t)) as [Hs|Hs].
    + left. split; [apply f15_default; now right|].
      destruct (inside_char f t slash Ad Hs) as (i & Hi & Ci). destruct (A i Ci) as [A1 A2]. destruct (addresses_split f t Ad) as (_ & _ & _ & _ & El). destruct Hi as [I1 I2].
      assert (i = t_start t).
      { destruct (Z.eq_dec i (t_start t)) as [E|E]; [exact E|]. exfalso. destruct (addresses_char f t (i - 1) Ad) as (c & C1 & C2); [unfold inside; lia|]. exact (M1 c C2 (A1 c C1)). }
      assert (i + 1 = t_end t).
      { destruct (Z.eq_dec (i + 1) (t_end t)) as [E|E]; [exact E|]. exfalso. destruct (addresses_char f t (i + 1) Ad) as (c & C1 & C2); [unfold inside; lia|]. exact (M1 c C2 (A2 c C1)). }
      unfold zlen in El. destruct (t_text t) as [|a [|b r]]; [destruct Hs| |cbn [List.length] in El; lia]. destruct Hs as [->|[]]. reflexivity.
    + right. split; [|split; intros c Hc; unfold separator; apply f15_default; left; auto]. intros c Hc K. apply f15_default in K as [K|K]; [exact (M1 c Hc K)|]. subst. contradiction.
Qed.
Lemma tokens_apart f : list_with default_whitespace f = list_with f15_whitespace f -> slashes_apart f.
Proof.
  unfold list_with. rewrite !tokenize_string_toks. cbn [tk_list]. intros E i Hi.
  destruct (toks_tokenization default_whitespace f) as [T1 _ T3 T4 _]. destruct (toks_tokenization f15_whitespace f) as [_ _ _ S4 _].
  destruct (proj2 (T3 i slash Hi) (or_intror eq_refl)) as (t & Ht & Ii). pose proof (T1 t Ht) as Ad. pose proof (S4 t ltac:(rewrite <- E; exact Ht)) as Sh.
  destruct (addresses_char f t i Ad Ii) as (c & C1 & C2). rewrite (char_at_fun f i c slash C1 Hi) in C2.
  destruct Sh as [[_ Sh]|(Sh & _)]; [|exfalso; apply (Sh slash C2); apply f15_default; now right].
  destruct (addresses_split f t Ad) as (_ & _ & _ & _ & El). rewrite Sh in El. change (zlen [slash]) with 1 in El. destruct Ii as [I1 I2].
  destruct (T4 t Ht) as [[S _]|(_ & M2 & M3)]; [destruct (default_noslash S)|]. replace (t_start t) with i in M2 by lia. replace (t_end t) with (i + 1) in M3 by lia. split; assumption.
Qed.
Lemma apart_iff f : list_with default_whitespace f = list_with f15_whitespace f <-> slashes_apart f.
Proof. split; [apply tokens_apart|apply apart_tokens]. Qed.
Lemma apart_parse G depth f : slashes_apart f -> parse_with G depth default_whitespace f = parse_field15 G depth f.
Proof. intro H. rewrite with_list, (apart_tokens f H), <- with_list. reflexivity. Qed.

(** ** Lists of tokens *)
Lemma map_typed l : map typed l = map assign_syntax l.
Proof. apply map_ext. exact typed_assign. Qed.
Section G.
Variable G : geodesic.
Lemma list_complete depth l0 b s : l0 <> [] -> parse_list G depth l0 = Ok b s ->
  exists l e, reading (map typed l0) = Some (Gives l e) /\ b = (match e with [] => true | _ => false end) /\ s_ers s = ers_of G l e.
Proof.
  unfold parse_list. rewrite map_typed. intros L0 H. pose proof (parse_reads G depth l0 0 0 L0) as A. rewrite H in A. destruct A as (l & e & A1 & A2 & [A3 A4] & A5 & A6).
  pose proof (parse_trace G depth l0 0 0 L0) as O. unfold ParseTrace.outcome in O. rewrite H in O. destruct O as (y & R & E & B & _).
  pose proof (assign_syntax_all l0) as HL. set (L := map assign_syntax l0) in *.
  assert (Es : s_ers s = mkErs (final_recs (is_vfr_first L) y) (c_errs y) (derived (final_recs (is_vfr_first L) y))) by (rewrite E; reflexivity). rewrite Es in *. cbn [e_recs e_errs e_rules] in *.
  exists l, e. split; [exact A1|]. split; [exact A5|]. unfold ers_of. rewrite <- A2 in *. rewrite <- (route_eq G (final_recs (is_vfr_first L) y)).
  - rewrite A6, A3. f_equal. now apply all_error.
  - unfold final_recs. apply Forall_app. split; [|constructor; [split; reflexivity|constructor]].
    apply (exact_list G (recs y)); [symmetry; apply field_recs_map; reflexivity|exact (reach_exact G _ HL 0 y R)].
  - unfold final_recs. apply Forall_app. split; [|constructor; [split; reflexivity|constructor]]. eapply Forall_impl; [exact perf_exact|].
    eapply Forall_perf_map; [symmetry; apply (field_recs_map perf); reflexivity|]. exact (reach_perf G _ HL _ _ R).
  - unfold final_recs. apply legs_snoc; [|reflexivity|split; reflexivity]. apply (legs_map G (recs y)); [|exact (reach_legs G _ 0 _ R)]. symmetry. apply field_recs_map. reflexivity.
Qed.
Lemma list_total depth l0 : l0 <> [] -> (3 * List.length l0 <= depth + 1)%nat ->
  match reading (map typed l0) with
  | Some (Gives l e) => exists s, parse_list G depth l0 = Ok (match e with [] => true | _ => false end) s /\ s_ers s = ers_of G l e
  | Some Raises => exists s, parse_list G depth l0 = Exn ValueError s
  | None => False
  end.
Proof.
  intros L0 Hd. pose proof (reading_stops (map typed l0)) as T. pose proof (no_recursion_error G depth l0 0 0 Hd) as N. fold (parse_list G depth l0) in N.
  destruct (parse_list G depth l0) as [b s|x s] eqn:H.
  - destruct (list_complete depth l0 b s L0 H) as (l & e & -> & -> & K). eauto.
  - pose proof (parse_reads G depth l0 0 0 L0) as A. fold (parse_list G depth l0) in A. rewrite H, <- map_typed in A. pose proof (parse_trace G depth l0 0 0 L0) as O. unfold ParseTrace.outcome in O.
    fold (parse_list G depth l0) in O. rewrite H in O. destruct O as (y & _ & _ & _ & [[-> _]|[-> _]]); [destruct (N eq_refl)|]. destruct A as [_ ->]. eauto.
Qed.
Lemma list_accepts depth l0 : l0 <> [] -> (3 * List.length l0 <= depth + 1)%nat -> ((exists s, parse_list G depth l0 = Ok true s) <-> sentence (map typed l0)).
Proof.
  intros L0 Hd. rewrite map_typed. pose proof (accept_parse G depth l0 0 0 L0) as A. fold (parse_list G depth l0) in A. pose proof (no_recursion_error G depth l0 0%Z 0 Hd) as N. fold (parse_list G depth l0) in N. split.
  - intros [s H]. rewrite H in A. destruct (proj1 A eq_refl) as (ss & cur & calls & D & Y & _). exists ss. auto.
  - intro S. destruct (parse_list G depth l0) as [b s|e s]; cbn [accept_out] in A; [|exfalso; apply N; exact (A S)]. rewrite (proj2 A S). eauto.
Qed.
Lemma list_roles depth l0 s : parse_list G depth l0 = Ok true s -> exists ss, derives XStart ss /\ roles (map typed l0) = ryield ss /\ yield ss = map typed l0.
Proof.
  intro H. destruct l0 as [|t l]; [unfold parse_list in H; rewrite parse_empty in H; discriminate H|]. rewrite map_typed.
  pose proof (accept_parse G depth (t :: l) 0 0 ltac:(discriminate)) as A. fold (parse_list G depth (t :: l)) in A. rewrite H in A. destruct (proj1 A eq_refl) as (ss & cur & calls & D & Y & _).
  exists ss. split; [exact D|]. split; [|exact Y]. unfold roles. rewrite <- Y. exact (roled_derives ss XStart D).
Qed.
Lemma out_recognised ss t : derives XStart ss -> In (t, ROut) (ryield ss) -> recognised (t_base t) = true.
Proof.
  intros D H. apply in_split in H as (pre & rest & E). destruct (locate ss XStart _ _ _ D E) as (c & s & ss1 & ss2 & a & b & Es & Er & Ep & Et & F & P & D2 & Ec).
  assert (Hi : In (t, ROut) (rstep s)) by (rewrite Er; apply in_or_app; right; now left).
  destruct s; cbn [rstep tokens_of map In] in Hi; cbn [proper] in P.
  13: { apply in_map_iff in Hi as (t0 & K & _). discriminate K. }
  all: repeat match goal with
    | H : _ \/ _ |- _ => destruct H
    | H : _ /\ _ |- _ => destruct H
    | H : False |- _ => destruct H
    | H : (_, _) = (_, _) |- _ => injection H; clear H; intros; subst
    end; try discriminate; try match goal with H : t_base ?x = _ |- recognised (t_base ?x) = true => rewrite H; reflexivity end.
Qed.
Lemma ryield_in ss x : In x (ryield ss) -> In (fst x) (yield ss).
Proof.
  induction ss as [|s ss IH]; [intros []|]. rewrite ryield_cons, yield_cons, !in_app_iff. intros [K|K]; [left|right; now apply IH]. exact (proj1 (rstep_in s x K)).
Qed.
End G.

(** ** Texts with a slash *)
Lemma slash_shapes : forallb (fun sh : shape => (List.length sh =? 1)%nat || forallb (fun c => cc_incl c [(65, 90); (48, 57)]%N) sh) (shapes_with SyntaxProofs.recognised) = true.
Proof. vm_compute; reflexivity. Qed.
Lemma slash_alone s : fst (classify s) <> F15_UNKNOWN -> fst (classify s) <> F15_TOO_LONG -> In slash s -> s = [slash].
Proof.
  intros H1 H2 Hs. rewrite (classify_get s H2) in H1. destruct (typed_shape SyntaxProofs.recognised s eq_refl) as [sh [S1 S2]].
  { unfold SyntaxProofs.recognised. apply negb_true_iff. now apply base_eqb_neq. }
  pose proof slash_shapes as R. rewrite forallb_forall in R. specialize (R _ S1). apply orb_true_iff in R as [R|R].
  - apply Nat.eqb_eq in R. rewrite (shape_length _ _ S2) in R. destruct s as [|a [|b r]]; try discriminate. destruct Hs as [->|[]]. reflexivity.
  - exfalso. clear S1 H1 H2. induction S2 as [|x y sh s Hx S2 IH]; [destruct Hs|]. cbn [forallb] in R. apply andb_true_iff in R as [R1 R2]. destruct Hs as [->|Hs]; [|auto].
    pose proof (cc_incl_sound _ _ _ R1 Hx) as K. discriminate K.
Qed.
Lemma list_slash G depth l0 s : parse_list G depth l0 = Ok true s -> forall t, In (t, ROut) (roles (map typed l0)) -> In slash (t_text t) -> t_text t = [slash].
Proof.
  intros H t Ht. destruct (list_roles G depth l0 s H) as (ss & D & E & Y). rewrite E in Ht. pose proof (out_recognised ss t D Ht) as R. apply ryield_in in Ht. cbn [fst] in Ht. rewrite Y in Ht.
  apply in_map_iff in Ht as (t0 & <- & _). cbn [typed t_text t_base] in *. apply slash_alone; intro K; rewrite K in R; discriminate.
Qed.
(** Types that the tokens carry already do not matter. *)
Lemma list_types G depth l m : map typed l = map typed m -> parse_list G depth l = parse_list G depth m.
Proof.
  rewrite !map_typed. unfold parse_list. intro E. destruct (map assign_syntax l) as [|t r] eqn:El.
  - symmetry in E. apply map_eq_nil in E. apply map_eq_nil in El. subst. reflexivity.
  - rewrite (parse_eq G depth l 0 0 t r El). symmetry in E. now rewrite (parse_eq G depth m 0 0 t r E).
Qed.
