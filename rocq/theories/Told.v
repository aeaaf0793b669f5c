(** * Told: lemmas about the automaton of SpecDiagnosis behind PropsTold. *)
From Coq Require Import ZArith NArith List Bool String Lia.
From Verif Require Import PyBase PyFloat Enums ErrorTable Tokenizer Ers Utils Parser SpecTokenizer TokenizerProofs SpecNum SpecParser SpecGrammar SpecDiagnosis.
From Verif Require Import ParserFacts Accept DiagFacts SpecViable Viable SpecAdvice Advice SpecTold.
Import List ListNotations.
Local Open Scope list_scope.
Local Open Scope nat_scope.

(** ** Messages about values, sections and too long elements *)
Definition value_told (t : token) (m : Z) : Prop :=
  (angle_message m = true /\ angle_fault t = Some m) \/ (m = 40%Z /\ level_fault t = true) \/ (m = 4%Z /\ t_base t = F15_TOO_LONG) \/ (m = 22%Z /\ t_base t = F15_POINT).
Lemma value_truth p t r u m : value_fault p t r = Report u m -> u = t /\ value_told t m.
Proof.
  assert (A : angles t = Report u m -> u = t /\ value_told t m).
  { intro H. pose proof (angle_msg _ _ _ H) as Ha. unfold angles in H. destruct (angle_fault t) as [n|] eqn:E; [|discriminate]. injection H as <- <-. split; [reflexivity|]. left. auto. }
  assert (B : levels t = Report u m -> u = t /\ value_told t m).
  { unfold levels. destruct (unconvertible t); [discriminate|]. destruct (level_fault t) eqn:E; [|discriminate]. intro H. injection H as <- <-. split; [reflexivity|]. right. left. auto. }
  unfold value_fault. destruct p as [| | | | |b| |sl b|sl|q|q|sk|sl|k|k|n]; try (destruct (t_base t); try discriminate; exact A); try exact A; try exact B.
  destruct k; try exact A. destruct r as [|x [|sp r]]; try exact A. destruct (base_eqb _ _); [discriminate|exact A].
Qed.
Lemma too_long q t : okl q -> misplaced q t = 4%Z -> t_base t = F15_TOO_LONG.
Proof.
  intros Ho H. destruct q; cbn [okl] in Ho; unfold misplaced in H; destruct (t_base t) eqn:?; try discriminate H; try reflexivity;
    try (exfalso; unfold stray_end in H; destruct (t_sub t); discriminate H); try (exfalso; destruct Ho; subst; discriminate).
Qed.
Lemma no_value q t : okl q -> plain (misplaced q t) = true \/ misplaced q t = 4%Z.
Proof.
  intro Ho. assert (E : plain (stray_end t) = true) by (unfold stray_end; destruct (t_sub t); reflexivity).
  unfold misplaced. destruct q; cbn [okl] in Ho; try (destruct Ho; subst); destruct (t_base t); auto.
Qed.
Lemma diag_told ts : forall p u m, okl p -> diag p ts = Report u m -> plain m = false -> value_told u m.
Proof.
  induction ts as [|t ts IH]; intros p u m Ho H Hm; cbn [diag] in H.
  - unfold stop in H. destruct p; try discriminate H; injection H as <- <-; discriminate Hm.
  - assert (Gen : (if fits p t then then_ (value_fault p t ts) (diag (place_after p t) ts) else Report t (misplaced p t)) = Report u m -> value_told u m).
    { clear H. intro H. destruct (fits p t).
      - destruct (value_fault p t ts) as [|t' m'|] eqn:E; cbn [then_] in H; [exact (IH _ _ _ (okl_after _ _) H Hm)| |discriminate].
        injection H as <- <-. destruct (value_truth _ _ _ _ _ E) as [-> K]. exact K.
      - injection H as <- <-. destruct (no_value p t Ho) as [K|K]; [congruence|]. right. right. left. rewrite K. split; [reflexivity|exact (too_long _ _ Ho K)]. }
    destruct p; try exact (Gen H). clear Gen.
    destruct (base_eqb _ _) eqn:Eb; [injection H as <- <-; right; right; left; split; [reflexivity|destruct (t_base t); try discriminate Eb; reflexivity]|].
    destruct (ends _ _); [|exact (IH _ _ _ Ho H Hm)].
    destruct (resume k ts) eqn:Er; [exact (IH _ _ _ Ho H Hm)|exact (IH (PJoin k) _ _ Logic.I H Hm)|]. destruct ts as [|q ts]; [discriminate|]. injection H as <- <-. right. right. right. split; [reflexivity|].
    unfold resume in Er. destruct (t_base q); try discriminate Er. reflexivity.
Qed.

(** ** All messages *)
(** The element before a place. *)
Definition before_place (q : place) : list base_type :=
  match q with
  | PAdep => [] | PDct => [F15_DCT] | PRoute => [F15_ROUTE] | PSid => [F15_SID; F15_SID_STAR] | PStay => [F15_STAY_TIME]
  | PSlash _ _ | PClimb _ | PClimbSl _ | PStaySl _ => [F15_SLASH]
  | PStayTok _ => [F15_STAY] | PC => [F15_C]
  | PLast m => if Z.eqb m 19 then [F15_TRUNCATE] else [F15_STAR; F15_SID_STAR]
  | _ => []
  end.
Lemma before_after p x : enters p x -> (forall k, place_after p x <> PText k) ->
  match place_after p x with PPoint _ => t_base x <> F15_SLASH | PClimbPt _ => True | q => In (t_base x) (before_place q) end.
Proof.
  intros [Hf Hj] Hn. unfold place_after in *. unfold fits in Hf.
  destruct p; destruct (t_base x); try discriminate Hf; cbn; auto; try discriminate; try (destruct (Hn _ eq_refl)). specialize (Hj _ eq_refl). discriminate Hj.
Qed.
Lemma misplaced_told i before t last q : okl q -> (forall k, q <> PText k) -> fits q t = false ->
  ((i = 1 /\ q = PAdep /\ ~ follows [F15_SLASH] before) \/ exists x p', i <> 1 /\ before = Some x /\ enters p' x /\ q = place_after p' x) -> told i before t last (misplaced q t).
Proof.
  intros Ho Hn Hf Hb.
  assert (B : match q with
              | PAdep => i = 1 /\ ~ follows [F15_SLASH] before
              | PPoint _ => i <> 1 /\ ~ follows [F15_SLASH] before
              | PClimbPt _ | PText _ | PJoin _ => True
              | _ => i <> 1 /\ follows (before_place q) before
              end).
  { destruct Hb as [(Hi & -> & Hs)|(x & p' & Hi & Eb & He & ->)]; [exact (conj Hi Hs)|]. pose proof (before_after p' x He Hn) as K.
    destruct (place_after p' x) eqn:Ep; try exact Logic.I; try (split; [exact Hi|exists x; split; [exact Eb|exact K]]).
    - exfalso. destruct K.
    - split; [exact Hi|]. intros (y & Ey & [Hy|[]]). rewrite Eb in Ey. injection Ey as <-. congruence. }
  clear Hb. assert (C : forall bs, follows bs before -> ~ In F15_SLASH bs -> ~ follows [F15_SLASH] before).
  { intros bs (x & Ex & Hx) Hs (y & Ey & [Hy|[]]). rewrite Ex in Ey. injection Ey as <-. rewrite Hy in Hs. contradiction. }
  destruct q; cbn [okl] in Ho; unfold misplaced; unfold fits in Hf; destruct (t_base t) eqn:Et; try discriminate Hf; try (destruct (Hn _ eq_refl));
    try (unfold stray_end; destruct (t_sub t) eqn:Es; cbn [told]; unfold is_a; rewrite ?Et; cbn [In]; auto; fail);
    try (destruct Ho as [-> | ->]; cbn in B |- *; exact (proj2 B));
    cbn [told base_eqb]; cbn [before_place] in B; unfold is_a; rewrite ?Et; cbn [In];
    repeat split; try tauto; try (intuition discriminate); try (destruct B as [_ B]; exact B);
    try (destruct B as [_ B]; apply (C _ B); cbn [In]; intuition discriminate).
  - now apply negb_false_iff.
  - change (is_a [F15_UNKNOWN] t). unfold is_a. rewrite Et. now left.
  - change (is_a [F15_TOO_LONG] t). unfold is_a. rewrite Et. now left.
Qed.

(** Messages about the end. *)
Lemma stop_told i before a x p' t m : stop (place_after p' x) = Report t m -> enters p' x -> told i before t (last_of (a ++ [x])) m.
Proof.
  intros H [Hf Hj]. replace (last_of (a ++ [x])) with (Some x) by (unfold last_of; now rewrite rev_app_distr).
  unfold place_after in H. unfold fits in Hf. destruct p'; destruct (t_base x) eqn:Ex; try discriminate Hf; cbn in H; try discriminate H; injection H as <- <-; cbn [told]; unfold is_a; try (eexists; split; [reflexivity|]); rewrite ?Ex; cbn [In]; auto.
Qed.
Lemma value_told_told i before last t m : value_told t m -> told i before t last m.
Proof.
  intros [[A H]|[[-> H]|[[-> H]|[-> H]]]]; cbn [told]; unfold is_a; rewrite ?H; cbn [In]; auto.
  unfold angle_message in A. cbn [existsb] in A. repeat (apply orb_true_iff in A as [A|A]; [apply Z.eqb_eq in A; subst m; exact H|]). discriminate.
Qed.
Lemma end_plain m : end_message m = true -> plain m = true.
Proof. intro A. unfold end_message in A. cbn [existsb] in A. repeat (apply orb_true_iff in A as [A|A]; [apply Z.eqb_eq in A; subst m; reflexivity|]). discriminate. Qed.
Theorem truth l i t m : NoDup l -> diagnose l = Report t m -> nth_error l i = Some t ->
  told i (match i with O => None | S j => nth_error l j end) t (last_of l) m.
Proof.
  intros Nd Hd Hi. destruct (plain m) eqn:Hm.
  2: { apply value_told_told. destruct l as [|x a]; [discriminate Hd|]. unfold diagnose in Hd. destruct (t_base x); try (injection Hd as _ <-; discriminate Hm).
       - exact (diag_told a (PText KVfr) t m Logic.I Hd Hm).
       - destruct (levels x) as [|u n|] eqn:El; cbn [then_] in Hd; [|injection Hd as -> ->; destruct (value_truth (PClimbSl x) x [] _ _ El) as [-> K]; exact K|discriminate].
         destruct a as [|y a]; [injection Hd as _ <-; discriminate Hm|]. exact (diag_told _ PAdep _ _ Logic.I Hd Hm). }
  destruct (end_message m) eqn:He.
  - destruct l as [|x a]; [discriminate Hd|].
    assert (Hx : forall y q, In y a -> okl q -> Report y (misplaced q y) <> Report t m).
    { intros y q _ Ho K. injection K as _ K. pose proof (end_misplaced q y Ho) as Z. rewrite K, He in Z. discriminate. }
    assert (Deep : forall p, okl p -> (forall k, p <> PJoin k) -> stop p = Fine -> diag p a = Report t m -> told i (match i with O => None | S j => nth_error (x :: a) j end) t (last_of (x :: a)) m).
    { intros p Ho Hp Hs H. rewrite <- (app_nil_r a) in H.
      destruct (reached [] t m Hm ltac:(discriminate) ltac:(discriminate) ltac:(discriminate) ltac:(discriminate) a Hx p Ho) as (q & _ & Q2 & _ & Q4); auto.
      - intros k K. destruct (Hp _ K).
      - destruct Q4 as [[_ ->]|(a' & y & p' & -> & He' & ->)]; [cbn [diag] in Q2; congruence|]. rewrite app_comm_cons. exact (stop_told _ _ _ _ _ _ _ Q2 He'). }
    unfold diagnose in Hd. destruct (t_base x); try (injection Hd as _ <-; discriminate He).
    + apply (Deep (PText KVfr)); [exact Logic.I|discriminate|reflexivity|exact Hd].
    + destruct (levels x) as [|u n|] eqn:El; cbn [then_] in Hd; [|exfalso; injection Hd as -> ->; exact (plain_value (PClimbSl x) x [] _ _ Hm El)|discriminate].
      destruct a as [|y a].
      * injection Hd as -> <-. destruct i as [|i]; [split; reflexivity|]. destruct i; discriminate Hi.
      * apply (Deep PAdep); [exact Logic.I|discriminate|reflexivity|exact Hd].
  - assert (Im : inner m = true) by (unfold inner; now rewrite Hm, He).
    destruct (Viable.split_nth _ _ _ Hi) as [E L]. set (a := firstn i l) in *. set (r := skipn (S i) l) in *.
    assert (Nd' := Nd). rewrite E in Nd'. assert (Hd' := Hd). rewrite E in Hd'.
    assert (Nr : ~ In t r) by (apply NoDup_remove_2 in Nd'; intro K; apply Nd', in_or_app; now right).
    assert (Nx : ~ In t a) by (apply NoDup_remove_2 in Nd'; intro K; apply Nd', in_or_app; now left).
    assert (No : forall p', diag p' r <> Report t m) by (intros p' Q; destruct (diag_in _ _ _ _ Q); [contradiction|congruence]).
    destruct (list_eq_dec Nat.eq_dec (map (fun _ => 0) a) []) as [Ea|Ea].
    + assert (Ez : a = []) by (destruct a; [reflexivity|discriminate Ea]). rewrite Ez in L. cbn in L. subst i. clear Ea. rewrite Ez in Hd'. cbn [app] in Hd'.
      unfold diagnose in Hd'. destruct (t_base t) eqn:Et; try (injection Hd' as <-; cbn [told]; unfold is_a; rewrite Et; cbn [In]; split; [reflexivity|]; intuition discriminate); exfalso; [exact (No _ Hd')|].
      destruct (levels t) as [|u n|] eqn:El; cbn [then_] in Hd'; [|injection Hd' as -> ->; exact (plain_value (PClimbSl t) t [] _ _ Hm El)|discriminate].
      destruct r; [injection Hd' as <-; discriminate He|exact (No _ Hd')].
    + assert (Na : a <> []) by (intro K; apply Ea; now rewrite K).
      destruct (error_place a t r m Nd' Na Im Hd') as (q & Q1 & Q2 & Q3 & <- & _ & Q6). apply misplaced_told; auto.
      destruct Q6 as [[La ->]|(a' & x & p' & Ha & Hn & Hen & ->)].
      * left. split; [lia|]. split; [reflexivity|]. intros (y & Ey & [Hy|[]]). destruct i as [|[|i]]; try lia. destruct a as [|z [|? ?]]; cbn in La; try lia.
        rewrite E in Ey. cbn in Ey. injection Ey as ->. cbn [app] in Hd'. unfold diagnose in Hd'. rewrite <- Hy in Hd'. injection Hd' as <- _. apply Nx. now left.
      * right. exists x, p'. assert (La : length a' + 1 = i) by (rewrite <- L, Ha, app_length; reflexivity).
        split; [destruct a'; [congruence|cbn in La; lia]|]. split; [|split; [exact Hen|reflexivity]].
        destruct i as [|i]; [lia|]. assert (length a' = i) by lia. rewrite E, Ha, <- app_assoc, nth_error_app2 by lia. now replace (i - length a') with 0 by lia.
Qed.
Theorem message_true (G : geodesic) depth field b s e es : field_tokens field <> [] -> parse_field15 G depth field = Ok b s -> e_errs (s_ers s) = e :: es ->
  exists i t m, nth_error (field_tokens field) i = Some t /\ reports t m e /\
    told i (match i with O => None | S j => nth_error (field_tokens field) j end) t (last_of (field_tokens field)) m.
Proof.
  intros Hne Hp He. pose proof (first_error_field G depth field b s Hne Hp) as F.
  destruct (diagnose (field_tokens field)) as [|t m|] eqn:Dg; [destruct F as [_ F]; congruence| |destruct F].
  destruct F as (_ & e' & es' & He' & Hr). rewrite He in He'. injection He' as <- <-.
  destruct (In_nth_error _ _ (proj2 (diagnose_names _ _ _ Dg))) as [i Hi]. exists i, t, m. split; [exact Hi|]. split; [exact Hr|].
  exact (truth _ _ _ _ (ft_nodup field) Dg Hi).
Qed.
