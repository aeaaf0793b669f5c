(** * TokenizerProofs: lemmas about the tokenizer model. *)
From Coq Require Import ZArith NArith List Bool Sorted Lia ZifyBool ZifyNat ZifyN.
From Verif Require Import PyBase Enums Tokenizer SpecTokenizer.
Import ListNotations.
Open Scope Z_scope.

(** ** Basics *)
Lemma pstr_eqb_eq a : forall b, pstr_eqb a b = true <-> a = b.
Proof.
  induction a as [|x a IH]; destruct b as [|y b]; simpl; split; intro H; try easy.
  - apply andb_true_iff in H as [H1 H2]. apply N.eqb_eq in H1. apply IH in H2. now subst.
  - injection H as -> ->. rewrite N.eqb_refl. simpl. now apply IH.
Qed.
Lemma pstr_eqb_neq a b : pstr_eqb a b = false <-> a <> b.
Proof. rewrite <- pstr_eqb_eq. destruct (pstr_eqb a b); split; congruence. Qed.
Lemma pstr_eqb_refl a : pstr_eqb a a = true.
Proof. now apply pstr_eqb_eq. Qed.

Lemma zlen_nil A : zlen (@nil A) = 0. Proof. reflexivity. Qed.
Lemma zlen_cons A (x : A) l : zlen (x :: l) = zlen l + 1.
Proof. unfold zlen. simpl length. lia. Qed.
Lemma zlen_app A (a b : list A) : zlen (a ++ b) = zlen a + zlen b.
Proof. unfold zlen. rewrite app_length. lia. Qed.
Lemma zlen_nonneg A (l : list A) : 0 <= zlen l. Proof. unfold zlen. lia. Qed.
Lemma zlen_map A B (f : A -> B) l : zlen (map f l) = zlen l.
Proof. unfold zlen. now rewrite map_length. Qed.

Lemma char_in_spec c w : char_in c w = true <-> In c w.
Proof.
  unfold char_in. rewrite existsb_exists. split.
  - intros [x [H1 H2]]. apply N.eqb_eq in H2. now subst.
  - intro H. exists c. split; [assumption | apply N.eqb_refl].
Qed.
Lemma char_in_false c w : char_in c w = false <-> ~ In c w.
Proof. rewrite <- char_in_spec. destruct (char_in c w); split; congruence. Qed.

Lemma slice_mid A (p m q : list A) : slice (p ++ m ++ q) (Some (zlen p)) (Some (zlen p + zlen m)) = m.
Proof.
  unfold slice, slice_bound. rewrite !zlen_app.
  pose proof (zlen_nonneg A p). pose proof (zlen_nonneg A m). pose proof (zlen_nonneg A q).
  destruct (zlen p <? 0) eqn:E1; [lia|]. destruct (zlen p + zlen m <? 0) eqn:E2; [lia|].
  replace (Z.max 0 (Z.min (zlen p + (zlen m + zlen q)) (zlen p))) with (zlen p) by lia.
  replace (Z.max 0 (Z.min (zlen p + (zlen m + zlen q)) (zlen p + zlen m))) with (zlen p + zlen m) by lia.
  replace (Z.to_nat (zlen p)) with (length p) by (unfold zlen; lia).
  replace (Z.to_nat (zlen p + zlen m - zlen p)) with (length m) by (unfold zlen; lia).
  rewrite skipn_app, skipn_all, Nat.sub_diag. simpl.
  rewrite firstn_app, Nat.sub_diag, firstn_all. simpl. apply app_nil_r.
Qed.

Lemma char_at_lt s i c : char_at s i c -> i < zlen s.
Proof. intros [H1 H2]. assert (Z.to_nat i < length s)%nat by (apply nth_error_Some; congruence). unfold zlen. lia. Qed.
Lemma char_at_nth s (k : nat) c : nth_error s k = Some c -> char_at s (Z.of_nat k) c.
Proof. intro H. split; [lia|]. now rewrite Nat2Z.id. Qed.
Lemma char_at_app_l p q i c : i < zlen p -> char_at (p ++ q) i c <-> char_at p i c.
Proof.
  intro H. unfold char_at. split; intros [H1 H2]; split; auto.
  - rewrite nth_error_app1 in H2; [assumption|]. unfold zlen in H. lia.
  - rewrite nth_error_app1; [assumption|]. unfold zlen in H. lia.
Qed.
Lemma char_at_app_r p q i c : zlen p <= i -> char_at (p ++ q) i c <-> char_at q (i - zlen p) c.
Proof.
  intro H. unfold char_at, zlen in *.
  replace (Z.to_nat (i - Z.of_nat (length p))) with (Z.to_nat i - length p)%nat by lia.
  split; intros [H1 H2]; split; try lia.
  - rewrite nth_error_app2 in H2; [assumption|]. lia.
  - rewrite nth_error_app2; [assumption|]. lia.
Qed.
Lemma char_at_In s i c : char_at s i c -> In c s.
Proof. intros [_ H]. now apply nth_error_In in H. Qed.
Lemma char_at_fun s i c d : char_at s i c -> char_at s i d -> c = d.
Proof. intros [_ H] [_ H']. congruence. Qed.
Lemma char_at_0 c s d : char_at (c :: s) 0 d <-> d = c.
Proof. unfold char_at. simpl. split; [intros [_ H]; congruence | intros ->; split; [lia|reflexivity]]. Qed.

(** ** The loop without its accumulator *)
Fixpoint toks (w : pstr) (idx : Z) (text s : pstr) : list token :=
  match s with
  | [] => match text with [] => [] | _ => [new_token text (idx - zlen text) idx] end
  | c :: r =>
      if char_in c w then
        match text with [] => [] | _ => [new_token text (idx - zlen text) idx] end ++
        (if N.eqb c slash then [new_token [c] idx (idx + 1)] else []) ++
        toks w (idx + 1) [] r
      else toks w (idx + 1) (text ++ [c]) r
  end.

Lemma save_token_spec ts text idx :
  save_token ts text idx =
  mkTokens (tk_list ts ++ match text with [] => [] | _ => [new_token text (idx - zlen text) idx] end) (tk_cur ts).
Proof.
  unfold save_token, create_append_token, append_token.
  destruct text as [|c t]; simpl.
  - destruct ts; simpl. now rewrite app_nil_r.
  - rewrite zlen_cons. pose proof (zlen_nonneg N t).
    destruct (0 <? zlen t + 1) eqn:E; [reflexivity|lia].
Qed.

Lemma tokenize_loop_toks w s : forall ts idx text,
  tokenize_loop w ts idx text s = mkTokens (tk_list ts ++ toks w idx text s) (tk_cur ts).
Proof.
  induction s as [|c r IH]; intros ts idx text; simpl.
  - apply save_token_spec.
  - destruct (char_in c w).
    + rewrite IH, !save_token_spec. simpl.
      assert (E : (if 0 <? zlen text
          then mkTokens (tk_list ts ++ match text with [] => [] | _ => [new_token text (idx - zlen text) idx] end) (tk_cur ts)
          else ts) = mkTokens (tk_list ts ++ match text with [] => [] | _ => [new_token text (idx - zlen text) idx] end) (tk_cur ts)).
      { destruct text as [|x t]; simpl.
        - destruct ts; simpl; now rewrite app_nil_r.
        - rewrite zlen_cons. pose proof (zlen_nonneg N t). destruct (0 <? zlen t + 1) eqn:E; [reflexivity|lia]. }
      rewrite E. destruct (N.eqb c slash); simpl.
      * change (zlen [c]) with 1. replace (idx + 1 - 1) with idx by lia. now rewrite <- !app_assoc.
      * now rewrite <- !app_assoc.
    + now rewrite IH.
Qed.

Lemma tokenize_string_toks w s : tokenize_string w s = mkTokens (toks w 0 [] s) 0.
Proof. unfold tokenize_string, tokenize. simpl. now rewrite tokenize_loop_toks. Qed.

(** ** The invariant *)
Definition sep_before (w p : pstr) : Prop := forall c, char_at p (zlen p - 1) c -> In c w.

Lemma in_order_app l1 l2 : in_order l1 -> in_order l2 ->
  (forall a b, In a l1 -> In b l2 -> t_end a <= t_start b) -> in_order (l1 ++ l2).
Proof.
  unfold in_order. induction l1 as [|a l1 IH]; simpl; intros H1 H2 H; [assumption|].
  inversion H1; subst. constructor.
  - apply IH; auto.
  - apply Forall_app. split; [assumption|]. apply Forall_forall. intros b Hb. apply H; auto.
Qed.

Definition shape_ok (w s : pstr) (t : token) := lone_slash w t \/ maximal_run w s t.

(** Tokens of one run [text] placed at the end of [p ++ text]. *)
Lemma run_token w p text q :
  text <> [] -> (forall c, In c text -> ~ In c w) -> sep_before w p ->
  (forall c, char_at q 0 c -> In c w) ->
  let t := new_token text (zlen (p ++ text) - zlen text) (zlen (p ++ text)) in
  addresses (p ++ text ++ q) t /\ maximal_run w (p ++ text ++ q) t.
Proof.
  intros Hne Hns Hp Hq t. subst t.
  assert (0 < zlen text) by (destruct text; [easy|rewrite zlen_cons; pose proof (zlen_nonneg N text); lia]).
  pose proof (zlen_nonneg N p). pose proof (zlen_nonneg N q).
  split.
  - unfold addresses; simpl. rewrite !zlen_app.
    replace (zlen p + zlen text - zlen text) with (zlen p) by lia.
    repeat split; try lia. apply slice_mid.
  - unfold maximal_run, separator; simpl. rewrite !zlen_app.
    replace (zlen p + zlen text - zlen text) with (zlen p) by lia.
    split; [assumption|]. split; intros c Hc.
    + apply Hp. rewrite char_at_app_l in Hc by lia. assumption.
    + rewrite char_at_app_r in Hc by (lia || assumption). replace (zlen p + zlen text - zlen p) with (zlen text) in Hc by lia.
      rewrite char_at_app_r in Hc by (lia || assumption). replace (zlen text - zlen text) with 0 in Hc by lia. auto.
Qed.

Record inv (w src : pstr) (lo : Z) (l : list token) : Prop := {
  inv_addr : forall t, In t l -> addresses src t;
  inv_lo : forall t, In t l -> lo <= t_start t;
  inv_order : in_order l;
  inv_cover : forall i c, lo <= i -> char_at src i c ->
                ((exists t, In t l /\ inside t i) <-> (~ In c w \/ c = slash));
  inv_shape : forall t, In t l -> shape_ok w src t;
  inv_untyped : forall t, In t l -> t = new_token (t_text t) (t_start t) (t_end t) }.

Lemma toks_inv w s : forall p text,
  (forall c, In c text -> ~ In c w) -> sep_before w p ->
  inv w (p ++ text ++ s) (zlen p) (toks w (zlen (p ++ text)) text s).
Proof.
  induction s as [|c r IH]; intros p text Hns Hp.
  - simpl toks. destruct text as [|x t].
    + split; [intros ? []|intros ? []|constructor| |intros ? []|intros ? []].
      intros i c Hi Hc. exfalso. apply char_at_lt in Hc. rewrite !zlen_app, zlen_nil in Hc. lia.
    + destruct (run_token w p (x :: t) []) as [Ha Hm]; try easy.
      { intros c H. exfalso. apply char_at_lt in H. rewrite zlen_nil in H. lia. }
      set (k := new_token _ _ _) in *.
      split; [intros t0 [<-|[]]|intros t0 [<-|[]]| | |intros t0 [<-|[]]|intros t0 [<-|[]]].
      * assumption.
      * simpl. rewrite zlen_app. lia.
      * constructor; constructor.
      * intros i c Hi Hc. split.
        -- intros _. left. apply Hns. rewrite char_at_app_r in Hc by (lia || assumption).
           rewrite app_nil_r in Hc. now apply char_at_In in Hc.
        -- intros _. exists k. split; [now left|]. unfold inside; simpl. rewrite zlen_app.
           apply char_at_lt in Hc. rewrite !zlen_app, zlen_nil in Hc. lia.
      * right; assumption.
      * reflexivity.
  - simpl toks. destruct (char_in c w) eqn:Ec.
    + apply char_in_spec in Ec.
      specialize (IH (p ++ text ++ [c]) []).
      assert (Hs : sep_before w (p ++ text ++ [c])).
      { intros d Hd. replace (zlen (p ++ text ++ [c]) - 1) with (zlen (p ++ text)) in Hd
          by (rewrite !zlen_app, zlen_cons, zlen_nil; lia).
        rewrite app_assoc in Hd. rewrite char_at_app_r in Hd by (lia || assumption). rewrite Z.sub_diag in Hd.
        apply char_at_0 in Hd. now subst. }
      specialize (IH (fun d H => match H with end) Hs). simpl app in IH.
      replace (zlen ((p ++ text ++ [c]) ++ [])) with (zlen (p ++ text) + 1) in IH
        by (rewrite app_nil_r, !zlen_app, zlen_cons, zlen_nil; lia).
      replace ((p ++ text ++ [c]) ++ r) with (p ++ text ++ c :: r) in IH by now rewrite <- !app_assoc.
      replace (zlen (p ++ text ++ [c])) with (zlen (p ++ text) + 1) in IH
        by (rewrite !zlen_app, zlen_cons, zlen_nil; lia).
      set (src := p ++ text ++ c :: r) in *.
      assert (Hcc : char_at src (zlen (p ++ text)) c).
      { unfold src. rewrite app_assoc. apply char_at_app_r; [lia|]. rewrite Z.sub_diag. now apply char_at_0. }
      pose proof (zlen_nonneg N p) as Hp0. pose proof (zlen_nonneg N text) as Ht0. pose proof (zlen_nonneg N r) as Hr0.
      assert (Hlen : zlen src = zlen p + zlen text + zlen r + 1) by (unfold src; rewrite !zlen_app, zlen_cons; lia).
      (* the slash token and the rest *)
      assert (I2 : inv w src (zlen (p ++ text))
                     ((if N.eqb c slash then [new_token [c] (zlen (p ++ text)) (zlen (p ++ text) + 1)] else []) ++
                      toks w (zlen (p ++ text) + 1) [] r)).
      { destruct IH as [A B C D E F]. destruct (N.eqb c slash) eqn:Es.
        - apply N.eqb_eq in Es. subst c.
          set (k := new_token [slash] _ _).
          assert (Hk : addresses src k).
          { unfold addresses; simpl. rewrite !zlen_app in *. repeat split; try lia.
            unfold src. rewrite app_assoc. change (slash :: r) with ([slash] ++ r).
            rewrite <- zlen_app. replace (zlen (p ++ text) + 1) with (zlen (p ++ text) + zlen [slash]) by reflexivity.
            apply slice_mid. }
          split.
          + intros t [<-|Ht]; auto.
          + intros t [<-|Ht]; [simpl; lia|]. apply B in Ht. lia.
          + simpl. constructor; [assumption|]. apply Forall_forall. intros b Hb. apply B in Hb. simpl. lia.
          + intros i d Hi Hd. destruct (Z.eq_dec i (zlen (p ++ text))) as [->|Hne].
            * rewrite (char_at_fun _ _ _ _ Hd Hcc). split; [now right|]. intros _. exists k.
              split; [now left|]. unfold inside; simpl. lia.
            * rewrite <- (D i d ltac:(lia) Hd). simpl. split.
              -- intros [t [[<-|Ht] Hin]]; [unfold inside in Hin; simpl in Hin; lia|]. eauto.
              -- intros [t [Ht Hin]]. eauto.
          + intros t [<-|Ht]; [|auto]. left. split; [assumption|reflexivity].
          + intros t [<-|Ht]; auto.
        - simpl app. split; auto.
          + intros t Ht. apply B in Ht. lia.
          + intros i d Hi Hd. destruct (Z.eq_dec i (zlen (p ++ text))) as [->|Hne].
            * rewrite (char_at_fun _ _ _ _ Hd Hcc). split.
              -- intros [t [Ht Hin]]. apply B in Ht. unfold inside in Hin. lia.
              -- intros [H|H]; [now destruct H|]. subst. rewrite N.eqb_refl in Es. discriminate.
            * apply D; [lia|assumption]. }
      destruct text as [|x t].
      * simpl app. simpl app in I2. rewrite app_nil_r in I2 |- *. exact I2.
      * destruct (run_token w p (x :: t) (c :: r)) as [Ha Hm]; try easy.
        { intros d Hd. apply char_at_0 in Hd. now subst. }
        fold src in Ha, Hm. set (tx := x :: t) in *. set (k := new_token tx _ _) in *.
        destruct I2 as [A B C D E F]. set (l2 := _ ++ toks _ _ _ _) in *. change ([k] ++ l2) with (k :: l2).
        split.
        -- intros y [<-|Hy]; auto.
        -- intros y [<-|Hy]; [simpl; rewrite zlen_app; lia|]. apply B in Hy. rewrite zlen_app in Hy. lia.
        -- constructor; [assumption|]. apply Forall_forall. intros b Hb. apply B in Hb. simpl. lia.
        -- intros i d Hi Hd. destruct (Z_lt_le_dec i (zlen (p ++ tx))) as [Hlt|Hge].
           ++ split; intros _.
              ** left. apply Hns. unfold src in Hd. rewrite char_at_app_r in Hd by (lia || assumption).
                 rewrite zlen_app in Hlt. rewrite char_at_app_l in Hd by (lia || assumption). now apply char_at_In in Hd.
              ** exists k. split; [now left|]. unfold inside; simpl. rewrite zlen_app in *. lia.
           ++ rewrite <- (D i d Hge Hd). split.
              ** intros [y [[<-|Hy] Hin]]; [unfold inside in Hin; simpl in Hin; lia|]. eauto.
              ** intros [y [Hy Hin]]. exists y. split; [now right|assumption].
        -- intros y [<-|Hy]; [now right|auto].
        -- intros y [<-|Hy]; auto.
    + apply char_in_false in Ec. specialize (IH p (text ++ [c])).
      rewrite <- !app_assoc in IH. simpl app in IH.
      replace (zlen (p ++ text ++ [c])) with (zlen (p ++ text) + 1) in IH
        by (rewrite !zlen_app, zlen_cons, zlen_nil; lia).
      apply IH; [|assumption]. intros d Hd. apply in_app_iff in Hd as [Hd|[<-|[]]]; auto.
Qed.

Lemma toks_tokenization w s : tokenization w s (toks w 0 [] s).
Proof.
  assert (H : inv w s 0 (toks w 0 [] s)).
  { apply (toks_inv w s [] []); [intros ? []|]. intros c H. apply char_at_In in H. destruct H. }
  destruct H as [A B C D E F]. split; auto; [|intros t Ht; rewrite (F t Ht); split; reflexivity].
  intros i c Hc. unfold separator. rewrite (D i c); [reflexivity| |assumption]. now destruct Hc.
Qed.

(** ** The specification determines the result *)
Lemma addresses_char s t i : addresses s t -> inside t i -> exists c, char_at s i c /\ In c (t_text t).
Proof.
  intros (H1 & H2 & H3) [Hi1 Hi2]. unfold slice, slice_bound in H3.
  destruct (t_start t <? 0) eqn:E1; [lia|]. destruct (t_end t <? 0) eqn:E2; [lia|].
  replace (Z.max 0 (Z.min (zlen s) (t_start t))) with (t_start t) in H3 by lia.
  replace (Z.max 0 (Z.min (zlen s) (t_end t))) with (t_end t) in H3 by lia.
  destruct (nth_error s (Z.to_nat i)) as [c|] eqn:E.
  - exists c. split; [split; [lia|assumption]|]. rewrite <- H3.
    apply nth_error_In with (n := Z.to_nat (i - t_start t)).
    rewrite <- E. clear H3.
    assert (G : forall (l : list N) n k, (k < n)%nat -> nth_error (firstn n l) k = nth_error l k).
    { induction l as [|a l IHl]; intros n k Hk; destruct n, k; simpl; try lia; try reflexivity. apply IHl. lia. }
    rewrite G by lia.
    assert (G' : forall (l : list N) n k, nth_error (skipn n l) k = nth_error l (n + k)).
    { induction l as [|a l IHl]; intros n k; destruct n; simpl; try reflexivity; [now destruct k|]. apply IHl. }
    rewrite G'. f_equal. lia.
  - exfalso. apply nth_error_None in E. unfold zlen in *. lia.
Qed.

Lemma untyped_new t : t_base t = F15_UNKNOWN /\ t_sub t = F15_SB_UNKNOWN -> t = new_token (t_text t) (t_start t) (t_end t).
Proof. destruct t. cbn. intros [-> ->]. reflexivity. Qed.
(** Two tokenizations agree on where the first token starts and on everything else. *)
Lemma tokenization_unique w s l1 l2 : tokenization w s l1 -> tokenization w s l2 -> l1 = l2.
Proof.
  intros [A1 B1 C1 D1 U1] [A2 B2 C2 D2 U2]. pose proof (fun t H => untyped_new t (U1 t H)) as E1. pose proof (fun t H => untyped_new t (U2 t H)) as E2. clear U1 U2.
  assert (Hcov : forall i, (exists t, In t l1 /\ inside t i) <-> (exists t, In t l2 /\ inside t i)).
  { intro i. split; intros [t [Ht Hi]].
    - destruct (addresses_char s t i (A1 t Ht) Hi) as [c [Hc _]]. apply (C2 i c Hc). apply (C1 i c Hc). eauto.
    - destruct (addresses_char s t i (A2 t Ht) Hi) as [c [Hc _]]. apply (C1 i c Hc). apply (C2 i c Hc). eauto. }
  clear C1 C2.
  revert l2 A2 B2 D2 E2 Hcov. induction l1 as [|a l1 IH]; intros l2 A2 B2 D2 E2 Hcov.
  - destruct l2 as [|b l2]; [reflexivity|]. exfalso.
    destruct (proj2 (Hcov (t_start b))) as [t [[] _]]. exists b. split; [now left|].
    destruct (A2 b (or_introl eq_refl)) as [H _]. unfold inside. lia.
  - destruct l2 as [|b l2].
    { exfalso. destruct (proj1 (Hcov (t_start a))) as [t [[] _]]. exists a. split; [now left|].
      destruct (A1 a (or_introl eq_refl)) as [H _]. unfold inside. lia. }
    pose proof (A1 a (or_introl eq_refl)) as Ha. pose proof (A2 b (or_introl eq_refl)) as Hb.
    inversion B1 as [|? ? Bs1 Bf1]; subst. inversion B2 as [|? ? Bs2 Bf2]; subst.
    rewrite Forall_forall in Bf1, Bf2.
    assert (L1 : forall t, In t (a :: l1) -> t_start a <= t_start t).
    { intros t [<-|Ht]; [lia|]. apply Bf1 in Ht. destruct Ha as [H _]. lia. }
    assert (L2 : forall t, In t (b :: l2) -> t_start b <= t_start t).
    { intros t [<-|Ht]; [lia|]. apply Bf2 in Ht. destruct Hb as [H _]. lia. }
    assert (Hs : t_start a = t_start b).
    { apply Z.le_antisymm.
      - destruct (proj2 (Hcov (t_start b))) as [t [Ht Hi]].
        { exists b. split; [now left|]. destruct Hb as [H _]. unfold inside. lia. }
        apply L1 in Ht. unfold inside in Hi. lia.
      - destruct (proj1 (Hcov (t_start a))) as [t [Ht Hi]].
        { exists a. split; [now left|]. destruct Ha as [H _]. unfold inside. lia. }
        apply L2 in Ht. unfold inside in Hi. lia. }
    assert (He : t_end a = t_end b).
    { assert (Hia : inside a (t_start a)) by (destruct Ha as [H _]; unfold inside; lia).
      destruct (addresses_char s a _ Ha Hia) as [c [Hc Hca]].
      assert (Hib : inside b (t_start a)) by (destruct Hb as [H _]; unfold inside; lia).
      destruct (addresses_char s b _ Hb Hib) as [c' [Hc' Hcb]].
      pose proof (char_at_fun _ _ _ _ Hc Hc'); subst c'.
      assert (Hlen : forall t, addresses s t -> zlen (t_text t) = t_end t - t_start t).
      { intros t (H1 & H2 & H3). rewrite <- H3. unfold slice, slice_bound.
        destruct (t_start t <? 0) eqn:X1; [lia|]. destruct (t_end t <? 0) eqn:X2; [lia|].
        replace (Z.max 0 (Z.min (zlen s) (t_start t))) with (t_start t) by lia.
        replace (Z.max 0 (Z.min (zlen s) (t_end t))) with (t_end t) by lia.
        unfold zlen in *. rewrite firstn_length, skipn_length. lia. }
      destruct (D1 a (or_introl eq_refl)) as [[Sa Ta]|Ma]; destruct (D2 b (or_introl eq_refl)) as [[Sb Tb]|Mb].
      - pose proof (Hlen a Ha) as X. pose proof (Hlen b Hb) as Y. rewrite Ta in X. rewrite Tb in Y.
        change (zlen [slash]) with 1 in *. lia.
      - exfalso. rewrite Ta in Hca. destruct Hca as [<-|[]]. now apply (proj1 Mb) in Hcb.
      - exfalso. rewrite Tb in Hcb. destruct Hcb as [<-|[]]. now apply (proj1 Ma) in Hca.
      - destruct Ma as (Ma1 & _ & Ma3). destruct Mb as (Mb1 & _ & Mb3).
        destruct (Z.lt_trichotomy (t_end a) (t_end b)) as [H|[H|H]]; [|assumption|]; exfalso.
        + assert (Hi : inside b (t_end a)) by (destruct Ha as [? _]; unfold inside; lia).
          destruct (addresses_char s b _ Hb Hi) as [d [Hd Hdb]]. apply (Mb1 d Hdb). now apply Ma3.
        + assert (Hi : inside a (t_end b)) by (destruct Hb as [? _]; unfold inside; lia).
          destruct (addresses_char s a _ Ha Hi) as [d [Hd Hda]]. apply (Ma1 d Hda). now apply Mb3. }
    assert (a = b).
    { rewrite (E1 a (or_introl eq_refl)), (E2 b (or_introl eq_refl)).
      destruct Ha as (_ & _ & Ta). destruct Hb as (_ & _ & Tb). rewrite <- Ta, <- Tb, Hs, He. reflexivity. }
    subst b. f_equal. apply IH; try assumption; try (intros u Hu; first [apply A1; right; exact Hu | apply A2; right; exact Hu | apply D1; right; exact Hu | apply D2; right; exact Hu | apply E1; right; exact Hu | apply E2; right; exact Hu]).
    intro i. split; intros [t [Ht Hi]].
      * destruct (proj1 (Hcov i)) as [u [[<-|Hu] Hiu]]; [exists t; split; [now right|assumption]| |eauto].
        exfalso. apply Bf1 in Ht. unfold inside in *. lia.
      * destruct (proj2 (Hcov i)) as [u [[<-|Hu] Hiu]]; [exists t; split; [now right|assumption]| |eauto].
        exfalso. apply Bf2 in Ht. unfold inside in *. lia.
Qed.

(** ** Token texts and layout *)
Fixpoint ttexts (w text s : pstr) : list pstr :=
  match s with
  | [] => match text with [] => [] | _ => [text] end
  | c :: r =>
      if char_in c w then
        match text with [] => [] | _ => [text] end ++ (if N.eqb c slash then [[c]] else []) ++ ttexts w [] r
      else ttexts w (text ++ [c]) r
  end.

Lemma toks_texts w s : forall idx text, map t_text (toks w idx text s) = ttexts w text s.
Proof.
  induction s as [|c r IH]; intros idx text; simpl.
  - now destruct text.
  - destruct (char_in c w); [|apply IH]. rewrite !map_app, IH. f_equal; [now destruct text|].
    f_equal. now destruct (N.eqb c slash).
Qed.
Lemma texts_ttexts w s : texts w s = ttexts w [] s.
Proof. unfold texts. rewrite tokenize_string_toks. simpl. apply toks_texts. Qed.

Lemma ttexts_app w c b : In c w -> forall a text,
  ttexts w text (a ++ c :: b) = ttexts w text a ++ (if N.eqb c slash then [[c]] else []) ++ ttexts w [] b.
Proof.
  intros Hc. apply char_in_spec in Hc. induction a as [|x a IH]; intro text; simpl.
  - now rewrite Hc.
  - destruct (char_in x w); [|apply IH]. now rewrite IH, <- !app_assoc.
Qed.

Lemma texts_blank w a c b : separator w c -> c <> slash -> texts w (a ++ c :: b) = texts w a ++ texts w b.
Proof.
  intros H Hn. rewrite !texts_ttexts, ttexts_app by assumption.
  destruct (N.eqb_spec c slash); [contradiction|reflexivity].
Qed.
Lemma texts_slash w a b : separator w slash -> texts w (a ++ slash :: b) = texts w a ++ [[slash]] ++ texts w b.
Proof. intros H. rewrite !texts_ttexts, ttexts_app by assumption. now rewrite N.eqb_refl. Qed.

Lemma ttexts_run w r : (forall c, In c r -> ~ In c w) -> forall text,
  ttexts w text r = match text ++ r with [] => [] | _ => [text ++ r] end.
Proof.
  induction r as [|c r IH]; intros H text; simpl.
  - rewrite app_nil_r. now destruct text.
  - rewrite (proj2 (char_in_false c w)) by (apply H; now left).
    rewrite IH by (intros d Hd; apply H; now right). now rewrite <- app_assoc.
Qed.
Lemma texts_word w x : x <> [] -> (forall c, In c x -> ~ separator w c) -> texts w x = [x].
Proof. intros Hne H. rewrite texts_ttexts, ttexts_run by assumption. simpl. now destruct x. Qed.

Lemma texts_in w s x : In x (texts w s) ->
  x <> [] /\ ((separator w slash /\ x = [slash]) \/ (forall c, In c x -> ~ separator w c)).
Proof.
  unfold texts. rewrite tokenize_string_toks. simpl. intro H. apply in_map_iff in H as [t [<- Ht]].
  destruct (toks_tokenization w s) as [A B C D E]. split.
  - destruct (A t Ht) as (H1 & H2 & H3). intro Hn.
    destruct (addresses_char s t (t_start t) (A t Ht)) as [c [_ Hc]]; [unfold inside; lia|]. rewrite Hn in Hc. destruct Hc.
  - destruct (D t Ht) as [[H1 H2]|[H1 _]]; [left|right]; auto.
Qed.

Lemma texts_join w l : separator w 32%N ->
  (forall x, In x l -> x <> [] /\ ((separator w slash /\ x = [slash]) \/ (forall c, In c x -> ~ separator w c))) ->
  texts w (join_sp l) = l.
Proof.
  intros Hsp H.
  assert (One : forall x, In x l -> texts w x = [x]).
  { intros x Hx. destruct (H x Hx) as [Hne [[Hs ->]|Hs]].
    - pose proof (texts_slash w [] [] Hs) as X. simpl app in X. rewrite X, (texts_ttexts w []). reflexivity.
    - now apply texts_word. }
  clear H. induction l as [|x l IH]; [now rewrite texts_ttexts|].
  destruct l as [|y l].
  - simpl. apply One. now left.
  - change (join_sp (x :: y :: l)) with (x ++ 32%N :: join_sp (y :: l)).
    rewrite texts_blank by (easy || assumption). rewrite One by now left.
    rewrite IH; [reflexivity|]. intros z Hz. apply One. now right.
Qed.

Lemma texts_rejoin w s : separator w 32%N -> texts w (join_sp (texts w s)) = texts w s.
Proof. intro H. apply texts_join; [assumption|]. intros x Hx. now apply texts_in in Hx. Qed.

(** ** The cursor *)
Lemma get_token_at_in ts i : 0 <= i < zlen (tk_list ts) ->
  exists t, get_token_at ts i = Some t /\ nth_error (tk_list ts) (Z.to_nat i) = Some t.
Proof.
  intro H. unfold get_token_at. destruct (i <? 0) eqn:E1; [lia|].
  destruct (zlen (tk_list ts) <=? i) eqn:E2; [lia|]. simpl.
  destruct (nth_error (tk_list ts) (Z.to_nat i)) eqn:E; [eauto|].
  apply nth_error_None in E. unfold zlen in *. lia.
Qed.
Lemma get_token_at_out ts i : ~ 0 <= i < zlen (tk_list ts) -> get_token_at ts i = None.
Proof.
  intro H. unfold get_token_at. destruct (i <? 0) eqn:E1; [reflexivity|].
  destruct (zlen (tk_list ts) <=? i) eqn:E2; [reflexivity|]. lia.
Qed.
Lemma get_token_at_nth l cur (k : nat) : get_token_at (mkTokens l cur) (Z.of_nat k) = nth_error l k.
Proof.
  unfold get_token_at. simpl. destruct (Z.of_nat k <? 0) eqn:E1; [lia|].
  destruct (zlen l <=? Z.of_nat k) eqn:E2; simpl.
  - symmetry. apply nth_error_None. unfold zlen in E2. lia.
  - now rewrite Nat2Z.id.
Qed.

Lemma nth_error_skipn {A} n : forall (l : list A), match nth_error l n with Some x => skipn n l = x :: skipn (S n) l | None => skipn n l = [] end.
Proof.
  induction n as [|n IH]; intros [|x l]; simpl; try reflexivity. specialize (IH l).
  destruct (nth_error l n); assumption.
Qed.

Lemma firstn_pad {A} (x : A) l k : firstn k (l ++ repeat x (S k)) = firstn k (l ++ repeat x k).
Proof.
  change (repeat x (S k)) with (x :: repeat x k). rewrite (repeat_cons k x).
  rewrite app_assoc, (firstn_app k (l ++ repeat x k)), app_length, repeat_length.
  replace (k - (length l + k))%nat with 0%nat by lia. simpl. apply app_nil_r.
Qed.

Lemma nexts_spec l k : forall c, nexts k (mkTokens l (Z.of_nat c)) =
  firstn k (map Some (skipn (S c) l) ++ repeat None k).
Proof.
  induction k as [|k IH]; intro c; [reflexivity|].
  simpl nexts. replace (Z.of_nat c + 1) with (Z.of_nat (S c)) by lia. rewrite get_token_at_nth, IH.
  pose proof (nth_error_skipn (S c) l) as H. destruct (nth_error l (S c)) as [x|].
  - rewrite H. cbn [map app firstn]. f_equal.
    symmetry. apply firstn_pad.
  - rewrite H. cbn [map app repeat firstn]. f_equal.
    assert (H' : skipn (S (S c)) l = []).
    { apply skipn_all2. assert (length (skipn (S c) l) = 0)%nat by now rewrite H. rewrite skipn_length in *. lia. }
    now rewrite H'.
Qed.

Lemma enumerate_all ts k :
  snd (get_first_token ts) :: nexts k (fst (get_first_token ts)) =
  firstn (S k) (map Some (tk_list ts) ++ repeat None (S k)).
Proof.
  destruct ts as [l cur]. unfold get_first_token. cbn [fst snd tk_list tk_cur].
  change 0 with (Z.of_nat 0). rewrite get_token_at_nth, nexts_spec.
  destruct l as [|x l]; [reflexivity|]. cbn [nth_error skipn map app firstn]. f_equal.
  symmetry. apply firstn_pad.
Qed.

Lemma peek_is_kth_next k : forall ts, nth_error (nexts (S k) ts) k = Some (peek_next_token ts (Z.of_nat (S k))).
Proof.
  induction k as [|k IH]; intro ts.
  - reflexivity.
  - change (nexts (S (S k)) ts) with (snd (get_next_token ts) :: nexts (S k) (fst (get_next_token ts))).
    cbn [nth_error]. rewrite IH. f_equal. unfold peek_next_token, get_next_token, get_token_at. cbn [fst tk_list tk_cur].
    replace (tk_cur ts + 1 + Z.of_nat (S k)) with (tk_cur ts + Z.of_nat (S (S k))) by lia. reflexivity.
Qed.

Lemma peek_is_kth_prev k : forall ts, nth_error (prevs (S k) ts) k = Some (peek_previous_token ts (Z.of_nat (S k))).
Proof.
  induction k as [|k IH]; intro ts.
  - reflexivity.
  - change (prevs (S (S k)) ts) with (snd (get_previous_token ts) :: prevs (S k) (fst (get_previous_token ts))).
    cbn [nth_error]. rewrite IH. f_equal. unfold peek_previous_token, get_previous_token, get_token_at. cbn [fst tk_list tk_cur].
    replace (tk_cur ts - 1 - Z.of_nat (S k)) with (tk_cur ts - Z.of_nat (S (S k))) by lia. reflexivity.
Qed.
Lemma tokenize_reused z w s : tz_tokens (tokenize (set_whitespace (set_string_to_tokenize z s) w)) = tokenize_string w s.
Proof. reflexivity. Qed.
Lemma tokenize_twice z : tz_tokens (tokenize (tokenize z)) = tz_tokens (tokenize z).
Proof. reflexivity. Qed.

Lemma next_then_prev ts : get_previous_token (fst (get_next_token ts)) = (ts, get_current_token ts).
Proof.
  destruct ts as [l c]. unfold get_previous_token, get_next_token, get_current_token, get_token_at. cbn [fst tk_list tk_cur].
  replace (c + 1 - 1) with c by lia. reflexivity.
Qed.
Lemma prev_then_next ts : get_next_token (fst (get_previous_token ts)) = (ts, get_current_token ts).
Proof.
  destruct ts as [l c]. unfold get_previous_token, get_next_token, get_current_token, get_token_at. cbn [fst tk_list tk_cur].
  replace (c - 1 + 1) with c by lia. reflexivity.
Qed.
Lemma get_last_spec ts : exists c, get_last_token ts = (mkTokens (tk_list ts) c, nth_error (rev (tk_list ts)) 0) /\ c = zlen (tk_list ts) - 1.
Proof.
  eexists; split; [|reflexivity]. unfold get_last_token, get_number_of_tokens. cbn [tk_list]. f_equal.
  destruct (rev (tk_list ts)) as [|x r] eqn:E; cbn [nth_error].
  - apply get_token_at_out. apply (f_equal (@length _)) in E. rewrite rev_length in E. cbn [tk_list]. unfold zlen. simpl in E. lia.
  - assert (E' : tk_list ts = rev r ++ [x]) by (rewrite <- (rev_involutive (tk_list ts)), E; reflexivity).
    rewrite E'. unfold zlen. rewrite app_length. simpl. replace (Z.of_nat (length (rev r) + 1) - 1) with (Z.of_nat (length (rev r))) by lia.
    rewrite get_token_at_nth, nth_error_app2, Nat.sub_diag; [reflexivity|lia].
Qed.

(** ** insert and remove *)
Lemma insert_token_spec ts t i :
  exists l1 l2, tk_list ts = l1 ++ l2 /\ tk_list (insert_token ts t i) = l1 ++ t :: l2 /\
                tk_cur (insert_token ts t i) = tk_cur ts /\
                zlen l1 = (if i <? 0 then Z.max 0 (zlen (tk_list ts) + i) else Z.min i (zlen (tk_list ts))).
Proof.
  unfold insert_token, list_insert. set (k := Z.to_nat _).
  exists (firstn k (tk_list ts)), (skipn k (tk_list ts)). simpl.
  repeat split; [now rewrite firstn_skipn|].
  unfold zlen. rewrite firstn_length. subst k. unfold slice_bound, zlen.
  destruct (i <? 0) eqn:E; lia.
Qed.
Lemma remove_spec ts k :
  tk_cur (remove_tokens_from_end_of_list ts k) = tk_cur ts /\
  tk_list (remove_tokens_from_end_of_list ts k) =
  firstn (Z.to_nat (if k <? -1 then zlen (tk_list ts) + k + 1 else k + 1)) (tk_list ts).
Proof.
  split; [reflexivity|]. unfold remove_tokens_from_end_of_list, slice, slice_bound. cbn [tk_list].
  change (Z.to_nat 0) with 0%nat. cbn [skipn]. rewrite Z.sub_0_r.
  destruct (k + 1 <? 0) eqn:E; destruct (k <? -1) eqn:E'; try lia.
  - f_equal. unfold zlen. lia.
  - destruct (Z_le_gt_dec (zlen (tk_list ts)) (k + 1)).
    + rewrite !firstn_all2; [reflexivity| |]; unfold zlen in *; lia.
    + f_equal. lia.
Qed.
Lemma remove_keeps ts k j : -1 <= k ->
  nth_error (tk_list (remove_tokens_from_end_of_list ts k)) j =
  (if Z.of_nat j <=? k then nth_error (tk_list ts) j else None).
Proof.
  intro H. rewrite (proj2 (remove_spec ts k)). destruct (k <? -1) eqn:E; [lia|].
  set (n := Z.to_nat (k + 1)). replace (Z.of_nat j <=? k) with (j <? n)%nat.
  2:{ subst n. destruct (Nat.ltb_spec j (Z.to_nat (k + 1))); symmetry; [apply Z.leb_le|apply Z.leb_gt]; lia. }
  clearbody n. generalize (tk_list ts) as l. clear. revert j.
  induction n as [|n IH]; intros j l; [now destruct j|]. destruct l as [|x l]; [destruct j as [|j]; [reflexivity|]; change (S j <? S n)%nat with (j <? n)%nat; now destruct (j <? n)%nat|].
  destruct j as [|j]; [reflexivity|]. simpl. apply IH.
Qed.
