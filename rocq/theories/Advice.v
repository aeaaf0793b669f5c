(** * Advice: lemmas about the automaton of SpecDiagnosis behind PropsAdvice. *)
From Coq Require Import ZArith NArith List Bool String Lia.
From Verif Require Import PyBase PyFloat Enums ErrorTable Tokenizer Ers Utils Parser SpecTokenizer TokenizerProofs SpecNum SpecParser SpecGrammar SpecDiagnosis.
From Verif Require Import ParserFacts Accept DiagFacts SpecViable Viable SpecAdvice.
Import List ListNotations.
Local Open Scope list_scope.
Local Open Scope nat_scope.

(** ** The place at which the first error is found *)
Definition plain (m : Z) : bool := negb (angle_message m) && negb (existsb (Z.eqb m) [4; 22; 40]%Z).
Lemma plain_value p t r u m : plain m = true -> value_fault p t r = Report u m -> False.
Proof.
  intros Hm H. assert (K : angle_message m = true \/ m = 40%Z).
  { assert (A : angles t = Report u m -> angle_message m = true \/ m = 40%Z) by (intro K; left; exact (angle_msg _ _ _ K)).
    assert (B : levels t = Report u m -> angle_message m = true \/ m = 40%Z).
    { unfold levels. destruct (unconvertible t); [discriminate|]. destruct (level_fault t); [|discriminate]. intro K. injection K as _ <-. now right. }
    unfold value_fault in H. destruct p as [| | | | |b| |sl b|sl|q|q|sk|sl|k|k|n]; try (destruct (t_base t); try discriminate H; exact (A H)); try exact (A H); try exact (B H).
    destruct k; try exact (A H). destruct r as [|x [|sp r]]; try exact (A H). destruct (base_eqb _ _); [discriminate H|exact (A H)]. }
  unfold plain in Hm. destruct K as [K| ->]; [rewrite K in Hm; discriminate|discriminate].
Qed.
(** [x] is read at place [p]; after the end of a section it is a point. *)
Definition enters (p : place) (x : token) : Prop := fits p x = true /\ forall k, p = PJoin k -> t_base x = F15_POINT.
Lemma resumes_point k x l : resume k (x :: l) = Resumes -> t_base x = F15_POINT.
Proof. unfold resume. destruct (t_base x); try discriminate. reflexivity. Qed.
Section Reach.
Variables (z : list token) (t : token) (m : Z).
Hypothesis Hm : plain m = true.
Hypothesis H1 : forall k, diag (PText k) z <> Report t m.
Hypothesis H2 : forall k, diag (PJoin k) z <> Report t m.
Hypothesis H3 : forall b s r, z = s :: r -> t_base s = F15_SLASH -> diag (PPoint b) z <> Report t m.
Hypothesis H4 : forall h b s r, z = s :: r -> (t_base s = F15_SPEED_ALTITUDE \/ t_base s = F15_SPEED_VFR) -> diag (PSlash h b) z <> Report t m.
Lemma not_22 l : match l with q :: _ => Report q 22 | [] => Fine end <> Report t m.
Proof. intro K. destruct l; [discriminate|]. injection K as _ <-. discriminate Hm. Qed.
Lemma text_one k y : diag (PText k) (y :: z) <> Report t m.
Proof.
  cbn [diag]. intro K. destruct (base_eqb _ _); [injection K as _ <-; discriminate Hm|]. destruct (ends _ _); [|exact (H1 _ K)].
  destruct (resume k z); [exact (H1 _ K)|exact (H2 _ K)|exact (not_22 _ K)].
Qed.
Lemma join_one y r s : z = s :: r -> t_base s = F15_SLASH -> diag (PJoin KVfr) (y :: z) <> Report t m.
Proof.
  intros Ez Es K. cbn [diag] in K. change (fits (PJoin KVfr) y) with true in K. cbv iota in K.
  destruct (value_fault (PJoin KVfr) y z) as [|u n|] eqn:Ev; cbn [then_] in K; [exact (H3 _ _ _ Ez Es K)| |discriminate].
  injection K as <- <-. exact (plain_value _ _ _ _ _ Hm Ev).
Qed.
Lemma slash_one b y r s : t_base y = F15_SLASH -> z = s :: r -> (t_base s = F15_SPEED_ALTITUDE \/ t_base s = F15_SPEED_VFR) -> diag (PPoint b) (y :: z) <> Report t m.
Proof. intros Ey Ez Es K. cbn [diag] in K. unfold fits, value_fault, place_after in K. rewrite Ey in K. cbn [then_] in K. exact (H4 _ _ _ _ Ez Es K). Qed.
Lemma join_two x y r s : t_base y = F15_SLASH -> z = s :: r -> (t_base s = F15_SPEED_ALTITUDE \/ t_base s = F15_SPEED_VFR) -> diag (PJoin KVfr) (x :: y :: z) <> Report t m.
Proof.
  intros Ey Ez Es K. cbn [diag] in K. change (fits (PJoin KVfr) x) with true in K. cbv iota in K.
  destruct (value_fault (PJoin KVfr) x (y :: z)) as [|u n|] eqn:Ev; cbn [then_] in K; [exact (slash_one _ _ _ _ Ey Ez Es K)| |discriminate].
  injection K as <- <-. exact (plain_value _ _ _ _ _ Hm Ev).
Qed.
Lemma resumes_inv x l : resume KVfr (x :: l) = Resumes -> exists s l', l = s :: l' /\ t_base s = F15_SLASH /\ exists y l'', l' = y :: l'' /\ (t_base y = F15_SPEED_ALTITUDE \/ t_base y = F15_SPEED_VFR).
Proof.
  unfold resume. destruct (t_base x); try discriminate. destruct l as [|s l']; [discriminate|]. destruct (t_base s) eqn:Es; try discriminate.
  destruct l' as [|y l'']; [discriminate|]. destruct (t_base y) eqn:Ey; try discriminate; intros _; exists s, (y :: l''); (split; [reflexivity|]; split; [exact Es|]; exists y, l''; split; [reflexivity|]); rewrite Ey; auto.
Qed.
Lemma reached a : (forall x p, In x a -> okl p -> Report x (misplaced p x) <> Report t m) -> forall p, okl p -> (forall k, p = PJoin k -> resume k (a ++ z) = Resumes) ->
  diag p (a ++ z) = Report t m ->
  exists q, okl q /\ diag q z = Report t m /\ (forall r', diag p (a ++ r') = diag q r') /\
    ((a = [] /\ q = p) \/ exists a' x p', a = a' ++ [x] /\ enters p' x /\ q = place_after p' x).
Proof.
  induction a as [|x a IH]; intros Hx p Ho Hj H.
  - exists p. cbn [app] in *. repeat split; auto.
  - cbn [app] in *. assert (IH' := IH (fun y q Hy => Hx y q (or_intror Hy))). clear IH.
    assert (Up : forall p', okl p' -> (forall k, p' = PJoin k -> resume k (a ++ z) = Resumes) -> diag p' (a ++ z) = Report t m -> (forall k, p' = PText k \/ p' = PJoin k -> a <> []) -> (a = [] -> p' = place_after p x /\ enters p x) ->
      exists q, okl q /\ diag q z = Report t m /\ (forall r', diag p' (a ++ r') = diag q r') /\ ((x :: a = [] /\ q = p) \/ exists a' x0 p0, x :: a = a' ++ [x0] /\ enters p0 x0 /\ q = place_after p0 x0)).
    { intros p' Ho' Hj' K Hk Hp. destruct (IH' p' Ho' Hj' K) as (q & Q1 & Q2 & Q3 & Q4). exists q. repeat split; auto. right.
      destruct Q4 as [[-> ->]|(a' & x0 & p0 & -> & Qf & ->)]; [destruct (Hp eq_refl) as [-> Pf]; now exists [], x, p|]. now exists (x :: a'), x0, p0. }
    cbn [diag] in *.
    assert (Gen : (forall k, p <> PText k) -> (if fits p x then then_ (value_fault p x (a ++ z)) (diag (place_after p x) (a ++ z)) else Report x (misplaced p x)) = Report t m ->
      exists q, okl q /\ diag q z = Report t m /\ (forall r', (if fits p x then then_ (value_fault p x (a ++ r')) (diag (place_after p x) (a ++ r')) else Report x (misplaced p x)) = diag q r') /\
        ((x :: a = [] /\ q = p) \/ exists a' x0 p0, x :: a = a' ++ [x0] /\ enters p0 x0 /\ q = place_after p0 x0)).
    { clear H. intros Hnt H. destruct (fits p x) eqn:Fx; [|destruct (Hx x p (or_introl eq_refl) Ho H)].
      destruct (value_fault p x (a ++ z)) as [|u n|] eqn:Ev; cbn [then_] in H; [|injection H as -> ->; destruct (plain_value _ _ _ _ _ Hm Ev)|discriminate].
      destruct (Up (place_after p x) (okl_after _ _)) as (q & Q1 & Q2 & Q3 & Q4); auto.
      - intros k K. exfalso. exact (not_join_after _ _ _ K).
      - intros k [K|K] Ea; [|exact (not_join_after _ _ _ K)]. rewrite Ea, K in H. exact (H1 _ H).
      - intros _. split; [reflexivity|]. split; [exact Fx|]. intros k Ek. exact (resumes_point _ _ _ (Hj k Ek)).
      - exists q. repeat split; auto. intro r'. replace (value_fault p x (a ++ r')) with Fine; [exact (Q3 r')|].
        destruct a as [|y [|y' a]]; [| |rewrite <- Ev; apply value_far; intros _; cbn; lia].
        + cbn [app] in *. destruct p as [| | | | |b| |sl b|sl|q'|q'|sk|sl|k|k|n]; try (rewrite <- Ev; apply value_near; discriminate). destruct k; try (rewrite <- Ev; apply value_near; discriminate). exfalso.
          destruct (resumes_inv _ _ (Hj _ eq_refl)) as (s & l' & Ez & Es & _). exact (H3 _ _ _ Ez Es H).
        + cbn [app] in *. destruct p as [| | | | |b| |sl b|sl|q'|q'|sk|sl|k|k|n]; try (rewrite <- Ev; apply value_near; discriminate). destruct k; try (rewrite <- Ev; apply value_near; discriminate). exfalso.
          destruct (resumes_inv _ _ (Hj _ eq_refl)) as (s & l' & Ez & Es & w & l'' & -> & Ew). injection Ez as <- Ez. exact (slash_one _ _ _ _ Es Ez Ew H). }
    destruct p; try (apply Gen; [discriminate|exact H]). clear Gen.
    destruct (base_eqb (t_base x) F15_TOO_LONG); [injection H as _ <-; discriminate Hm|].
    assert (In1 : diag (PText k) (a ++ z) = Report t m -> exists q, okl q /\ diag q z = Report t m /\ (forall r', diag (PText k) (a ++ r') = diag q r') /\ ((x :: a = [] /\ q = PText k) \/ exists a' x0 p0, x :: a = a' ++ [x0] /\ enters p0 x0 /\ q = place_after p0 x0)).
    { intro K. apply Up; [exact Logic.I|discriminate|exact K| |intros ->; destruct (H1 _ K)]. intros k' _ ->. exact (H1 _ K). }
    destruct (ends k (t_sub x)) eqn:Ex; [|exact (In1 H)].
    assert (Ne : a <> []).
    { intros ->. cbn [app] in H. destruct (resume k z); [exact (H1 _ H)|exact (H2 _ H)|exact (not_22 _ H)]. }
    assert (Same : (forall r', resume k (a ++ r') = resume k (a ++ z)) ->
       exists q, okl q /\ diag q z = Report t m /\ (forall r', match resume k (a ++ r') with Inside => diag (PText k) (a ++ r') | Resumes => diag (PJoin k) (a ++ r') | Wrong => match a ++ r' with q0 :: _ => Report q0 22 | [] => Fine end end = diag q r') /\
         ((x :: a = [] /\ q = PText k) \/ exists a' x0 p0, x :: a = a' ++ [x0] /\ enters p0 x0 /\ q = place_after p0 x0)).
    { intro E. destruct (resume k (a ++ z)) eqn:Er.
      - destruct (In1 H) as (q & Q1 & Q2 & Q3 & Q4). exists q. repeat split; auto. intro r'. rewrite E. apply Q3.
      - destruct (Up (PJoin k)) as (q & Q1 & Q2 & Q3 & Q4); [exact Logic.I|intros k0 K; injection K as ->; exact Er|exact H|intros k' _; exact Ne|intro K; destruct (Ne K)|]. exists q. repeat split; auto. intro r'. rewrite E. apply Q3.
      - destruct (not_22 _ H). }
    destruct a as [|y a]; [congruence|]. clear Ne. destruct k; [|apply Same; intro r'; reflexivity|apply Same; intro r'; reflexivity].
    destruct (base_eqb (t_base y) F15_POINT) eqn:Ey.
    2: { apply Same. intro r'. unfold resume. cbn [app]. destruct (t_base y); try reflexivity; discriminate Ey. }
    assert (Eb : t_base y = F15_POINT) by (destruct (t_base y); try discriminate Ey; reflexivity).
    destruct a as [|s a].
    { exfalso. cbn [app] in H. destruct (resume KVfr (y :: z)) eqn:Er; [exact (text_one _ _ H)| |exact (not_22 (y :: z) H)].
      destruct (resumes_inv _ _ Er) as (s & l' & Ez & Es & _). exact (join_one _ _ _ Ez Es H). }
    destruct a as [|w a]; [|apply Same; intro r'; reflexivity].
    destruct (base_eqb (t_base s) F15_SLASH) eqn:Es.
    2: { apply Same. intro r'. unfold resume. cbn [app]. rewrite Eb. destruct (t_base s); try reflexivity; discriminate Es. }
    exfalso. cbn [app] in H. destruct (resume KVfr (y :: s :: z)) eqn:Er.
    + unfold resume in Er. rewrite Eb in Er. destruct (t_base s); try discriminate Es. destruct z as [|w r]; [discriminate|]. destruct (t_base w); discriminate.
    + destruct (resumes_inv _ _ Er) as (s' & l' & Ez & Es' & w & l'' & -> & Ew). injection Ez as <- Ez. exact (join_two _ _ _ _ Es' Ez Ew H).
    + exact (not_22 (y :: s :: z) H).
Qed.
(** The same for a field. *)
Lemma reached_field a : a <> [] -> (forall x p, In x a -> okl p -> Report x (misplaced p x) <> Report t m) -> (forall x, In x a -> Report x 1 <> Report t m) -> m <> 49%Z -> diagnose (a ++ z) = Report t m ->
  exists q, okl q /\ diag q z = Report t m /\ (forall r', r' <> [] -> diagnose (a ++ r') = diag q r') /\
    ((length a = 1 /\ q = PAdep) \/ exists a' x p', a = a' ++ [x] /\ a' <> [] /\ enters p' x /\ q = place_after p' x).
Proof.
  intros Ne Hx N1 N49 H. destruct a as [|x a]; [congruence|]. cbn [app] in *. unfold diagnose in *.
  assert (Hx' := fun y q Hy => Hx y q (or_intror Hy)).
  destruct (t_base x); try (destruct (N1 x (or_introl eq_refl) H)).
  - destruct (reached a Hx' (PText KVfr) Logic.I ltac:(discriminate) H) as (q & Q1 & Q2 & Q3 & Q4). exists q. repeat split; auto.
    destruct Q4 as [[_ ->]|(a' & x0 & p0 & -> & Qf & ->)]; [destruct (H1 _ Q2)|]. right. exists (x :: a'), x0, p0. repeat split; try discriminate; apply Qf.
  - destruct (levels x) as [|u n|] eqn:El; cbn [then_] in *; [|exfalso; injection H as -> ->; exact (plain_value (PClimbSl x) x [] _ _ Hm El)|discriminate].
    assert (K : diag PAdep (a ++ z) = Report t m) by (destruct (a ++ z); [injection H as _ <-; congruence|exact H]).
    destruct (reached a Hx' PAdep Logic.I ltac:(discriminate) K) as (q & Q1 & Q2 & Q3 & Q4). exists q. repeat split; auto.
    + intros r' Hr. destruct (a ++ r') eqn:E; [apply app_eq_nil in E; tauto|]. rewrite <- E. apply Q3.
    + destruct Q4 as [[-> ->]|(a' & x0 & p0 & -> & Qf & ->)]; [left; now split|]. right. exists (x :: a'), x0, p0. repeat split; try discriminate; apply Qf.
Qed.
End Reach.

(** ** Putting in what the message asks for *)
Definition inner (m : Z) : bool := plain m && negb (end_message m).
Lemma fitting p t r m : (forall k, p <> PText k) -> fits p t = true -> inner m = true -> ~ In t r -> diag p (t :: r) <> Report t m.
Proof.
  intros Hp Hf Hi Hn K. unfold inner in Hi. apply andb_true_iff in Hi as [Hm He]. apply negb_true_iff in He.
  assert (K' : (if fits p t then then_ (value_fault p t r) (diag (place_after p t) r) else Report t (misplaced p t)) = Report t m) by (destruct p; try exact K; destruct (Hp k eq_refl)).
  rewrite Hf in K'. destruct (value_fault p t r) as [|u n|] eqn:Ev; cbn [then_] in K'; [|injection K' as -> ->; exact (plain_value _ _ _ _ _ Hm Ev)|discriminate].
  destruct (diag_in _ _ _ _ K'); [contradiction|congruence].
Qed.
Lemma in_text k t r m : inner m = true -> ~ In t r -> diag (PText k) (t :: r) <> Report t m.
Proof.
  intros Hi Hn K. unfold inner in Hi. apply andb_true_iff in Hi as [Hm He]. apply negb_true_iff in He.
  assert (No : forall p', diag p' r <> Report t m) by (intros p' Q; destruct (diag_in _ _ _ _ Q); [contradiction|congruence]).
  cbn [diag] in K. destruct (base_eqb _ _); [injection K as <-; discriminate Hm|]. destruct (ends _ _); [|exact (No _ K)].
  destruct (resume k r); [exact (No _ K)|exact (No _ K)|destruct r; [discriminate|injection K as _ <-; discriminate Hm]].
Qed.
Lemma error_place a t r m : NoDup (a ++ t :: r) -> a <> [] -> inner m = true -> diagnose (a ++ t :: r) = Report t m ->
  exists q, okl q /\ (forall k, q <> PText k) /\ fits q t = false /\ misplaced q t = m /\ (forall r', r' <> [] -> diagnose (a ++ r') = diag q r') /\
    ((length a = 1 /\ q = PAdep) \/ exists a' x p', a = a' ++ [x] /\ a' <> [] /\ enters p' x /\ q = place_after p' x).
Proof.
  intros Nd Na Hi H. pose proof Hi as Hi'. unfold inner in Hi'. apply andb_true_iff in Hi' as [Hm He]. apply negb_true_iff in He.
  assert (Nr : ~ In t r) by (apply NoDup_remove_2 in Nd; intro K; apply Nd, in_or_app; now right).
  assert (Nx : ~ In t a) by (apply NoDup_remove_2 in Nd; intro K; apply Nd, in_or_app; now left).
  destruct (reached_field (t :: r) t m Hm) with (a := a) as (q & Q1 & Q2 & Q3 & Q4); auto.
  - intro k. now apply in_text.
  - intro k. apply fitting; auto. discriminate.
  - intros b s r0 E Es. injection E as <- <-. apply fitting; auto; [discriminate|]. unfold fits. now rewrite Es.
  - intros h b s r0 E Es. injection E as <- <-. apply fitting; auto; [discriminate|]. unfold fits. destruct Es as [-> | ->]; reflexivity.
  - intros x p Hx _ K. injection K as -> _. contradiction.
  - intros x Hx K. injection K as -> _. contradiction.
  - intros ->. discriminate He.
  - exists q. assert (T : forall k, q <> PText k) by (intros k ->; exact (in_text _ _ _ _ Hi Nr Q2)).
    destruct (fits q t) eqn:Ef; [destruct (fitting q t r m T Ef Hi Nr Q2)|]. repeat split; auto.
    assert (K : (if fits q t then then_ (value_fault q t r) (diag (place_after q t) r) else Report t (misplaced q t)) = Report t m) by (destruct q; try exact Q2; destruct (T k eq_refl)).
    rewrite Ef in K. now injection K.
Qed.

(** [l] is read without an error. *)
Definition steps (p : place) (l : list token) (p' : place) : Prop := forall r, diag p (l ++ r) = diag p' r.
Lemma steps_nil p : steps p [] p.
Proof. intro r. reflexivity. Qed.
Lemma steps_cons p t l p1 p' : (forall k, p <> PText k) -> fits p t = true -> (forall r, value_fault p t r = Fine) -> place_after p t = p1 -> steps p1 l p' -> steps p (t :: l) p'.
Proof.
  intros Hp Hf Hv Ha Hs r. cbn [app]. rewrite <- Hs, <- Ha.
  assert (E : diag p (t :: l ++ r) = (if fits p t then then_ (value_fault p t (l ++ r)) (diag (place_after p t) (l ++ r)) else Report t (misplaced p t))) by (destruct p; try reflexivity; destruct (Hp k eq_refl)).
  rewrite E, Hf, Hv. reflexivity.
Qed.
Lemma slash_element : t_base (element ($"/")) = F15_SLASH.
Proof. vm_compute. reflexivity. Qed.
Lemma climb_element : t_base (element ($"C")) = F15_C.
Proof. vm_compute. reflexivity. Qed.
Lemma named_angle w : named w -> angle_fault (element w) = None.
Proof. intros [_ H]. unfold angle_fault. destruct (t_sub (element w)); try discriminate H; reflexivity. Qed.
Ltac facts :=
  repeat match goal with
  | H : named ?w |- _ => pose proof (named_angle w H); destruct H
  | H : a_speed _ |- _ => destruct H
  | H : a_climb _ |- _ => destruct H
  | H : of_type _ _ |- _ => unfold of_type in H
  | H : sound _ |- _ => destruct H as (? & ? & ?)
  end;
  pose proof slash_element; pose proof climb_element.
Ltac use :=
  repeat match goal with
  | H : t_base ?x = _ |- context [t_base ?x] => rewrite H
  | H : computed_point ?x = _ |- context [computed_point ?x] => rewrite H
  | H : angle_fault ?x = _ |- context [angle_fault ?x] => rewrite H
  | H : unconvertible ?x = _ |- context [unconvertible ?x] => rewrite H
  | H : level_fault ?x = _ |- context [level_fault ?x] => rewrite H
  end.
Ltac go :=
  eapply steps_cons;
    [discriminate
    |unfold fits; use; reflexivity
    |intro; unfold value_fault, angles, levels; use; reflexivity
    |unfold place_after; use; reflexivity
    |].
Ltac walk := cbn [map app]; eexists; repeat go; apply steps_nil.
Ltac at_place q t H Ho Hf Hn :=
  destruct q; cbn [okl] in Ho; unfold misplaced in H; unfold fits in Hf; destruct (t_base t) eqn:?; try discriminate H; try discriminate Hf; try (destruct (Hn _ eq_refl));
    try (exfalso; unfold stray_end in H; destruct (t_sub t); discriminate H); try (exfalso; destruct Ho; subst; discriminate).
Lemma remedy i before t m ws q : advises i before t m ws -> sound t -> okl q -> (forall k, q <> PText k) -> fits q t = false -> misplaced q t = m ->
  (q = PAdep -> i = 1) -> (q = PRoute -> exists x, before = Some x /\ t_base x = F15_ROUTE) -> exists q', steps q (map element ws ++ [t]) q'.
Proof.
  intros A St Ho Hn Hf Hq H1 H2. destruct A as [m w Em Hw Ht|m w Em Hw|m w Em Hw|m w Em Hw Ht|m Em|m Em Ht|m Em Ht|m w Em Hw Ht|m w Em Hw Ht|m w Em Hw Ht|m w Em Hi Hw|m w Em Hi Hb Hw].
  - subst m. facts. at_place q t Hq Ho Hf Hn.
  - cbn [In] in Em. repeat (destruct Em as [<-|Em]); [| | | | | |destruct Em]; facts; at_place q t Hq Ho Hf Hn; walk.
  - subst m. facts. at_place q t Hq Ho Hf Hn. walk.
  - subst m. facts. assert (Ht' : match t_base t with F15_ROUTE => true | b => after_point b end = true) by (destruct Ht as [->|Ht]; [reflexivity|destruct (t_base t); try discriminate Ht; reflexivity]). clear Ht.
    at_place q t Hq Ho Hf Hn; try discriminate Ht'; walk.
  - subst m. facts. at_place q t Hq Ho Hf Hn; walk.
  - subst m. facts. at_place q t Hq Ho Hf Hn; try discriminate Ht; walk.
  - subst m. facts. at_place q t Hq Ho Hf Hn; try (destruct Ht; discriminate); walk.
  - subst m. facts. at_place q t Hq Ho Hf Hn; try discriminate Ht; walk.
  - subst m. facts. at_place q t Hq Ho Hf Hn; try discriminate Ht; walk.
  - subst m. facts. destruct H as [H|H]; unfold of_type in H; at_place q t Hq Ho Hf Hn; try discriminate Ht; walk.
  - subst m. facts. at_place q t Hq Ho Hf Hn; try (destruct (Hi (H1 eq_refl))); walk.
  - subst m. facts. at_place q t Hq Ho Hf Hn; try (destruct (Hi (H1 eq_refl))); try (destruct (H2 eq_refl) as (x & Ex & Er); destruct (Hb x Ex Er)); walk.
Qed.
Lemma advised a t r m ws before : NoDup (a ++ t :: r) -> diagnose (a ++ t :: r) = Report t m ->
  (forall a' x, a = a' ++ [x] -> before = Some x) -> advises (length a) before t m ws -> sound t ->
  exists q', forall r', diagnose (a ++ map element ws ++ t :: r') = diag q' r'.
Proof.
  intros Nd Hd Hb A St. destruct a as [|x a].
  - cbn [app length] in *. assert (E : m = 1%Z \/ m <> 1%Z) by lia. destruct E as [-> | N1].
    + inversion A as [m w Em Hw Ht|m w Em Hw|m w Em Hw|m w Em Hw Ht|m Em|m Em Ht|m Em Ht|m w Em Hw Ht|m w Em Hw Ht|m w Em Hw Ht|m w Em Hi Hw|m w Em Hi Hb' Hw]; subst; try discriminate.
      2: { cbn [In] in Em. intuition discriminate. }
      facts. exists (place_after PAdep t). intro r'. cbn [map app]. unfold diagnose, levels. use. cbn [then_].
      assert (S : steps PAdep [t] (place_after PAdep t)).
      { eapply steps_cons; [discriminate| | |reflexivity|apply steps_nil]; [unfold fits|intro; unfold value_fault, angles]; destruct (t_base t); try discriminate Ht; use; reflexivity. }
      exact (S r').
    + exfalso. assert (Nr : ~ In t r) by (apply NoDup_cons_iff in Nd; tauto). assert (Im : inner m = true).
      { destruct A as [m w Em Hw Ht|m w Em Hw|m w Em Hw|m w Em Hw Ht|m Em|m Em Ht|m Em Ht|m w Em Hw Ht|m w Em Hw Ht|m w Em Hw Ht|m w Em Hi Hw|m w Em Hi Hb' Hw]; try (subst m; reflexivity).
        cbn [In] in Em. repeat (destruct Em as [<-|Em]); [| | | | | |destruct Em]; reflexivity. }
      pose proof Im as Im'. unfold inner in Im'. apply andb_true_iff in Im' as [Hm He]. apply negb_true_iff in He.
      assert (No : forall p', diag p' r <> Report t m) by (intros p' Q; destruct (diag_in _ _ _ _ Q); [contradiction|congruence]).
      unfold diagnose in Hd. destruct (t_base t); try (injection Hd as <-; congruence); [exact (No _ Hd)|].
      destruct (levels t) as [|u n|] eqn:El; cbn [then_] in Hd; [|injection Hd as -> ->; exact (plain_value (PClimbSl t) t [] _ _ Hm El)|discriminate].
      destruct r; [injection Hd as <-; discriminate He|exact (No _ Hd)].
  - assert (Im : inner m = true).
    { destruct A as [m w Em Hw Ht|m w Em Hw|m w Em Hw|m w Em Hw Ht|m Em|m Em Ht|m Em Ht|m w Em Hw Ht|m w Em Hw Ht|m w Em Hw Ht|m w Em Hi Hw|m w Em Hi Hb' Hw]; try (subst m; reflexivity).
      cbn [In] in Em. repeat (destruct Em as [<-|Em]); [| | | | | |destruct Em]; reflexivity. }
    destruct (error_place (x :: a) t r m Nd ltac:(discriminate) Im Hd) as (q & Q1 & Q2 & Q3 & Q4 & Q5 & Q6).
    destruct (remedy _ _ t m ws q A St Q1 Q2 Q3 Q4) as [q' Hs].
    + intros ->. destruct Q6 as [[E _]|(a' & y & p' & _ & _ & _ & E)]; [exact E|]. exfalso. unfold place_after in E. destruct p'; try discriminate E; destruct (t_base y); try discriminate E.
    + intros ->. destruct Q6 as [[_ E]|(a' & y & p' & Ea & _ & _ & E)]; [discriminate|]. exists y. split; [exact (Hb _ _ Ea)|]. unfold place_after in E. destruct p'; try discriminate E; destruct (t_base y); try discriminate E; reflexivity.
    + exists q'. intro r'. rewrite Q5 by (destruct (map element ws); discriminate). change (t :: r') with ([t] ++ r'). rewrite app_assoc. apply Hs.
Qed.

(** ** Adding what is missing at the end *)
Lemma end_place a m t p : (forall x q, In x a -> okl q -> Report x (misplaced q x) <> Report t m) -> plain m = true -> okl p -> (forall k, p <> PJoin k) -> diag p a = Report t m ->
  exists q, stop q = Report t m /\ forall r', diag p (a ++ r') = diag q r'.
Proof.
  intros Hx Hm Ho Hp H. rewrite <- (app_nil_r a) in H.
  destruct (reached [] t m Hm ltac:(discriminate) ltac:(discriminate) ltac:(discriminate) ltac:(discriminate) a Hx p Ho) as (q & _ & Q2 & Q3 & _); auto.
  - intros k K. destruct (Hp _ K).
  - exists q. split; [exact Q2|exact Q3].
Qed.
Ltac walk_end := cbn [map]; eexists; split; [repeat go; apply steps_nil|reflexivity].
Lemma provision q m t ws : stop q = Report t m -> supplies m ws -> exists q', steps q (map element ws) q' /\ stop q' = Fine.
Proof.
  intros Hq S. destruct S as [m w Em Hw|m w Em Hw|m p w Em Hp Hw|m w Em Hw|m w Em Hw|m w Em Hw|m w Em Hw]; subst m;
    destruct q; try discriminate Hq.
  - destruct Hw as [Hw|Hw]; facts; [walk_end|]. cbn [map]. exists (PText KVfr). split; [|reflexivity]. eapply steps_cons; [discriminate|unfold fits; use; reflexivity| |unfold place_after; use; reflexivity|apply steps_nil].
    intro r. unfold value_fault, levels, unconvertible, level_fault. use. reflexivity.
  - facts. match goal with Q : _ \/ _ |- _ => destruct Q as [Q|Q]; unfold of_type in Q end; walk_end.
  - facts. match goal with Q : _ \/ _ |- _ => destruct Q as [Q|Q]; unfold of_type in Q end; walk_end.
  - facts. match goal with Q : _ \/ _ |- _ => destruct Q as [Q|Q]; unfold of_type in Q end; walk_end.
  - facts. walk_end.
  - facts. walk_end.
Qed.
Lemma supplied a m t ws : diagnose a = Report t m -> supplies m ws -> diagnose (a ++ map element ws) = Fine.
Proof.
  intros Hd S. assert (He : end_message m = true) by (destruct S; subst m; reflexivity).
  assert (Hm : plain m = true) by (destruct S; subst m; reflexivity).
  destruct a as [|x a]; [discriminate Hd|].
  assert (Hx : forall y q, In y a -> okl q -> Report y (misplaced q y) <> Report t m).
  { intros y q _ Ho K. injection K as _ K. pose proof (end_misplaced q y Ho) as Z. rewrite K, He in Z. discriminate. }
  assert (Deep : forall p, okl p -> (forall k, p <> PJoin k) -> diag p a = Report t m -> diag p (a ++ map element ws) = Fine).
  { intros p Ho Hp H. destruct (end_place a m t p Hx Hm Ho Hp H) as (q & Q1 & Q2). destruct (provision q m t ws Q1 S) as (q' & S1 & S2).
    rewrite Q2, <- (app_nil_r (map element ws)), S1. exact S2. }
  cbn [app]. unfold diagnose in *. destruct (t_base x); try (injection Hd as _ <-; discriminate He).
  - apply Deep; [exact Logic.I|discriminate|exact Hd].
  - destruct (levels x) as [|u n|] eqn:El; cbn [then_] in *; [|exfalso; injection Hd as -> ->; exact (plain_value (PClimbSl x) x [] _ _ Hm El)|discriminate].
    destruct a as [|y a].
    + injection Hd as _ <-. inversion S; subst; try discriminate. facts. cbn [map app].
      assert (K : steps PAdep [element w] (PPoint false)) by (go; apply steps_nil). exact (K []).
    + cbn [app] in *. apply (Deep PAdep); [exact Logic.I|discriminate|exact Hd].
Qed.

(** ** Fields *)
Lemma start_nonneg field t : In t (field_tokens field) -> (0 <= t_start t)%Z.
Proof.
  intro H. unfold field_tokens in H. rewrite tokenize_string_toks in H. cbn [tk_list] in H. apply in_map_iff in H as (y & <- & Iy).
  destruct (tkz_addresses _ _ _ (toks_tokenization f15_whitespace field) y Iy) as (A & _). exact (proj1 A).
Qed.
Section G.
Variable G : geodesic.
Theorem advice_followed field g i t m ws : diagnose (field_tokens field) = Report t m -> nth_error (field_tokens field) i = Some t -> sound t ->
  advises i (match i with O => None | S j => nth_error (field_tokens field) j end) t m ws ->
  firstn (S (i + length ws)) (element_texts g) = firstn i (element_texts field) ++ ws ++ [t_text t] ->
  forall depth b s, parse_field15 G depth g = Ok b s ->
  b = true \/ exists j u n e es, nth_error (field_tokens g) j = Some u /\ e_errs (s_ers s) = e :: es /\ reports u n e /\ (i + length ws < j \/ end_message n = true).
Proof.
  intros Hd Hi St A Ht depth b s Hp. destruct (Viable.split_nth _ _ _ Hi) as [E L]. pose proof (ft_nodup field) as Nd. set (a := firstn i (field_tokens field)) in *.
  pose proof Hd as Hd0. rewrite E in Hd0. pose proof Nd as Nd0. rewrite E in Nd0. rewrite <- L in A at 1.
  destruct (fun Hb => advised a t _ m ws (match i with O => None | S j => nth_error (field_tokens field) j end) Nd0 Hd0 Hb A St) as (q' & Hq).
  { intros a' x Ea. destruct i as [|j]; [apply (f_equal (@length token)) in Ea; rewrite L, app_length in Ea; cbn in Ea; lia|].
    assert (La : length a' = j) by (apply (f_equal (@length token)) in Ea; rewrite L, app_length in Ea; cbn in Ea; lia).
    rewrite E, nth_error_app1 by lia. rewrite Ea, nth_error_app2 by lia. now rewrite La, Nat.sub_diag. }
  set (away := fun u : token => mkToken (t_text u) (-1) (-1) (t_base u) (t_sub u)). set (r' := map away (skipn (S (i + length ws)) (field_tokens g))).
  specialize (Hq r'). set (h := a ++ map element ws ++ [t]).
  assert (Eh : a ++ map element ws ++ t :: r' = h ++ r') by (unfold h; rewrite <- !app_assoc; reflexivity). rewrite Eh in Hq.
  assert (Lh : length h = S (i + length ws)) by (unfold h; rewrite !app_length, map_length, L; cbn; lia).
  assert (Bh : by_text h).
  { pose proof (by_text_field field) as K. rewrite E in K. change (t :: skipn (S i) (field_tokens field)) with ([t] ++ skipn (S i) (field_tokens field)) in K.
    destruct (by_text_part _ _ K) as [K1 K2]. destruct (by_text_part _ _ K2) as [K3 _]. unfold h. apply by_text_app; [exact K1|]. apply by_text_app; [exact (by_text_tok ws)|exact K3]. }
  assert (Bg : by_text r').
  { intros x Hx. unfold r' in Hx. apply in_map_iff in Hx as (u & <- & Hu). change ((t_base u, t_sub u) = classify (t_text u)). apply (by_text_field g). rewrite <- (firstn_skipn (S (i + length ws)) (field_tokens g)). apply in_or_app. now right. }
  assert (Et : map t_text (h ++ r') = map t_text (field_tokens g)).
  { rewrite <- (firstn_skipn (S (i + length ws)) (field_tokens g)), !map_app. f_equal; [|unfold r'; now rewrite map_map].
    rewrite !et_map, firstn_map in Ht. rewrite Ht. unfold h, a. rewrite !map_app, <- firstn_map. f_equal. f_equal. rewrite map_map. cbn [t_text element]. now rewrite map_id. }
  pose proof (same_verdict _ _ (by_text_app _ _ Bh Bg) (by_text_field g) Et) as V. rewrite Hq in V.
  assert (Gne : field_tokens g <> []).
  { intro K. rewrite K in Et. apply (f_equal (@length pstr)) in Et. rewrite map_length, app_length, Lh in Et. discriminate. }
  pose proof (first_error_field G depth g b s Gne Hp) as F.
  destruct (diag q' r') as [|u n|] eqn:Dq; cbn [rverdict] in V; destruct (diagnose (field_tokens g)) as [|u' n'|] eqn:Dg; try contradiction.
  - left. exact (proj1 F).
  - right. destruct V as [[_ (k & K1 & K2)] <-]. destruct F as (_ & e & es & He & Hr). exists k, u', n, e, es. repeat (split; [assumption|]).
    destruct (diag_in _ _ _ _ Dq) as [K|K]; [left|now right].
    destruct (Nat.lt_ge_cases k (S (i + length ws))) as [Hlt|Hge]; [exfalso|lia].
    rewrite nth_error_app1 in K1 by lia. apply nth_error_In in K1. assert (Pos : (0 <= t_start u)%Z).
    { unfold h in K1. apply in_app_or in K1 as [K1|K1]; [apply (start_nonneg field); rewrite E; apply in_or_app; now left|]. apply in_app_or in K1 as [K1|[<-|[]]].
      - apply in_map_iff in K1 as (w & <- & _). cbn. lia.
      - apply (start_nonneg field). exact (nth_error_In _ _ Hi). }
    unfold r' in K. apply in_map_iff in K as (x & <- & _). cbn in Pos. lia.
Qed.
Theorem end_supplied field g t m ws : diagnose (field_tokens field) = Report t m -> supplies m ws -> element_texts g = element_texts field ++ ws ->
  exists s, parse_field15 G (3 * n_tokens g) g = Ok true s.
Proof.
  intros Hd S Ht. pose proof (supplied _ _ _ _ Hd S) as Hf. change (map element ws) with (map tok ws) in Hf.
  assert (Et : map t_text (field_tokens field ++ map tok ws) = map t_text (field_tokens g)).
  { rewrite map_app, <- !et_map, Ht. f_equal. rewrite map_map. cbn [t_text tok]. now rewrite map_id. }
  pose proof (same_verdict _ _ (by_text_app _ _ (by_text_field field) (by_text_tok ws)) (by_text_field g) Et) as V. rewrite Hf in V. cbn [rverdict] in V.
  assert (Ev : diagnose (field_tokens g) = Fine) by (destruct (diagnose (field_tokens g)); [reflexivity|destruct V|destruct V]).
  apply fine_field; [|lia|exact Ev]. intro K. rewrite K in Et. destruct (field_tokens field); [discriminate Hd|discriminate Et].
Qed.
End G.
