(** * Viable: lemmas about the automaton of SpecDiagnosis behind PropsViable. *)
From Coq Require Import ZArith NArith List Bool String Lia Sorted.
From Verif Require Import PyBase PyFloat Enums ErrorTable Tokenizer Ers Utils Parser SpecTokenizer TokenizerProofs SpecNum SpecParser SpecGrammar SpecDiagnosis.
From Verif Require Import ParserFacts Accept DiagFacts SpecViable.
Import List ListNotations.
Local Open Scope list_scope.
Local Open Scope nat_scope.

(** ** The automaton looks at texts and types only *)
Section Rel.
Variable R : token -> token -> Prop.
Hypothesis Rk : forall t u, R t u -> t_text t = t_text u /\ t_base t = t_base u /\ t_sub t = t_sub u.
Definition rplace (p q : place) : Prop :=
  match p, q with
  | PAdep, PAdep | PDct, PDct | PRoute, PRoute | PSid, PSid | PStay, PStay | PC, PC => True
  | PPoint a, PPoint b => a = b
  | PSlash t a, PSlash u b => R t u /\ a = b
  | PClimb t, PClimb u | PClimbPt t, PClimbPt u | PClimbSl t, PClimbSl u | PStayTok t, PStayTok u | PStaySl t, PStaySl u => R t u
  | PText a, PText b | PJoin a, PJoin b => a = b
  | PLast m, PLast n => m = n
  | _, _ => False
  end.
Definition rverdict (v w : verdict) : Prop :=
  match v, w with
  | Fine, Fine | Fails, Fails => True
  | Report t m, Report u n => R t u /\ m = n
  | _, _ => False
  end.
Lemma r_angles t u : R t u -> rverdict (angles t) (angles u).
Proof.
  intro H. destruct (Rk _ _ H) as (E1 & E2 & E3). unfold angles, angle_fault. rewrite E1, E3.
  match goal with |- rverdict (match ?x with _ => _ end) _ => destruct x end; cbn; auto.
Qed.
Lemma r_levels t u : R t u -> rverdict (levels t) (levels u).
Proof.
  intro H. destruct (Rk _ _ H) as (E1 & E2 & E3). unfold levels, unconvertible, level_fault. rewrite E1, E2, E3.
  match goal with |- rverdict (if ?x then _ else _) _ => destruct x end; cbn; auto.
  match goal with |- rverdict (if ?x then _ else _) _ => destruct x end; cbn; auto.
Qed.
Lemma r_then f g v w : rverdict f g -> rverdict v w -> rverdict (then_ f v) (then_ g w).
Proof. destruct f, g; cbn; intros H K; try contradiction; auto. Qed.
Lemma r_fits p q t u : rplace p q -> R t u -> fits p t = fits q u.
Proof.
  intros P H. destruct (Rk _ _ H) as (E1 & E2 & E3).
  destruct p, q; cbn [rplace] in P; try contradiction; unfold fits; rewrite ?E2, ?E3; try reflexivity. now rewrite P.
Qed.
Lemma r_misplaced p q t u : rplace p q -> R t u -> misplaced p t = misplaced q u.
Proof.
  intros P H. destruct (Rk _ _ H) as (E1 & E2 & E3).
  destruct p, q; cbn [rplace] in P; try contradiction; unfold misplaced, stray_end; rewrite ?E2, ?E3; try reflexivity. exact P.
Qed.
Lemma r_after p q t u : rplace p q -> R t u -> rplace (place_after p t) (place_after q u).
Proof.
  intros P H. destruct (Rk _ _ H) as (E1 & E2 & E3).
  destruct p, q; cbn [rplace] in P; try contradiction; unfold place_after; rewrite ?E2, ?E3;
    try (destruct (t_base u); cbn [rplace]; auto; fail); try (cbn [rplace]; auto; fail).
  - destruct P as [P ->]. destruct (t_base u); cbn [rplace]; auto.
  - cbn [rplace]. destruct (Rk _ _ P) as (_ & _ & ->). reflexivity.
Qed.
Lemma r_value p q t u r r' : rplace p q -> R t u -> Forall2 R r r' -> rverdict (value_fault p t r) (value_fault q u r').
Proof.
  intros P H F. destruct (Rk _ _ H) as (E1 & E2 & E3). unfold value_fault. rewrite E2.
  pose proof (r_angles _ _ H) as A. pose proof (r_levels _ _ H) as B.
  assert (C : rverdict (match t_base u with F15_POINT => angles t | _ => Fine end) (match t_base u with F15_POINT => angles u | _ => Fine end))
    by (destruct (t_base u); cbn; auto).
  destruct p, q; cbn [rplace] in P; try contradiction; try exact A; try exact B; try exact C.
  subst k0. destruct k; try exact A. destruct F as [|x x' r r' Hx F]; [exact A|]. destruct F as [|y y' r r' Hy F]; [exact A|].
  destruct (Rk _ _ Hy) as (_ & -> & _). destruct (base_eqb _ _); [exact I|exact A].
Qed.
Lemma r_resume k r r' : Forall2 R r r' -> resume k r = resume k r'.
Proof.
  intro F. unfold resume. destruct F as [|x x' r r' Hx F]; [reflexivity|]. destruct (Rk _ _ Hx) as (_ & -> & _).
  destruct F as [|y y' r r' Hy F]; [reflexivity|]. destruct (Rk _ _ Hy) as (_ & -> & _).
  destruct F as [|z z' r r' Hz F]; [reflexivity|]. destruct (Rk _ _ Hz) as (_ & -> & _). reflexivity.
Qed.
Lemma r_diag r r' : Forall2 R r r' -> forall p q, rplace p q -> rverdict (diag p r) (diag q r').
Proof.
  induction 1 as [|t u r r' H F IH]; intros p q P.
  - destruct p, q; cbn [rplace] in P; try contradiction; cbn; tauto.
  - destruct (Rk _ _ H) as (E1 & E2 & E3).
    assert (Gen : rverdict (if fits p t then then_ (value_fault p t r) (diag (place_after p t) r) else Report t (misplaced p t))
                           (if fits q u then then_ (value_fault q u r') (diag (place_after q u) r') else Report u (misplaced q u))).
    { rewrite <- (r_fits p q t u P H). destruct (fits p t).
      - apply r_then; [now apply r_value|]. apply IH. now apply r_after.
      - cbn. split; [exact H|now apply r_misplaced]. }
    destruct p, q; cbn [rplace] in P; try contradiction; try exact Gen. clear Gen. subst k0. cbn [diag]. rewrite E2, E3, <- (r_resume k r r' F).
    destruct (base_eqb _ _); [cbn; auto|]. destruct (ends _ _); [|now apply IH]. destruct (resume k r); try (now apply IH). destruct F; cbn; auto.
Qed.
Lemma r_diagnose r r' : Forall2 R r r' -> rverdict (diagnose r) (diagnose r').
Proof.
  intros [|t u l l' H F]; [exact I|]. destruct (Rk _ _ H) as (E1 & E2 & E3). unfold diagnose. rewrite E2.
  destruct (t_base u); try (cbn; auto; fail).
  - now apply r_diag.
  - apply r_then; [now apply r_levels|]. destruct F as [|x y l l' Hx F]; [cbn; auto|]. apply r_diag; [now constructor|exact I].
Qed.
End Rel.

(** ** Completing a field *)
(** A token with a given text. *)
Definition tok (x : pstr) : token := mkToken x 0 0 (fst (classify x)) (snd (classify x)).
(** What to write at a place. *)
Definition rest_of (p : place) : list pstr :=
  match p with
  | PAdep | PDct | PRoute | PSid | PStay | PPoint _ | PC | PJoin _ => [$"ABC"]
  | PSlash _ _ => [$"N0450VFR"]
  | PClimb _ => [$"ABC"; $"/"; $"N0450F350PLUS"]
  | PClimbPt _ => [$"/"; $"N0450F350PLUS"]
  | PClimbSl _ => [$"N0450F350PLUS"]
  | PStayTok _ => [$"/"; $"0100"]
  | PStaySl _ => [$"0100"]
  | PText _ => [$"DCT"]
  | PLast _ => []
  end.
Definition vocabulary : list pstr := [$"N0450F350"; $"ABC"; $"N0450VFR"; $"/"; $"N0450F350PLUS"; $"0100"; $"DCT"].
Definition simple (w : list pstr) : Prop := forall x, In x w -> In x vocabulary.
Lemma simple_dec w : forallb (fun x => existsb (pstr_eqb x) vocabulary) w = true -> simple w.
Proof.
  intros H x Hx. rewrite forallb_forall in H. specialize (H x Hx). apply existsb_exists in H as (y & Hy & E). apply pstr_eqb_eq in E. now rewrite E.
Qed.
Lemma rest_simple p : simple (rest_of p).
Proof. apply simple_dec. destruct p; vm_compute; reflexivity. Qed.
Lemma rest_fine p : (forall k, p <> PJoin k) -> diag p (map tok (rest_of p)) = Fine.
Proof. intro H. destruct p; try destruct computed; try destruct k; vm_compute; try reflexivity. all: now destruct (H KVfr) || (exfalso; eapply H; reflexivity). Qed.

Lemma end_value p t r u m : value_fault p t r = Report u m -> end_message m = false.
Proof.
  assert (A : angles t = Report u m -> end_message m = false).
  { unfold angles, angle_fault, deg_fault, min_fault, brg_fault, or_else. intro H.
    destruct (t_sub t); try discriminate H;
      repeat match type of H with context [over ?a ?c] => destruct (over a c) | context [over_min ?a ?c ?e] => destruct (over_min a c e) end;
      try discriminate H; injection H as <- <-; reflexivity. }
  assert (B : levels t = Report u m -> end_message m = false).
  { unfold levels. destruct (unconvertible t); [discriminate|]. destruct (level_fault t); [|discriminate]. intro H. injection H as <- <-. reflexivity. }
  unfold value_fault. destruct p as [| | | | |b| |sl b|sl|q|q|sk|sl|k|k|n]; try (destruct (t_base t); try discriminate; exact A); try exact A; try exact B.
  destruct k; try exact A. destruct r as [|x [|sp r]]; try exact A. destruct (base_eqb _ _); [discriminate|exact A].
Qed.
Definition okl (p : place) : Prop := match p with PLast m => m = 19%Z \/ m = 34%Z | _ => True end.
Lemma okl_after p t : okl (place_after p t).
Proof. unfold place_after. destruct p; cbn; auto; destruct (t_base t); cbn; auto. Qed.
Lemma end_misplaced p t : okl p -> end_message (misplaced p t) = false.
Proof.
  intro H. assert (E : end_message (stray_end t) = false) by (unfold stray_end; destruct (t_sub t); reflexivity).
  unfold misplaced. destruct p; try (destruct (t_base t); try reflexivity; exact E). cbn in H. destruct H as [-> | ->]; reflexivity.
Qed.
Lemma not_join_after p t k : place_after p t <> PJoin k.
Proof. unfold place_after. destruct p; try discriminate; destruct (t_base t); try discriminate; destruct p; discriminate. Qed.

(** The verdict is about something after [a], or about the end. *)
Definition later (v : verdict) (a : list token) (p : place) : Prop :=
  match v with
  | Fine => True
  | Report u m => (~ In u a /\ ~ In u (held p)) \/ end_message m = true
  | Fails => False
  end.
(** A place to which a join point has not been seen yet. *)
Definition ripe (p : place) (a : list token) : Prop :=
  match p with PJoin KVfr => 3 <= length a | PJoin _ => a <> [] | _ => True end.
Lemma resume_far k t u v a b c : resume k (t :: u :: v :: a ++ b) = resume k (t :: u :: v :: a ++ c).
Proof. reflexivity. Qed.
Lemma value_far p t a b c : (p = PJoin KVfr -> 2 <= length a) -> value_fault p t (a ++ b) = value_fault p t (a ++ c).
Proof.
  intro H. unfold value_fault. destruct p; try reflexivity. destruct k; try reflexivity. specialize (H eq_refl).
  destruct a as [|x [|y a]]; cbn [length] in H; try lia. reflexivity.
Qed.
Lemma rejoin_fine p sl : t_base p = F15_POINT -> t_base sl = F15_SLASH -> diag (PJoin KVfr) [p; sl; tok ($"N0450VFR")] = Fine.
Proof.
  intros Hp Hs. destruct p as [x i j bb sb], sl as [y k l bs ss]. cbn [t_base] in Hp, Hs. subst bb bs. vm_compute. reflexivity.
Qed.
Lemma complete a : forall b p, okl p -> ripe p a -> later (diag p (a ++ b)) a p -> exists w, simple w /\ diag p (a ++ map tok w) = Fine.
Proof.
  induction a as [|t a IH]; intros b p Ho Hr Hl.
  - exists (rest_of p). split; [apply rest_simple|]. cbn [app]. apply rest_fine. intros k ->. destruct k; cbn in Hr; try lia; now apply Hr.
  - cbn [app] in *.
    assert (Gen : ripe p (t :: a) -> (forall k, p <> PText k) ->
       later (if fits p t then then_ (value_fault p t (a ++ b)) (diag (place_after p t) (a ++ b)) else Report t (misplaced p t)) (t :: a) p ->
       exists w, simple w /\ (if fits p t then then_ (value_fault p t (a ++ map tok w)) (diag (place_after p t) (a ++ map tok w)) else Report t (misplaced p t)) = Fine).
    { clear Hr Hl. intros Hr Hnt Hl. destruct (fits p t).
      2: { exfalso. cbn [later then_] in Hl. destruct Hl as [[H _]|H]; [apply H; now left|]. rewrite end_misplaced in H by exact Ho. discriminate. }
      assert (Hv : value_fault p t (a ++ b) = Fine).
      { destruct (value_fault p t (a ++ b)) as [|u m|] eqn:E; [reflexivity| |destruct Hl]. exfalso. cbn [later then_] in Hl.
        destruct Hl as [[H _]|H]; [apply H; left; symmetry; exact (proj2 (value_rep _ _ _ _ _ E))|]. rewrite (end_value _ _ _ _ _ E) in H. discriminate. }
      rewrite Hv in Hl. cbn [then_] in Hl.
      destruct (IH b (place_after p t) (okl_after p t)) as (w & Hsw & Hw).
      - destruct (place_after p t) eqn:E; try exact I. exfalso. exact (not_join_after _ _ _ E).
      - unfold later in *. destruct (diag (place_after p t) (a ++ b)) as [|u m|]; auto. destruct Hl as [[H1 H2]|H]; [left|now right]. split; [intro; apply H1; now right|].
        intro K. destruct (held_after _ _ _ K) as [->|Q]; [apply H1; now left|contradiction].
      - exists w. split; [exact Hsw|]. rewrite (value_far p t a (map tok w) b), Hv; [exact Hw|]. intros ->. cbn in Hr. lia. }
    destruct p; try (apply Gen; [exact Hr|discriminate|exact Hl]). clear Gen Hr Ho.
    cbn [diag] in *. destruct (base_eqb (t_base t) F15_TOO_LONG); [exfalso; cbn [later then_] in Hl; destruct Hl as [[H _]|H]; [apply H; now left|discriminate]|].
    assert (Deep : forall q, okl q -> ripe q a -> held q = [] -> later (diag q (a ++ b)) (t :: a) (PText k) -> exists w, simple w /\ diag q (a ++ map tok w) = Fine).
    { intros q Hq Hrq Hh H. apply (IH b q Hq Hrq). unfold later in *. destruct (diag q (a ++ b)) as [|u m|]; auto. destruct H as [[H1 H2]|H]; [left|now right].
      split; [intro; apply H1; now right|]. rewrite Hh. intros []. }
    destruct (ends k (t_sub t)).
    2: { exact (Deep (PText k) I I eq_refl Hl). }
    destruct a as [|p1 a].
    { exists [$"DCT"]. split; [apply simple_dec; vm_compute; reflexivity|]. destruct k; vm_compute; reflexivity. }
    destruct (base_eqb (t_base p1) F15_POINT) eqn:Ep.
    2: { assert (Ei : forall r, resume k ((p1 :: a) ++ r) = Inside) by (intro r; unfold resume; cbn [app]; destruct (t_base p1); try reflexivity; discriminate Ep).
         rewrite Ei in Hl. destruct (Deep (PText k) I I eq_refl Hl) as (w & Hsw & Hw). exists w. split; [exact Hsw|]. rewrite Ei. exact Hw. }
    assert (Eb : t_base p1 = F15_POINT) by (destruct (t_base p1); try discriminate Ep; reflexivity).
    assert (Other : k <> KVfr -> exists w, simple w /\ match resume k ((p1 :: a) ++ map tok w) with Inside => diag (PText k) ((p1 :: a) ++ map tok w) | Resumes => diag (PJoin k) ((p1 :: a) ++ map tok w)
         | Wrong => match (p1 :: a) ++ map tok w with q :: _ => Report q 22 | [] => Fine end end = Fine).
    { intro Hk. assert (Ei : forall r, resume k ((p1 :: a) ++ r) = Resumes) by (intro r; unfold resume; cbn [app]; rewrite Eb; destruct k; try reflexivity; congruence).
      rewrite Ei in Hl. destruct (Deep (PJoin k) I) as (w & Hsw & Hw); [destruct k; cbn; try discriminate; congruence|reflexivity|exact Hl|]. exists w. split; [exact Hsw|]. rewrite Ei. exact Hw. }
    destruct k; [|apply Other; discriminate|apply Other; discriminate]. clear Other.
    destruct a as [|q a].
    { exists [$"DCT"]. split; [apply simple_dec; vm_compute; reflexivity|]. cbn [app map]. replace (resume KVfr [p1; tok ($"DCT")]) with Inside by (unfold resume; rewrite Eb; reflexivity).
      cbn [diag]. rewrite Eb. change (base_eqb F15_POINT F15_TOO_LONG) with false. cbv iota. destruct (ends KVfr (t_sub p1)); vm_compute; reflexivity. }
    destruct (base_eqb (t_base q) F15_SLASH) eqn:Eq.
    2: { assert (Ei : forall r, resume KVfr ((p1 :: q :: a) ++ r) = Inside) by (intro r; unfold resume; cbn [app]; rewrite Eb; destruct (t_base q); try reflexivity; discriminate Eq).
         rewrite Ei in Hl. destruct (Deep (PText KVfr) I I eq_refl Hl) as (w & Hsw & Hw). exists w. split; [exact Hsw|]. rewrite Ei. exact Hw. }
    assert (Es : t_base q = F15_SLASH) by (destruct (t_base q); try discriminate Eq; reflexivity).
    destruct a as [|sp a].
    { exists [$"N0450VFR"]. split; [apply simple_dec; vm_compute; reflexivity|]. cbn [app map]. replace (resume KVfr [p1; q; tok ($"N0450VFR")]) with Resumes by (unfold resume; rewrite Eb, Es; reflexivity). now apply rejoin_fine. }
    assert (Ei : forall r, resume KVfr ((p1 :: q :: sp :: a) ++ r) = resume KVfr [p1; q; sp]) by reflexivity.
    rewrite Ei in Hl. setoid_rewrite Ei. destruct (resume KVfr [p1; q; sp]).
    + exact (Deep (PText KVfr) I I eq_refl Hl).
    + apply (Deep (PJoin KVfr) I); [cbn; lia|reflexivity|exact Hl].
    + exfalso. cbn [later then_] in Hl. destruct Hl as [[H _]|H]; [apply H; right; now left|discriminate].
Qed.
Lemma complete_field a b : match diagnose (a ++ b) with Fine => True | Report u m => ~ In u a \/ end_message m = true | Fails => False end ->
  exists w, simple w /\ diagnose (a ++ map tok w) = Fine /\ a ++ map tok w <> [].
Proof.
  destruct a as [|t a].
  - intros _. exists [$"N0450F350"; $"ABC"]. split; [apply simple_dec; vm_compute; reflexivity|]. split; [vm_compute; reflexivity|discriminate].
  - intro H. cbn [app] in *. unfold diagnose in *.
    assert (Bad : forall m, end_message m = false -> ~ (~ In t (t :: a) \/ end_message m = true)).
    { intros m Em [K|K]; [apply K; now left|congruence]. }
    assert (Deep : forall q, okl q -> ripe q a -> held q = [] -> match diag q (a ++ b) with Fine => True | Report u m => ~ In u (t :: a) \/ end_message m = true | Fails => False end ->
      exists w, simple w /\ diag q (a ++ map tok w) = Fine).
    { intros q Ho Hr Hh K. apply (complete a b q Ho Hr). unfold later. destruct (diag q (a ++ b)); auto. destruct K as [K|K]; [left|now right]. split; [intro; apply K; now right|]. rewrite Hh. intros []. }
    destruct (t_base t); try (exfalso; exact (Bad 1%Z eq_refl H)).
    + destruct (Deep (PText KVfr) I I eq_refl H) as (w & Hsw & Hw). exists w. split; [exact Hsw|]. split; [exact Hw|discriminate].
    + destruct (levels t) as [|u m|] eqn:El; cbn [then_] in *; [|exfalso|destruct H].
      2: { destruct (levels_rep _ _ _ El) as [_ ->]. apply (Bad m); [|exact H]. apply (end_value (PClimbSl t) t [] t m). exact El. }
      destruct a as [|x a].
      * exists [$"ABC"]. split; [apply simple_dec; vm_compute; reflexivity|]. split; [vm_compute; reflexivity|discriminate].
      * cbn [app] in H. destruct (Deep PAdep I I eq_refl H) as (w & Hsw & Hw). exists w. split; [exact Hsw|]. split; [exact Hw|discriminate].
Qed.

(** ** The first error does not depend on what follows *)
Lemma diag_in ts : forall p u m, diag p ts = Report u m -> In u ts \/ end_message m = true.
Proof.
  induction ts as [|t ts IH]; intros p u m H; cbn [diag] in H.
  - unfold stop in H. destruct p; try discriminate H; injection H as <- <-; right; reflexivity.
  - assert (Up : forall q, diag q ts = Report u m -> In u (t :: ts) \/ end_message m = true).
    { intros q Hq. destruct (IH _ _ _ Hq) as [K|K]; [left; now right|now right]. }
    assert (Gen : (if fits p t then then_ (value_fault p t ts) (diag (place_after p t) ts) else Report t (misplaced p t)) = Report u m -> In u (t :: ts) \/ end_message m = true).
    { clear H. intro H. destruct (fits p t); [|injection H as <- <-; left; now left].
      destruct (value_fault p t ts) as [|t' m'|] eqn:E; cbn [then_] in H; [exact (Up _ H)| |discriminate].
      injection H as <- <-. destruct (value_rep _ _ _ _ _ E) as [_ ->]. left. now left. }
    destruct p; try exact (Gen H). clear Gen.
    destruct (base_eqb _ _); [injection H as <- <-; left; now left|]. destruct (ends _ _); [|exact (Up _ H)].
    destruct (resume k ts); [exact (Up _ H)|exact (Up _ H)|]. destruct ts as [|q ts]; [discriminate|]. injection H as <- <-. left. right. now left.
Qed.
(** The token before the next one. *)
Fixpoint prev (q : option token) (a : list token) : option token := match a with [] => q | x :: r => prev (Some x) r end.
Lemma settled_end q m : settled q m = true -> end_message m = false.
Proof. unfold settled. destruct (end_message m); [discriminate|reflexivity]. Qed.
Lemma value_near p t r r' : p <> PJoin KVfr -> value_fault p t r = value_fault p t r'.
Proof. intro H. unfold value_fault. destruct p; try reflexivity. destruct k; try reflexivity. congruence. Qed.
Lemma angle_msg t u m : angles t = Report u m -> angle_message m = true.
Proof.
  unfold angles, angle_fault, deg_fault, min_fault, brg_fault, or_else. intro H.
  destruct (t_sub t); try discriminate H;
    repeat match type of H with context [over ?a ?c] => destruct (over a c) | context [over_min ?a ?c ?e] => destruct (over_min a c e) end;
    try discriminate H; injection H as <- <-; reflexivity.
Qed.
Lemma join_msg t r u m : value_fault (PJoin KVfr) t r = Report u m -> angle_message m = true.
Proof. unfold value_fault. destruct r as [|x [|sp r]]; try exact (angle_msg t u m). destruct (base_eqb _ _); [discriminate|exact (angle_msg t u m)]. Qed.
Lemma ifr_settled q x m : q = Some x -> t_sub x = F15_SB_IFR -> angle_message m = true -> settled q m = false.
Proof. intros -> E A. unfold settled. rewrite E, A. cbn [sub_eqb]. now rewrite andb_false_r. Qed.
Lemma slash_later b t r m : t_base t = F15_SLASH -> ~ In t r -> diag (PPoint b) (t :: r) = Report t m -> end_message m = true.
Proof.
  intros E N H. cbn [diag] in H. unfold fits, value_fault, place_after in H. rewrite E in H. cbn [then_] in H.
  destruct (diag_in _ _ _ _ H) as [K|K]; [contradiction|exact K].
Qed.
Lemma join_slash p1 t r m : t_base t = F15_SLASH -> p1 <> t -> ~ In t r -> diag (PJoin KVfr) (p1 :: t :: r) = Report t m -> end_message m = true.
Proof.
  intros E N1 N H. cbn [diag] in H. change (fits (PJoin KVfr) p1) with true in H. cbv iota in H. change (place_after (PJoin KVfr) p1) with (PPoint (computed_point (t_sub p1))) in H.
  destruct (value_fault (PJoin KVfr) p1 (t :: r)) as [|u n|] eqn:Ev; cbn [then_] in H; [|exfalso|discriminate].
  - exact (slash_later _ _ _ _ E N H).
  - destruct (value_rep _ _ _ _ _ Ev) as [_ ->]. injection H as -> _. congruence.
Qed.
Lemma stays a : forall t r r' p q m,
  (p = PJoin KVfr -> resume KVfr (a ++ t :: r) = Resumes /\ exists x, q = Some x /\ t_sub x = F15_SB_IFR) ->
  NoDup (a ++ t :: r) -> settled (prev q a) m = true -> diag p (a ++ t :: r) = Report t m -> diag p (a ++ t :: r') = Report t m.
Proof.
  induction a as [|x a IH]; intros t r r' p q m Hj Hn Hs H.
  - cbn [app prev] in *. pose proof (settled_end _ _ Hs) as He. apply NoDup_cons_iff in Hn as [Hn _].
    assert (No : forall p', diag p' r <> Report t m) by (intros p' K; destruct (diag_in _ _ _ _ K); [contradiction|congruence]).
    cbn [diag] in *.
    assert (Gen : (if fits p t then then_ (value_fault p t r) (diag (place_after p t) r) else Report t (misplaced p t)) = Report t m ->
                  (if fits p t then then_ (value_fault p t r') (diag (place_after p t) r') else Report t (misplaced p t)) = Report t m).
    { clear H. intro H. destruct (fits p t); [|exact H]. destruct (value_fault p t r) as [|u n|] eqn:Ev; cbn [then_] in H; [|injection H as -> ->|discriminate].
      - exfalso. exact (No _ H).
      - rewrite (value_near p t r' r), Ev; [reflexivity|]. intros ->. destruct (Hj eq_refl) as (_ & y & Ey & Ei). rewrite (ifr_settled q y m Ey Ei (join_msg _ _ _ _ Ev)) in Hs. discriminate. }
    destruct p; try exact (Gen H). clear Gen. destruct (base_eqb _ _); [exact H|]. exfalso.
    destruct (ends _ _); [|exact (No _ H)]. destruct (resume k r); [exact (No _ H)|exact (No _ H)|]. destruct r as [|y r]; [discriminate|]. injection H as -> _. apply Hn. now left.
  - cbn [app prev] in *. pose proof Hn as Hn0. apply NoDup_cons_iff in Hn as [Hx Hn].
    assert (Hxt : x <> t) by (intros ->; apply Hx, in_or_app; right; now left).
    assert (He : end_message m = false) by exact (settled_end _ _ Hs).
    assert (Htr : ~ In t r) by (apply NoDup_remove_2 in Hn; intro K; apply Hn, in_or_app; now right).
    cbn [diag] in *.
    assert (Gen : (forall k, p <> PText k) -> (if fits p x then then_ (value_fault p x (a ++ t :: r)) (diag (place_after p x) (a ++ t :: r)) else Report x (misplaced p x)) = Report t m ->
                  (if fits p x then then_ (value_fault p x (a ++ t :: r')) (diag (place_after p x) (a ++ t :: r')) else Report x (misplaced p x)) = Report t m).
    { clear H. intros Hnt H. destruct (fits p x); [|injection H as -> _; congruence].
      destruct (value_fault p x (a ++ t :: r)) as [|u n|] eqn:Ev; cbn [then_] in H; [|exfalso; injection H as -> _; destruct (value_rep _ _ _ _ _ Ev) as [_ ->]; congruence|discriminate].
      assert (Ev' : value_fault p x (a ++ t :: r') = Fine).
      { destruct a as [|y a].
        - cbn [app] in *. destruct p; try (rewrite <- Ev; apply value_near; discriminate). destruct k; try (rewrite <- Ev; apply value_near; discriminate). exfalso.
          destruct (Hj eq_refl) as [Hr _]. assert (Et : t_base t = F15_SLASH).
          { unfold resume in Hr. destruct (t_base x); try discriminate Hr. destruct (t_base t); try discriminate Hr. reflexivity. }
          rewrite (slash_later _ _ _ _ Et Htr H) in He. discriminate.
        - rewrite <- Ev. change ((y :: a) ++ t :: r') with (y :: a ++ [t] ++ r'). change ((y :: a) ++ t :: r) with (y :: a ++ [t] ++ r). rewrite !app_comm_cons, !app_assoc. apply value_far. intros _. cbn [length app]. rewrite app_length. cbn. lia. }
      rewrite Ev'. cbn [then_]. apply (IH t r r' _ (Some x) m); [|exact Hn|exact Hs|exact H]. intro K. exfalso. exact (not_join_after _ _ _ K). }
    destruct p; try (apply Gen; [discriminate|exact H]). clear Gen.
    destruct (base_eqb (t_base x) F15_TOO_LONG); [injection H as -> _; congruence|].
    assert (Deep : forall p', (forall k', p' <> PJoin k') -> diag p' (a ++ t :: r) = Report t m -> diag p' (a ++ t :: r') = Report t m).
    { intros p' Hp' K. apply (IH t r r' p' (Some x) m); [|exact Hn|exact Hs|exact K]. intro Z. exfalso. exact (Hp' _ Z). }
    destruct (ends k (t_sub x)) eqn:Ex; [|apply Deep; [discriminate|exact H]].
    assert (Same : resume k (a ++ t :: r') = resume k (a ++ t :: r) ->
       match resume k (a ++ t :: r') with Inside => diag (PText k) (a ++ t :: r') | Resumes => diag (PJoin k) (a ++ t :: r') | Wrong => match a ++ t :: r' with q0 :: _ => Report q0 22 | [] => Fine end end = Report t m).
    { intro E. rewrite E. destruct (resume k (a ++ t :: r)) eqn:Er.
      - apply Deep; [discriminate|exact H].
      - apply (IH t r r' (PJoin k) (Some x) m); [|exact Hn|exact Hs|exact H]. intro Z. injection Z as ->. split; [exact Er|]. exists x. split; [reflexivity|]. unfold ends in Ex. destruct (t_sub x); try discriminate Ex. reflexivity.
      - destruct a as [|y a]; cbn [app] in *; exact H. }
    destruct k; [|apply Same|apply Same];
      try (destruct a as [|y a]; cbn [app]; unfold resume; [destruct (t_base t)|destruct (t_base y)]; reflexivity).
    destruct a as [|y a].
    + cbn [app prev] in *. destruct (base_eqb (t_base t) F15_POINT) eqn:Et.
      2: { apply Same. unfold resume. destruct (t_base t); try reflexivity; discriminate Et. }
      exfalso. assert (Eb : t_base t = F15_POINT) by (destruct (t_base t); try discriminate Et; reflexivity).
      assert (No : forall p', diag p' r <> Report t m) by (intros p' K; destruct (diag_in _ _ _ _ K); [contradiction|congruence]).
      destruct (resume KVfr (t :: r)).
      * cbn [diag] in H. rewrite Eb in H. change (base_eqb F15_POINT F15_TOO_LONG) with false in H. cbv iota in H.
        destruct (ends KVfr (t_sub t)); [|exact (No _ H)]. destruct (resume KVfr r); [exact (No _ H)|exact (No _ H)|]. destruct r as [|z r]; [discriminate|]. injection H as -> _. apply Htr. now left.
      * cbn [diag] in H. change (fits (PJoin KVfr) t) with true in H. cbv iota in H. destruct (value_fault (PJoin KVfr) t r) as [|u n|] eqn:Ev; cbn [then_] in H; [exact (No _ H)|injection H as -> ->|discriminate].
        rewrite (ifr_settled (Some x) x m eq_refl) in Hs; [discriminate| |exact (join_msg _ _ _ _ Ev)]. unfold ends in Ex. destruct (t_sub x); try discriminate Ex. reflexivity.
      * injection H as <-. cbn in Hs. discriminate.
    + destruct a as [|z a]; [|apply Same; destruct a; reflexivity]. cbn [app prev] in *.
      destruct (base_eqb (t_base y) F15_POINT) eqn:Ey.
      2: { apply Same. unfold resume. destruct (t_base y); try reflexivity; discriminate Ey. }
      assert (Eb : t_base y = F15_POINT) by (destruct (t_base y); try discriminate Ey; reflexivity).
      destruct (base_eqb (t_base t) F15_SLASH) eqn:Et.
      2: { apply Same. unfold resume. rewrite Eb. destruct (t_base t); try reflexivity; discriminate Et. }
      exfalso. assert (Es : t_base t = F15_SLASH) by (destruct (t_base t); try discriminate Et; reflexivity).
      assert (Hyt : y <> t) by (apply NoDup_cons_iff in Hn as [Hn _]; intros ->; apply Hn; now left).
      destruct (resume KVfr (y :: t :: r)) eqn:Er.
      * unfold resume in Er. rewrite Eb, Es in Er. destruct r as [|sp r]; [discriminate|]. destruct (t_base sp); discriminate.
      * rewrite (join_slash _ _ _ _ Es Hyt Htr H) in He. discriminate.
      * injection H as -> _. congruence.
Qed.
Lemma prev_last a : forall q, a <> [] -> prev q a = last_of a.
Proof.
  induction a as [|x a IH]; intros q H; [congruence|]. cbn [prev]. destruct a as [|y a]; [reflexivity|]. rewrite IH by discriminate. unfold last_of. cbn [rev].
  rewrite <- (app_assoc _ [y] [x]). destruct (rev a) as [|z l] eqn:E; reflexivity.
Qed.
Lemma stays_field a t r r' m : NoDup (a ++ t :: r) -> settled (last_of a) m = true -> diagnose (a ++ t :: r) = Report t m -> diagnose (a ++ t :: r') = Report t m.
Proof.
  intros Hn Hs H. pose proof (settled_end _ _ Hs) as He. destruct a as [|x a].
  - cbn [app] in *. apply NoDup_cons_iff in Hn as [Hn _]. unfold diagnose in *.
    assert (No : forall p', diag p' r <> Report t m) by (intros p' K; destruct (diag_in _ _ _ _ K); [contradiction|congruence]).
    destruct (t_base t); try exact H.
    + exfalso. exact (No _ H).
    + destruct (levels t) as [|u n|]; cbn [then_] in *; [|exact H|exact H]. destruct r as [|y r]; [injection H as <-; discriminate He|]. exfalso. exact (No _ H).
  - rewrite <- (prev_last (x :: a) None) in Hs by discriminate. cbn [app prev] in *. unfold diagnose in *.
    assert (Hxt : x <> t) by (apply NoDup_cons_iff in Hn as [Hx _]; intros ->; apply Hx, in_or_app; right; now left).
    apply NoDup_cons_iff in Hn as [_ Hn].
    assert (Deep : forall p', (forall k', p' <> PJoin k') -> diag p' (a ++ t :: r) = Report t m -> diag p' (a ++ t :: r') = Report t m).
    { intros p' Hp' K. apply (stays a t r r' p' (Some x) m); [|exact Hn|exact Hs|exact K]. intro Z. exfalso. exact (Hp' _ Z). }
    destruct (t_base x); try (exfalso; injection H as -> _; congruence).
    + apply Deep; [discriminate|exact H].
    + destruct (levels x) as [|u n|]; cbn [then_] in *; [|exact H|exact H].
      assert (Ne : forall y z : list token, a ++ t :: y <> [] ) by (intros y z; destruct a; discriminate).
      destruct (a ++ t :: r) as [|b c] eqn:E1; [destruct a; discriminate|]. destruct (a ++ t :: r') as [|d e] eqn:E2; [destruct a; discriminate|].
      apply Deep; [discriminate|exact H].
Qed.

(** ** Fields *)
Lemma et_map field : element_texts field = map t_text (field_tokens field).
Proof. unfold element_texts, texts, field_tokens. rewrite map_map. reflexivity. Qed.
Lemma ft_typed field t : In t (field_tokens field) -> (t_base t, t_sub t) = classify (t_text t).
Proof. unfold field_tokens. intro H. apply in_map_iff in H as (u & <- & _). cbn. now destruct (classify (t_text u)). Qed.
Lemma ft_nodup field : NoDup (field_tokens field).
Proof.
  unfold field_tokens. rewrite tokenize_string_toks. cbn [tk_list]. pose proof (toks_tokenization f15_whitespace field) as [A B _ _ _].
  assert (K : forall l, (forall t, In t l -> addresses field t) -> in_order l -> NoDup (map typed l)).
  { induction l as [|t l IH]; intros Ha Ho; cbn [map]; [constructor|]. apply StronglySorted_inv in Ho as [Ho Hh]. constructor.
    - intro K. apply in_map_iff in K as (u & E & Hu). assert (Es : t_start u = t_start t) by exact (f_equal t_start E).
      rewrite Forall_forall in Hh. pose proof (Hh u Hu) as L. destruct (Ha t (or_introl eq_refl)) as (H1 & H2 & H3). lia.
    - apply IH; [intros u Hu; apply Ha; now right|exact Ho]. }
  exact (K _ A B).
Qed.

(** Lists with the same texts have the same verdict, about the token at the same place. *)
Definition kin (l l' : list token) (t u : token) : Prop :=
  (t_text t = t_text u /\ t_base t = t_base u /\ t_sub t = t_sub u) /\ exists i, nth_error l i = Some t /\ nth_error l' i = Some u.
Definition by_text (l : list token) : Prop := forall t, In t l -> (t_base t, t_sub t) = classify (t_text t).
Lemma kin_all l l' : by_text l -> by_text l' -> map t_text l = map t_text l' -> Forall2 (kin l l') l l'.
Proof.
  intros B B' E. assert (K : forall k m a b, l = k ++ a -> l' = m ++ b -> length k = length m -> map t_text a = map t_text b -> Forall2 (kin l l') a b).
  { intros k m a. revert k m. induction a as [|t a IH]; intros k m [|u b] Ea Eb El Et; try discriminate Et; constructor.
    - cbn [map] in Et. injection Et as Et _. assert (It : In t l) by (rewrite Ea; apply in_or_app; right; now left). assert (Iu : In u l') by (rewrite Eb; apply in_or_app; right; now left).
      pose proof (B t It) as Bt. pose proof (B' u Iu) as Bu. rewrite Et, <- Bu in Bt. injection Bt as Bb Bs. split; [auto|]. exists (length k).
      rewrite Ea, Eb, El. split; rewrite nth_error_app2 by lia; [rewrite El|]; now rewrite Nat.sub_diag.
    - cbn [map] in Et. injection Et as _ Et. apply (IH (k ++ [t]) (m ++ [u])); [now rewrite <- app_assoc|now rewrite <- app_assoc|rewrite !app_length; cbn; lia|exact Et]. }
  exact (K [] [] l l' eq_refl eq_refl eq_refl E).
Qed.
Lemma same_verdict l l' : by_text l -> by_text l' -> map t_text l = map t_text l' -> rverdict (kin l l') (diagnose l) (diagnose l').
Proof. intros B B' E. apply r_diagnose; [intros t u H; exact (proj1 H)|]. now apply kin_all. Qed.
Lemma by_text_app a b : by_text a -> by_text b -> by_text (a ++ b).
Proof. intros A B t H. apply in_app_or in H as [H|H]; auto. Qed.
Lemma by_text_tok w : by_text (map tok w).
Proof. intros t H. apply in_map_iff in H as (x & <- & _). cbn. now destruct (classify x). Qed.
Lemma by_text_field field : by_text (field_tokens field).
Proof. intros t H. exact (ft_typed field t H). Qed.
Lemma by_text_part a b : by_text (a ++ b) -> by_text a /\ by_text b.
Proof. intro H. split; intros t K; apply H, in_or_app; auto. Qed.

Section G.
Variable G : geodesic.
(** Some accepted field begins with these elements. *)
Definition begins_accepted (l : list pstr) : Prop :=
  exists g s, parse_field15 G (3 * n_tokens g) g = Ok true s /\ firstn (length l) (element_texts g) = l.
Lemma vocabulary_words x : In x vocabulary -> x <> [] /\ ((separator f15_whitespace slash /\ x = [slash]) \/ (forall c, In c x -> ~ separator f15_whitespace c)).
Proof.
  assert (K : forallb (fun x => negb (pstr_eqb x []) && (pstr_eqb x [slash] || forallb (fun c => negb (char_in c f15_whitespace)) x)) vocabulary = true) by (vm_compute; reflexivity).
  intro H. rewrite forallb_forall in K. specialize (K x H). apply andb_true_iff in K as [K1 K2]. split.
  - intros ->. discriminate K1.
  - apply orb_true_iff in K2 as [K2|K2].
    + left. split; [|now apply pstr_eqb_eq]. vm_compute. tauto.
    + right. intros c Hc Hsep. rewrite forallb_forall in K2. specialize (K2 c Hc). apply (proj2 (char_in_spec c f15_whitespace)) in Hsep. rewrite Hsep in K2. discriminate.
Qed.
Lemma completed field a b : field_tokens field = a ++ b ->
  match diagnose (a ++ b) with Fine => True | Report u m => ~ In u a \/ end_message m = true | Fails => False end -> begins_accepted (map t_text a).
Proof.
  intros Ef H. destruct (complete_field a b H) as (w & Hs & Hf & Hne).
  set (g := join_sp (map t_text a ++ w)).
  assert (Eg : element_texts g = map t_text a ++ w).
  { apply texts_join; [vm_compute; tauto|]. intros x Hx. apply in_app_or in Hx as [Hx|Hx]; [|now apply vocabulary_words, Hs].
    apply (texts_in f15_whitespace field). change (In x (element_texts field)). rewrite et_map, Ef, map_app. apply in_or_app. now left. }
  assert (Et : map t_text (field_tokens g) = map t_text (a ++ map tok w)).
  { rewrite <- et_map, Eg, map_app, map_map. cbn [t_text tok]. now rewrite map_id. }
  assert (B : by_text (a ++ map tok w)).
  { apply by_text_app; [|apply by_text_tok]. pose proof (by_text_field field) as K. rewrite Ef in K. exact (proj1 (by_text_part _ _ K)). }
  pose proof (same_verdict _ _ B (by_text_field g) (eq_sym Et)) as V. rewrite Hf in V. cbn [rverdict] in V.
  assert (Ev : diagnose (field_tokens g) = Fine) by (destruct (diagnose (field_tokens g)); [reflexivity|destruct V|destruct V]).
  assert (Gne : field_tokens g <> []).
  { intro K. rewrite K in Et. destruct (a ++ map tok w); [now apply Hne|discriminate Et]. }
  destruct (fine_field G (3 * n_tokens g) g Gne ltac:(lia) Ev) as [s Hp]. exists g, s. split; [exact Hp|]. rewrite Eg. rewrite firstn_app, firstn_all, Nat.sub_diag. cbn. now rewrite app_nil_r.
Qed.
Lemma split_nth {A} (l : list A) i t : nth_error l i = Some t -> l = firstn i l ++ t :: skipn (S i) l /\ length (firstn i l) = i.
Proof.
  revert i. induction l as [|x l IH]; intros [|i] H; try discriminate H.
  - injection H as ->. split; reflexivity.
  - cbn [nth_error] in H. destruct (IH i H) as [E L]. split; [cbn [firstn skipn app]; f_equal; exact E|cbn [firstn length]; now rewrite L].
Qed.
Lemma firstn_next {A} (l : list A) i t : nth_error l i = Some t -> firstn (S i) l = firstn i l ++ [t].
Proof.
  revert i. induction l as [|x l IH]; intros [|i] H; try discriminate H; [injection H as ->; reflexivity|]. cbn [nth_error] in H.
  change (x :: firstn (S i) l = x :: (firstn i l ++ [t])). f_equal. exact (IH i H).
Qed.
Theorem before_error field i t m : diagnose (field_tokens field) = Report t m -> nth_error (field_tokens field) i = Some t ->
  begins_accepted (firstn i (element_texts field)).
Proof.
  intros Hd Hi. destruct (split_nth _ _ _ Hi) as [E L]. pose proof (ft_nodup field) as Nd. rewrite E in Nd.
  rewrite et_map, firstn_map. apply (completed field (firstn i (field_tokens field)) (t :: skipn (S i) (field_tokens field))); [exact E|].
  rewrite <- E, Hd. left. apply NoDup_remove_2 in Nd. intro K. apply Nd, in_or_app. now left.
Qed.
Theorem incomplete field t m : diagnose (field_tokens field) = Report t m -> end_message m = true -> begins_accepted (element_texts field).
Proof.
  intros Hd He. rewrite et_map. apply (completed field (field_tokens field) []); [now rewrite app_nil_r|]. rewrite app_nil_r, Hd. now right.
Qed.
Theorem same_first_error field g i t m : diagnose (field_tokens field) = Report t m -> nth_error (field_tokens field) i = Some t ->
  settled (match i with O => None | S j => nth_error (field_tokens field) j end) m = true ->
  firstn (S i) (element_texts g) = firstn (S i) (element_texts field) ->
  forall depth b s, parse_field15 G depth g = Ok b s ->
  b = false /\ exists u e es, nth_error (field_tokens g) i = Some u /\ e_errs (s_ers s) = e :: es /\ reports u m e.
Proof.
  intros Hd Hi Hs Ht depth b s Hp. destruct (split_nth _ _ _ Hi) as [E L]. pose proof (ft_nodup field) as Nd. set (a := firstn i (field_tokens field)) in *.
  rewrite E in Hd, Nd. assert (Hs' : settled (last_of a) m = true).
  { destruct i as [|j]; [exact Hs|]. destruct (nth_error (field_tokens field) j) as [q|] eqn:Ej.
    - replace (last_of a) with (Some q); [exact Hs|]. destruct (split_nth _ _ _ Ej) as [E' L']. unfold a. rewrite E'. rewrite firstn_app, L'. replace (S j - j) with 1 by lia.
      rewrite (firstn_all2 (firstn j _)) by lia. cbn [firstn]. unfold last_of. rewrite rev_app_distr. reflexivity.
    - apply nth_error_None in Ej. assert (K : nth_error (field_tokens field) (S j) = None) by (apply nth_error_None; lia). rewrite K in Hi. discriminate. }
  set (away := fun u : token => mkToken (t_text u) (-1) (-1) (t_base u) (t_sub u)). set (r' := map away (skipn (S i) (field_tokens g))).
  pose proof (stays_field a t (skipn (S i) (field_tokens field)) r' m Nd Hs' Hd) as Hd'.
  assert (Bf : by_text (a ++ [t])).
  { pose proof (by_text_field field) as K. rewrite E in K. change (t :: skipn (S i) (field_tokens field)) with ([t] ++ skipn (S i) (field_tokens field)) in K. rewrite app_assoc in K. exact (proj1 (by_text_part _ _ K)). }
  assert (Bg : by_text r').
  { intros x Hx. unfold r' in Hx. apply in_map_iff in Hx as (u & <- & Hu). change ((t_base u, t_sub u) = classify (t_text u)). apply (by_text_field g). rewrite <- (firstn_skipn (S i) (field_tokens g)). apply in_or_app. now right. }
  assert (Et : map t_text (a ++ t :: r') = map t_text (field_tokens g)).
  { rewrite <- (firstn_skipn (S i) (field_tokens g)). change (a ++ t :: r') with (a ++ [t] ++ r'). rewrite app_assoc, map_app, (map_app _ (firstn _ _)). f_equal; [|unfold r'; now rewrite map_map].
    rewrite !et_map, !firstn_map in Ht. rewrite Ht. f_equal. symmetry. exact (firstn_next _ _ _ Hi). }
  assert (Bl : by_text (a ++ t :: r')).
  { change (a ++ t :: r') with (a ++ [t] ++ r'). rewrite app_assoc. apply by_text_app; [exact Bf|exact Bg]. }
  pose proof (same_verdict _ _ Bl (by_text_field g) Et) as V. rewrite Hd' in V.
  destruct (diagnose (field_tokens g)) as [|u n|] eqn:Dg; cbn [rverdict] in V; try contradiction. destruct V as [[_ (k & K1 & K2)] <-].
  assert (Gne : field_tokens g <> []) by (intro K; rewrite K in Dg; discriminate).
  pose proof (first_error_field G depth g b s Gne Hp) as F. rewrite Dg in F. destruct F as (Hb & e & es & He & Hr). split; [exact Hb|].
  exists u, e, es. split; [|split; [exact He|exact Hr]].
  assert (Ek : k = i); [|now rewrite <- Ek].
  apply NoDup_remove_2 in Nd. destruct (Nat.lt_trichotomy k i) as [Hlt|[Heq|Hgt]]; [exfalso|exact Heq|exfalso].
  - apply Nd, in_or_app. left. rewrite nth_error_app1 in K1 by lia. exact (nth_error_In _ _ K1).
  - rewrite nth_error_app2 in K1 by lia. rewrite L in K1. destruct (k - i) as [|d] eqn:Ed; [lia|]. cbn [nth_error] in K1. apply nth_error_In in K1.
    unfold r' in K1. apply in_map_iff in K1 as (x & Ex & _). assert (It : In t (field_tokens field)) by (exact (nth_error_In _ _ Hi)).
    unfold field_tokens in It. rewrite tokenize_string_toks in It. cbn [tk_list] in It. apply in_map_iff in It as (y & Ey & Iy).
    destruct (tkz_addresses _ _ _ (toks_tokenization f15_whitespace field) y Iy) as (A & _). rewrite <- Ey in Ex. assert (Z : (-1)%Z = t_start y) by exact (f_equal t_start Ex). lia.
Qed.
End G.
