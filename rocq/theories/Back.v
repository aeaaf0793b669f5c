(** * Back: proofs for C109. *)
From Coq Require Import ZArith NArith List Bool String Lia.
From Coq Require Import Floats.SpecFloat.
From Verif Require Import PyBase PyFloat Enums ErrorTable Syntax Tokenizer Ers Utils Parser SpecNum SpecParser SpecGrammar SpecAccept SpecDiagnosis SpecReader SpecComplete.
From Verif Require Import CompleteFacts Diagnosis ReaderFacts DiagFacts PerfEq Describe SpecLocal SpecBack.
From Verif Require Flow.
Import List ListNotations.
Local Open Scope list_scope.
Local Open Scope nat_scope.

(** ** Legs of a list of places *)
Definition spot3 : Type := bool * f64 * f64.
Definition known (x : spot3) : bool := fst (fst x).
Definition proj (r : rrec) : spot3 := (r_llv r, r_lat r, r_lon r).
Definition next3 (rest : list spot3) : option spot3 :=
  match rest with p :: m => if known p then Some p else match m with q :: _ => if known q then Some q else None | [] => None end | [] => None end.
Definition first3 (r : spot3) (rest : list spot3) : list (spot3 * spot3) :=
  if known r then match next3 rest with Some p => [(r, p)] | None => [] end else [].
Fixpoint pairs (l : list spot3) : list (spot3 * spot3) := match l with r :: rest => first3 r rest ++ pairs rest | [] => [] end.
Definition flip {A} (x : A * A) : A * A := (snd x, fst x).
Lemma pairs_snoc z : forall l, pairs (l ++ [z]) = pairs l ++ map flip (first3 z (rev l)).
Proof.
  induction l as [|r l IH]; [cbn [app pairs rev]; unfold first3; cbn [next3]; now destruct (known z)|].
  cbn [app pairs]. rewrite IH. cbn [rev]. rewrite <- app_assoc.
  destruct l as [|x [|y l]].
  - unfold first3. cbn [app rev next3 pairs]. destruct (known r) eqn:R, (known z) eqn:Z; reflexivity.
  - unfold first3. cbn [app rev next3 pairs]. unfold first3. cbn [next3]. destruct (known r) eqn:R, (known z) eqn:Z, (known x) eqn:X; cbn [app map]; try reflexivity.
    all: rewrite ?X, ?R; reflexivity.
  - change (first3 r ((x :: y :: l) ++ [z])) with (first3 r (x :: y :: l)). rewrite app_assoc. rewrite <- app_assoc. do 2 f_equal. f_equal. cbn [rev]. rewrite <- !app_assoc.
    unfold first3. destruct (known z); [|reflexivity]. destruct (rev l) as [|a [|b m]]; reflexivity.
Qed.
Lemma pairs_rev : forall l, pairs (rev l) = rev (map flip (pairs l)).
Proof.
  induction l as [|z l IH] using rev_ind; [reflexivity|]. rewrite rev_unit, pairs_snoc, map_app, rev_app_distr. cbn [pairs]. rewrite IH. f_equal.
  unfold first3. destruct (known z); [|reflexivity]. destruct (next3 (rev l)); reflexivity.
Qed.
Definition far (G : geodesic) (x : spot3 * spot3) : f64 :=
  snd (geo_inverse G (snd (fst (fst x))) (snd (fst x)) (snd (fst (snd x))) (snd (snd x))).
Lemma followed_legs G : forall l, followed (with_legs G l) = match next_located l with Some _ => true | None => false end.
Proof.
  assert (L : forall r rest, r_llv (with_leg G r rest) = r_llv r) by (intros r rest; unfold with_leg; destruct (if r_llv r then next_located rest else None); reflexivity).
  intros [|p [|q m]]; cbn [with_legs followed next_located]; [reflexivity| |]; rewrite ?L; destruct (r_llv p); try reflexivity. cbn [orb]. now destruct (r_llv q).
Qed.
Lemma next_proj l : next3 (map proj l) = option_map proj (next_located l).
Proof. destruct l as [|p [|q m]]; cbn [map next3 next_located]; [reflexivity| |]; unfold known at 1; cbn [proj fst]; destruct (r_llv p); try reflexivity. unfold known. cbn [proj fst]. now destruct (r_llv q). Qed.
Lemma lengths_pairs G : forall l, lengths (with_legs G l) = map (far G) (pairs (map proj l)).
Proof.
  induction l as [|r l IH]; [reflexivity|]. cbn [with_legs lengths map pairs]. rewrite map_app, IH, followed_legs. f_equal.
  unfold first3. rewrite next_proj. unfold with_leg. change (known (proj r)) with (r_llv r). destruct (r_llv r) eqn:R; [|rewrite R; reflexivity].
  destruct (next_located l) as [p|] eqn:N; cbn [option_map map]; [|now rewrite R].
  change (r_llv (set_r_dist _ (set_r_brg _ r))) with (r_llv r). rewrite R. reflexivity.
Qed.
Lemma far_flip G x : as_far_back G -> far G (flip x) = far G x.
Proof. intro H. unfold far, flip. cbn [fst snd]. apply H. Qed.
Lemma lengths_back G l m : as_far_back G -> map proj m = rev (map proj l) -> lengths (with_legs G m) = rev (lengths (with_legs G l)).
Proof.
  intros H E. rewrite !lengths_pairs, E, pairs_rev, <- map_rev, <- map_rev, map_map. apply map_ext. intro x. now apply far_flip.
Qed.

(** ** The way in the reading machine *)
Definition open (t : token) : Prop := t_base t = F15_POINT -> computed_point (t_sub t) = false.
(** Neighbours. *)
Definition may (x y : token) : Prop :=
  match t_base x, t_base y with
  | F15_POINT, F15_POINT | F15_POINT, F15_DCT | F15_DCT, F15_POINT => True
  | F15_POINT, F15_ROUTE => computed_point (t_sub x) = false
  | F15_ROUTE, F15_POINT => computed_point (t_sub y) = false
  | _, _ => False
  end.
Definition linked (w : list token) : Prop := forall l x y r, w = l ++ x :: y :: r -> may x y.
Definition no_route (w : list token) : Prop := match w with t :: _ => t_base t <> F15_ROUTE | [] => True end.
Definition sound (t : token) : Prop := on_the_way t /\ (t_base t = F15_POINT -> angle_faults t = []).
Lemma may_sym x y : may x y -> may y x.
Proof. unfold may. destruct (t_base x), (t_base y); auto. Qed.
Lemma linked_rev w : linked w -> linked (rev w).
Proof.
  intros H l x y r E. apply (f_equal (@rev _)) in E. rewrite rev_involutive, rev_app_distr in E. cbn [rev] in E. rewrite <- !app_assoc in E. cbn [app] in E.
  exact (may_sym _ _ (H _ _ _ _ E)).
Qed.
Lemma linked_tl t w : linked (t :: w) -> linked w.
Proof. intros H l x y r E. apply (H (t :: l) x y r). now rewrite E. Qed.
Lemma linked_cons t u w : may t u -> linked (u :: w) -> linked (t :: u :: w).
Proof. intros M H [|a l] x y r E; cbn [app] in E; [now injection E as <- <- <-|]. injection E as _ E. now apply (H l x y r). Qed.
Definition spot_of (t : token) : place := match t_base t with F15_DCT => PDct | F15_ROUTE => PRoute | _ => PPoint (computed_point (t_sub t)) end.
Definition job_of (t : token) : job := match t_base t with F15_DCT => JDct | F15_ROUTE => JRoute | _ => JPoint end.

Lemma angle_none t : angles t = Fine -> angle_faults t = [].
Proof.
  unfold angles, angle_fault, angle_faults, or_else, deg_fault, deg_faults, min_fault, min_faults, brg_fault, brg_faults. cbv zeta.
  destruct (t_sub t); try reflexivity;
    repeat match goal with |- context [over ?a ?b] => destruct (over a b) | |- context [over_min ?a ?b ?c] => destruct (over_min a b c) end; cbn [app]; intro H; try reflexivity; discriminate H.
Qed.
Lemma diag_way : forall w x, on_the_way x -> Forall on_the_way w -> diag (spot_of x) w = Fine -> linked (x :: w) /\ Forall sound w.
Proof.
  induction w as [|t w IH]; intros x Ox F H.
  - split; [|constructor]. intros [|a [|b l]] ? ? ? E; discriminate E.
  - inversion F as [|? ? Ot Fw]; subst. cbn [diag] in H.
    assert (D : fits (spot_of x) t = true /\ value_fault (spot_of x) t w = Fine /\ diag (place_after (spot_of x) t) w = Fine).
    { destruct (spot_of x) eqn:Sx; try (destruct (fits _ t); [|discriminate H]; destruct (value_fault _ t w); try discriminate H; auto; fail).
      unfold spot_of in Sx. destruct (t_base x); discriminate Sx. }
    destruct D as (D1 & D2 & D3).
    assert (M : may x t /\ place_after (spot_of x) t = spot_of t /\ (t_base t = F15_POINT -> angles t = Fine)).
    { clear H IH D3. unfold on_the_way in Ox, Ot. unfold may, spot_of in *.
      destruct Ox as [Bx|[Bx|Bx]], Ot as [Bt|[Bt|Bt]]; rewrite ?Bx, ?Bt in *; cbn [fits place_after value_fault] in *; rewrite ?Bt in *; try discriminate D1;
        repeat split; auto; try (intros; discriminate); try (intros; exact D2).
      all: now destruct (computed_point _). }
    destruct M as (M1 & M2 & M3). rewrite M2 in D3. destruct (IH t Ot Fw D3) as [L S]. split; [now apply linked_cons|]. constructor; [|exact S].
    split; [exact Ot|]. intro B. now apply angle_none, M3.
Qed.
Lemma diag_adep w : Forall on_the_way w -> diag PAdep w = Fine -> no_route w /\ linked w /\ Forall sound w.
Proof.
  intros F H. destruct w as [|t w]; [repeat split; [|constructor]; intros [|a l] ? ? ? E; discriminate E|].
  inversion F as [|? ? Ot Fw]; subst. cbn [diag] in H.
  destruct (fits PAdep t) eqn:D1; [|discriminate H]. destruct (value_fault PAdep t w) eqn:D2; try discriminate H. cbn [then_] in H.
  assert (M : no_route (t :: w) /\ place_after PAdep t = spot_of t /\ (t_base t = F15_POINT -> angles t = Fine)).
  { unfold no_route, on_the_way, spot_of in *. destruct Ot as [B|[B|B]]; cbn [fits place_after value_fault] in *; rewrite ?B in *; try discriminate D1; repeat split; auto; discriminate. }
  destruct M as (M1 & M2 & M3). rewrite M2 in H. destruct (diag_way w t Ot Fw H) as [L S]. split; [exact M1|]. split; [exact L|].
  constructor; [|exact S]. split; [exact Ot|]. intro B. now apply angle_none, M3.
Qed.

(** The record of an element on the way. *)
Definition it (sp lv : pstr) (t : token) : item :=
  mkItem (t_text t) (t_start t) (t_end t) (t_base t) (t_sub t) ($"IFR") [] 0 sp lv [] PyZeroFloat (base_eqb (t_base t) F15_POINT && has_coordinates (t_sub t)).
Definition adep_item (sp lv : pstr) : item := flies sp lv (n_last (rules ($"IFR") blank_notes)).
Definition flown (sp lv : pstr) (i : item) : Prop := i_rules i = $"IFR" /\ i_speed i = sp /\ i_level i = lv.
Lemma it_flown sp lv t : flown sp lv (it sp lv t). Proof. repeat split. Qed.
Lemma start_way sp lv t k b i ts : sound t -> flown sp lv i ->
  start t k (mkNotes b i []) ts = Goes (job_of t :: k) (mkNotes (b ++ [i]) (it sp lv t) []) ts.
Proof.
  intros [O A] (R & V & L). destruct i as [nm st en ba su ru tx sy spd lvl tg tv lo]. cbn [i_rules i_speed i_level] in R, V, L. subst ru spd lvl. unfold start, job_of, it.
  destruct O as [B|[B|B]]; rewrite B.
  - unfold point. rewrite (A B). unfold report, locates, rules, with_last, add, add_as, new_item. cbn. rewrite B. cbn. rewrite orb_false_r. reflexivity.
  - unfold rules, with_last, add, add_as, new_item. cbn. rewrite B. reflexivity.
  - unfold add, add_as, new_item. cbn. rewrite B. reflexivity.
Qed.
Lemma play_way sp lv : forall w n x b, Forall sound w -> on_the_way x -> linked (x :: w) -> length w < n ->
  play n [job_of x] (mkNotes b (it sp lv x) []) w = Done (mkNotes (removelast (b ++ map (it sp lv) (x :: w))) (last (map (it sp lv) (x :: w)) (it sp lv x)) []).
Proof.
  induction w as [|t w IH]; intros n x b F Ox L Hn; (destruct n as [|n]; [lia|]).
  - cbn [map last]. rewrite removelast_last. unfold play at 1, step1, job_of. destruct Ox as [B|[B|B]]; rewrite B; cbn [at_end]; destruct n; reflexivity.
  - inversion F as [|? ? St Fw]; subst.
    assert (E : step1 [job_of x] (mkNotes b (it sp lv x) []) (t :: w) = Goes [job_of t] (mkNotes (b ++ [it sp lv x]) (it sp lv t) []) w).
    { rewrite <- (start_way sp lv t [] b (it sp lv x) w St (it_flown _ _ _)). pose proof (L [] x t w eq_refl) as M. destruct St as [Ot _].
      unfold step1, job_of, may in *. destruct Ox as [Bx|[Bx|Bx]], Ot as [Bt|[Bt|Bt]]; rewrite ?Bx, ?Bt in *; try contradiction;
        cbn [read]; unfold suits, spot; cbn [fits n_last it i_sub]; rewrite ?Bt; cbn [orb negb base_eqb]; rewrite ?M; try reflexivity. }
    cbn [play]. rewrite E. cbn [length] in Hn. rewrite IH; [|exact Fw|apply St|now apply linked_tl in L|lia]. f_equal. f_equal.
    + rewrite <- app_assoc. reflexivity.
    + cbn [map]. destruct (map (it sp lv) w) as [|i l] eqn:W; [reflexivity|]. clear. cbn [last]. revert i. induction l as [|j l IH]; intro i; [reflexivity|]. apply IH.
Qed.
Definition ades_item : item := n_last (rules ($"IFR") (mkNotes [] (aero ($"ADES")) [])).
Lemma reading_way sp w : t_base sp = F15_SPEED_ALTITUDE -> level_faults sp = [] -> w <> [] -> no_route w -> Forall sound w -> linked w ->
  reading (sp :: w) = Some (Gives (adep_item (speed_part (t_text sp)) (first_level (t_text sp)) ::
    map (it (speed_part (t_text sp)) (first_level (t_text sp))) w ++ [ades_item]) []).
Proof.
  intros B Lv Ne Nr F L. set (v := speed_part (t_text sp)). set (a := first_level (t_text sp)). destruct w as [|t w]; [contradiction|]. inversion F as [|? ? St Fw]; subst.
  assert (E : begin (sp :: t :: w) = Done (mkNotes (removelast ([adep_item v a] ++ map (it v a) (t :: w))) (last (map (it v a) (t :: w)) (it v a t)) [])).
  { unfold begin. rewrite B. unfold start at 1. rewrite B.
    assert (X : speeds sp blank_notes = mkNotes [] (adep_item v a) []) by (unfold speeds; rewrite Lv, B; reflexivity). rewrite X. cbn [only_adep n_before blank_notes].
    unfold patience. cbn [length]. replace (4 * S (S (length w)) + 4) with (S (4 * length w + 11)) by lia. cbn [play].
    assert (Y : step1 [JAdep] (mkNotes [] (adep_item v a) []) (t :: w) = Goes [job_of t] (mkNotes [adep_item v a] (it v a t) []) w).
    { change [adep_item v a] with ([] ++ [adep_item v a]). rewrite <- (start_way v a t [] [] (adep_item v a) w St ltac:(repeat split)). unfold step1, read, suits, spot. cbn [n_last].
      destruct St as [[Q|[Q|Q]] _]; cbn [no_route] in Nr; [|contradiction|]; cbn [fits]; rewrite Q; reflexivity. }
    rewrite Y. apply play_way; [exact Fw|apply St|exact L|lia]. }
  unfold reading. rewrite E. unfold conclude. cbn [n_before n_last n_reports]. rewrite B. cbn [base_eqb].
  assert (Z : removelast ([adep_item v a] ++ map (it v a) (t :: w)) ++ [last (map (it v a) (t :: w)) (it v a t)] = adep_item v a :: map (it v a) (t :: w)).
  { cbn [app map]. set (l := map (it v a) w). set (i := it v a t).
    symmetry. apply (app_removelast_last i (l := adep_item v a :: i :: l)). discriminate. }
  rewrite Z. clear Z E.
  assert (R : i_rules (last (adep_item v a :: map (it v a) (t :: w)) (aero [])) = $"IFR").
  { clear. cbn [map]. assert (X : forall l y d, i_rules y = $"IFR" -> i_rules (last (y :: map (it v a) l) d) = $"IFR").
    { induction l as [|x l IH]; intros y d H; [exact H|]. cbn [map]. exact (IH (it v a x) d eq_refl). }
    exact (X (t :: w) (adep_item v a) (aero []) eq_refl). }
  assert (T : base_eqb F15_SPEED_ALTITUDE F15_SPEED_VFR = false) by reflexivity.
  unfold ades_item. rewrite <- R. reflexivity.
Qed.

(** ** The field *)
Definition as_same (t u : token) : Prop := t_text t = t_text u /\ t_base t = t_base u /\ t_sub t = t_sub u.
Lemma same_list : forall l m, Forall wt l -> Forall wt m -> map t_text l = map t_text m -> Forall2 as_same l m.
Proof.
  induction l as [|t l IH]; intros [|u m] A B E; cbn [map] in E; try discriminate E; constructor; inversion A; inversion B; subst; injection E as E1 E2.
  - split; [exact E1|]. now apply Flow.same_text.
  - now apply IH.
Qed.
Lemma level_none sp : t_base sp = F15_SPEED_ALTITUDE -> levels sp = Fine -> level_faults sp = [].
Proof. unfold levels, level_faults, level_fault, unconvertible. intros B. rewrite B. destruct (bad_level _); [discriminate|reflexivity]. Qed.
Lemma same_sound t u : as_same t u -> sound t -> sound u.
Proof. intros (T & B & S) [O A]. unfold sound, on_the_way, angle_faults in *. now rewrite <- T, <- B, <- S. Qed.
Lemma same_may t u x y : as_same t u -> as_same x y -> may t x -> may u y.
Proof. intros (T & B & S) (T' & B' & S'). unfold may. now rewrite B, S, B', S'. Qed.
Lemma same_linked l m : Forall2 as_same l m -> linked l -> linked m.
Proof.
  intros F H a x y r E. subst m. apply Forall2_app_inv_r in F as (l1 & l2 & F1 & F2 & ->). inversion F2 as [|t ? ? ? Q F3]; subst. inversion F3 as [|u ? ? ? Q' F4]; subst.
  eapply same_may; [exact Q|exact Q'|]. eapply H; reflexivity.
Qed.
Lemma record_same G v a t u : as_same t u -> same_apart (record_of G (it v a t)) (record_of G (it v a u)).
Proof. intros (T & B & S). unfold same_apart, same_element, same_flight, record_of, it. cbn. rewrite T, B, S. repeat split. Qed.
Lemma legs_app G : forall l m, with_legs G (l ++ m) = map (fun x => x) (firstn (length l) (with_legs G (l ++ m))) ++ with_legs G m.
Proof. intros l m. rewrite map_id. induction l as [|x l IH]; [reflexivity|]. cbn [app with_legs length firstn]. now rewrite <- IH. Qed.
Lemma with_leg_same G r q rest : same_apart r q -> same_apart (with_leg G r rest) q.
Proof. intro H. unfold with_leg. destruct (if r_llv r then next_located rest else None); [|exact H]. exact H. Qed.
Lemma with_leg_same' G r q rest : same_apart r q -> same_apart r (with_leg G q rest).
Proof. intro H. unfold with_leg. destruct (if r_llv q then next_located rest else None); [|exact H]. exact H. Qed.
(** The legs do not change anything else. *)
Lemma legs_split G z : r_llv z = false -> forall l, exists l', with_legs G (l ++ [z]) = l' ++ [z] /\ Forall2 (fun r q => exists rest, q = with_leg G r rest) l l'.
Proof.
  intro Z. induction l as [|x l (l' & E & F)].
  - exists []. split; [|constructor]. cbn [app with_legs]. unfold with_leg. now rewrite Z.
  - exists (with_leg G x (l ++ [z]) :: l'). split; [cbn [app with_legs]; now rewrite E|]. constructor; [eauto|exact F].
Qed.
Lemma F2_rev {A B} (P : A -> B -> Prop) l m : Forall2 P l m -> Forall2 P (rev l) (rev m).
Proof. induction 1; cbn [rev]; [constructor|]. apply Forall2_app; [assumption|now constructor]. Qed.
Lemma legs_same G : forall l m l' m', Forall2 same_apart l m -> Forall2 (fun r q => exists rest, q = with_leg G r rest) l l' ->
  Forall2 (fun r q => exists rest, q = with_leg G r rest) m m' -> Forall2 same_apart l' m'.
Proof.
  induction l as [|x l IH]; intros m l' m' H1 H2 H3; inversion H1; subst; inversion H2; subst; inversion H3; subst; constructor; [|eapply IH; eauto].
  repeat match goal with H : exists _, _ |- _ => destruct H as (? & ->) end. now apply with_leg_same, with_leg_same'.
Qed.
Lemma way_back_field : forall (G : geodesic) (depth : nat) (f g : pstr) (s : st),
  way_back f g -> ~ ends_with_a_route f -> parse_field15 G depth f = Ok true s -> 3 * n_tokens f <= depth + 1 ->
  exists s', parse_field15 G depth g = Ok true s' /\
    (exists a m z m', e_recs (s_ers s) = a :: m ++ [z] /\ e_recs (s_ers s') = a :: m' ++ [z] /\ Forall2 same_apart (rev m) m') /\
    e_rules (s_ers s') = e_rules (s_ers s) /\
    (as_far_back G -> lengths (e_recs (s_ers s')) = rev (lengths (e_recs (s_ers s)))).
Proof.
  intros G depth f g s (sp & w & Ef & B & O & Eg) Nr P D.
  assert (Nf : field_tokens f <> []) by (rewrite Ef; discriminate).
  pose proof (first_error_field G depth f true s Nf P) as Dg. rewrite Ef in Dg. unfold diagnose in Dg. rewrite B in Dg.
  assert (Ne : w <> []).
  { intros ->. destruct (levels sp); cbn [then_] in Dg; try contradiction; destruct Dg; discriminate. }
  assert (Lv : levels sp = Fine) by (destruct (levels sp); [reflexivity|cbn [then_] in Dg; destruct Dg; discriminate|contradiction]).
  rewrite Lv in Dg. cbn [then_] in Dg.
  assert (Dw : diag PAdep w = Fine).
  { destruct w as [|t w]; [contradiction|]. destruct (diag PAdep (t :: w)); [reflexivity|destruct Dg; discriminate|contradiction]. }
  destruct (diag_adep w O Dw) as (N1 & L1 & S1). pose proof (level_none sp B Lv) as Lf.
  destruct (field_tokens g) as [|sp' w'] eqn:Eg'; [discriminate Eg|]. cbn [map] in Eg. injection Eg as Es Ew.
  pose proof (field_wt f) as Wf. pose proof (field_wt g) as Wg. rewrite Ef in Wf. rewrite Eg' in Wg. inversion Wf as [|? ? [Wsp _] Ww]; subst. inversion Wg as [|? ? [Wsp' _] Ww']; subst.
  assert (Q : Forall2 as_same (rev w) w').
  { apply same_list; [| |now rewrite map_rev].
    - apply Forall_rev. eapply Forall_impl; [|exact Ww]. cbn. tauto.
    - eapply Forall_impl; [|exact Ww']. cbn. tauto. }
  destruct (Flow.same_text sp' sp Wsp' Wsp Es) as [Bs Ss].
  assert (S2 : Forall sound w').
  { clear - Q S1. apply Forall_rev in S1. induction Q as [|t u l m H Q IH]; inversion S1; subst; constructor; [eapply same_sound; eauto|auto]. }
  assert (L2 : linked w') by (eapply same_linked; [exact Q|now apply linked_rev]).
  assert (N2 : no_route w').
  { destruct w' as [|u w']; [exact Logic.I|]. cbn. intro Bu. destruct (rev w) as [|t r] eqn:Er; [inversion Q|]. inversion Q as [|? ? ? ? (T1 & T2 & T3) Q1]; subst.
    apply Nr. exists (sp :: rev r), t. split; [|congruence]. rewrite Ef. cbn [app]. f_equal. apply (f_equal (@rev _)) in Er. now rewrite rev_involutive in Er. }
  assert (Ne' : w' <> []).
  { intros ->. inversion Q as [Er|]. symmetry in Er. apply (f_equal (@rev _)) in Er. rewrite rev_involutive in Er. now apply Ne. }
  assert (Lf' : level_faults sp' = []) by (unfold level_faults in *; rewrite Es, Bs; exact Lf).
  assert (B' : t_base sp' = F15_SPEED_ALTITUDE) by congruence.
  pose proof (reading_way sp w B Lf Ne N1 S1 L1) as R1. pose proof (reading_way sp' w' B' Lf' Ne' N2 S2 L2) as R2. rewrite Es in R2.
  set (v := speed_part (t_text sp)) in *. set (a := first_level (t_text sp)) in *.
  destruct (complete G depth f true s Nf P) as (l & e & X1 & X2 & X3). rewrite Ef, R1 in X1. injection X1 as <- <-.
  assert (Len : n_tokens g = n_tokens f).
  { assert (C : forall h, n_tokens h = length (field_tokens h)) by (intro h; unfold n_tokens, field_tokens; now rewrite map_length).
    rewrite !C, Ef, Eg'. cbn [length]. f_equal. clear - Q. rewrite <- (rev_length w). induction Q; cbn [length]; [reflexivity|now f_equal]. }
  assert (Ng : field_tokens g <> []) by (rewrite Eg'; discriminate).
  pose proof (complete_total G depth g Ng ltac:(lia)) as Y. rewrite Eg', R2 in Y. destruct Y as (s' & Y1 & Y2).
  exists s'. split; [exact Y1|]. rewrite X3, Y2. unfold ers_of. cbn [e_recs e_rules]. unfold route_of. cbn [map]. rewrite !map_app. cbn [map].
  set (ra := record_of G (adep_item v a)). set (rz := record_of G ades_item).
  assert (Za : r_llv ra = false) by reflexivity. assert (Zz : r_llv rz = false) by reflexivity.
  set (m := map (record_of G) (map (it v a) w)). set (m' := map (record_of G) (map (it v a) w')).
  assert (Qm : Forall2 same_apart (rev m) m').
  { unfold m, m'. rewrite !map_map, <- map_rev. clear - Q. induction Q as [|t u l k H Q IH]; cbn [map]; constructor; [now apply record_same|exact IH]. }
  destruct (legs_split G rz Zz m) as (k & K1 & K2). destruct (legs_split G rz Zz m') as (k' & K1' & K2').
  assert (Wa : forall l, with_leg G ra l = ra) by (intro l; unfold with_leg; now rewrite Za).
  repeat split.
  - exists ra, k, rz, k'. cbn [with_legs]. rewrite K1, K1', !Wa. repeat split. eapply legs_same; [exact Qm|exact (F2_rev _ _ _ K2)|exact K2'].
  - assert (Lt : forall u, letter (adep_item v a :: map (it v a) u ++ [ades_item]) = $"I").
    { intro u. unfold letter. change (i_rules (adep_item v a)) with ($"IFR"). replace (pstr_eqb ($"IFR") ($"VFR")) with false by reflexivity.
      replace (existsb _ _) with false; [reflexivity|]. symmetry. apply not_true_is_false. intro H. apply existsb_exists in H as (i & H & Hi).
      assert (V : i_rules i = $"IFR"). { destruct H as [<-|H]; [reflexivity|]. apply in_app_or in H as [H|[<-|[]]]; [|reflexivity]. apply in_map_iff in H as (t & <- & _). reflexivity. }
      rewrite V in Hi. discriminate Hi. }
    now rewrite !Lt.
  - intro Sy. apply lengths_back; [exact Sy|]. cbn [map rev]. rewrite !map_app, rev_app_distr. cbn [map rev app].
    change (proj rz) with (proj ra). f_equal. f_equal.
    rewrite <- map_rev. clear - Qm. induction Qm as [|x y p q H Qm IH]; [reflexivity|]. cbn [map]. f_equal; [|exact IH].
    destruct H as [(_ & _ & _ & _ & _ & _ & _ & _ & _ & H1 & H2 & H3) _]. unfold proj. now rewrite H1, H2, H3.
Qed.
