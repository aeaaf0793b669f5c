(** * Procedure: a field with and without a SID or a STAR. *)
From Coq Require Import ZArith NArith List Bool String Lia.
From Coq Require Import Floats.SpecFloat.
From Coq Require Import ZifyBool ZifyNat ZifyN.
From Verif Require Import PyBase PyFloat Enums ErrorTable Regex SyntaxTable Syntax Tokenizer Ers Utils Parser.
From Verif Require Import SpecTokenizer TokenizerProofs SpecNum ParserPrims PerfEq PointEq SyntaxProofs Trace ParseTrace ParserFacts SpecParser SpecGrammar GrammarSem Grammar SpecAccept Accept Describe AcceptFacts SpecLayout Layout SpecViable Viable Unambiguous SpecRemoval Removal SpecConnector Connector Join SpecProcedure.
Import List ListNotations.
Local Open Scope list_scope.
Local Open Scope nat_scope.

Section G.
Variable G : geodesic.
(** ** Records *)
Definition bare (t : token) (b : base_type) (q r : rrec) : Prop :=
  r_name r = t_text t /\ r_base r = b /\ r_llv r = false /\ r_brg r = S754_zero false /\ r_dist r = S754_zero false /\ r_break r = [] /\ r_stay r = 0%Z /\ r_cto r = [] /\
  r_speed r = r_speed q /\ r_alt r = r_alt q /\ r_speed_si r = r_speed_si q /\ r_alt_si r = r_alt_si q /\ r_rules r = r_rules q.
Definition more (t : token) (b : base_type) (l l' : list rrec) : Prop := exists U q r V, l = U ++ q :: r :: V /\ l' = U ++ q :: V /\ bare t b q r.
Lemma bare_carry t b sb q : bare t b q (retype b sb (carry q (tok_rec t))).
Proof. repeat split. Qed.
Lemma more_derived t b l l' : more t b l l' -> derived l = derived l'.
Proof.
  intros (U & q & r & V & -> & -> & B). assert (R : r_rules r = r_rules q) by apply B. change (q :: r :: V) with ([q] ++ r :: V). change (q :: V) with ([q] ++ V). rewrite !app_assoc.
  assert (I : In (r_rules r) (map r_rules (U ++ [q]))) by (rewrite R; apply in_map, in_or_app; right; now left).
  destruct (U ++ [q]) as [|u U'] eqn:E; [destruct U; discriminate E|]. now apply derived_without.
Qed.
Lemma forall2_app_inv {X Y} (P : X -> Y -> Prop) a b l : Forall2 P (a ++ b) l -> exists a' b', l = a' ++ b' /\ Forall2 P a a' /\ Forall2 P b b'.
Proof. intro H. apply Forall2_app_inv_l in H as (a' & b' & H1 & H2 & ->). eauto. Qed.

(** ** The effect of a STAR *)
Lemma star_effect ss1 t : derives XStart (ss1 ++ [SStar t]) -> more t F15_STAR (result_of G (ss1 ++ [SStar t])) (result_of G ss1).
Proof.
  intro D. assert (N1 : yield ss1 <> []).
  { destruct ss1 as [|x ss1]; [cbn [app derives] in D; destruct D as (K & _); discriminate K|]. cbn [app derives] in D. destruct D as (_ & Px & _). apply step_tokens in Px. rewrite yield_cons. destruct (tokens_of x); [congruence|discriminate]. }
  unfold result_of. rewrite <- (app_nil_r ss1) at 2 3. rewrite <- (vfr_first_same ss1 [SStar t] [] N1). set (v := is_vfr_first _).
  rewrite effs_app, app_nil_r. set (k0 := effs G 0 ss1 core0). cbn [effs eff1]. unfold add_k, k_with. cbn [k_l k_p k_js].
  unfold core_final. rewrite !core_recs_eq. cbn [k_l k_p]. set (star := retype F15_STAR (star_sub t) (carry (k_p k0) (tok_rec t))).
  assert (Hv : k_l k0 = [] -> v = false).
  { intro El. unfold v. rewrite yield_app. destruct ss1 as [|x ss1]; [exfalso; apply N1; reflexivity|]. cbn [app derives] in D. destruct D as (F & P & _). destruct x; try discriminate F; cbn [proper] in P.
    - rewrite yield_cons. cbn [tokens_of app is_vfr_first]. destruct P as (P & _). rewrite P. reflexivity.
    - exfalso. unfold k0 in El. cbn [effs] in El. pose proof (effs_len G ss1 (0 + length (tokens_of (SFirstVfr t0))) (eff1 G 0 (SFirstVfr t0) core0)) as K. rewrite El in K. cbn in K. lia. }
  assert (Eq : exists U, upd_first v (k_l k0 ++ [k_p k0]) = U ++ [k_p k0] /\ upd_first v ((k_l k0 ++ [k_p k0]) ++ [star]) = (U ++ [k_p k0]) ++ [star]).
  { destruct (k_l k0) as [|a l]; [rewrite (Hv eq_refl); exists []; split; reflexivity|]. exists (upd_first v (a :: l)). rewrite <- app_assoc, !upd_first_app, <- app_assoc. split; reflexivity. }
  destruct Eq as (U & -> & ->). assert (Ea : ades_rec ((U ++ [k_p k0]) ++ [star]) = ades_rec (U ++ [k_p k0])) by (unfold ades_rec; rewrite !last_last; reflexivity).
  rewrite Ea. exists U, (k_p k0), star, [ades_rec (U ++ [k_p k0])]. split; [|split; [|apply bare_carry]]; rewrite <- !app_assoc; reflexivity.
Qed.

(** ** The effect of a SID *)
Definition Two (a x : rrec) (k k' : core) : Prop := exists l, k_l k = a :: x :: l /\ k_l k' = a :: l /\ k_p k = k_p k'.
Lemma azi_two a x l p : r_llv a = false -> r_llv x = false -> exists l', azi G (a :: x :: l) p = a :: x :: l' /\ azi G (a :: l) p = a :: l'.
Proof.
  intros Ha Hx. unfold azi. destruct (r_llv p); [|now exists l]. cbn [rev]. destruct (rev l) as [|q [|q2 m]] eqn:E; cbn [app].
  - rewrite Ha, Hx. cbn [rev app]. apply (f_equal (@rev _)) in E. rewrite rev_involutive in E. subst l. now exists [].
  - rewrite Hx. apply (f_equal (@rev _)) in E. rewrite rev_involutive in E. cbn [rev app] in E. subst l. destruct (r_llv q); cbn [rev app]; [now exists [set_bd G q p]|rewrite Ha; now exists [q]].
  - destruct (r_llv q); [|destruct (r_llv q2); [|now exists l]].
    + exists (rev (q2 :: m) ++ [set_bd G q p]). cbn [rev]. rewrite !rev_app_distr. cbn [rev app]. split; reflexivity.
    + exists (rev m ++ [set_bd G q2 p; q]). rewrite !rev_app_distr. cbn [rev app]. split; reflexivity.
Qed.
Lemma prev_two a x t l p : r_llv a = false -> r_llv x = false -> exists l', pt_prev G t (a :: x :: l) p = a :: x :: l' /\ pt_prev G t (a :: l) p = a :: l'.
Proof.
  intros Ha Hx. unfold pt_prev. destruct (t_sub t); try (now exists l); try now apply azi_two.
  all: match goal with |- context [azi G (azi G (_ :: _) ?p1) ?p2] => destruct (azi_two a x l p1 Ha Hx) as (l1 & -> & ->); now apply azi_two end.
Qed.
Lemma Two_step a x s j j' k k' : r_llv a = false -> r_llv x = false -> Two a x k k' -> Two a x (eff1 G j s k) (eff1 G j' s k').
Proof.
  intros Ha Hx (l & E1 & E2 & E3). assert (Ad : forall t i i', Two a x (add_k i t k) (add_k i' t k')).
  { intros t i i'. exists (l ++ [k_p k]). unfold add_k. cbn [k_l k_p]. now rewrite E1, E2, <- E3. }
  assert (Ru : forall r k1 k2, Two a x k1 k2 -> Two a x (rule_k r k1) (rule_k r k2)) by (intros r k1 k2 (m & F1 & F2 & F3); exists m; unfold rule_k, k_with; cbn [k_l k_p]; now rewrite F3).
  assert (Pt : forall t k1 k2, Two a x k1 k2 -> Two a x (pt_k G t k1) (pt_k G t k2)).
  { intros t k1 k2 (m & F1 & F2 & F3). unfold pt_k. rewrite F1, F2, <- F3. destruct (prev_two a x t m (k_p k1) Ha Hx) as (m' & -> & ->). now exists m'. }
  assert (Wi : forall f k1 k2, Two a x k1 k2 -> Two a x (k_with k1 (f (k_p k1))) (k_with k2 (f (k_p k2)))) by (intros f k1 k2 (m & F1 & F2 & F3); exists m; unfold k_with; cbn [k_l k_p]; now rewrite F3).
  assert (T : Two a x k k') by now exists l.
  assert (Vf : forall t i i', Two a x (vfr_k i t k) (vfr_k i' t k')).
  { intros t i i'. unfold vfr_k. rewrite E1, E2, <- E3. exists (l ++ [copy_perf (vfr_eff t (k_p k)) (k_p k)]). split; [|split]; reflexivity. }
  destruct s; cbn [eff1]; auto; try (now apply (Wi (sa_eff _))).
Qed.
Lemma Two_steps a x : r_llv a = false -> r_llv x = false -> forall ss j j' k k', Two a x k k' -> Two a x (effs G j ss k) (effs G j' ss k').
Proof. intros Ha Hx. induction ss as [|s r IH]; intros j j' k k' T; [exact T|]. cbn [effs]. apply IH. now apply Two_step. Qed.
Lemma sid_effect t0 t ss2 s2 : derives XStart (SFirst t0 :: SSid t :: s2 :: ss2) -> (adds s2 = true \/ (exists x, s2 = SStar x)) \/ (exists x, s2 = STrunc x) ->
  more t F15_SID (result_of G (SFirst t0 :: SSid t :: s2 :: ss2)) (result_of G (SFirst t0 :: s2 :: ss2)).
Proof.
  intros D Ha. unfold result_of. rewrite !yield_cons. cbn [tokens_of app is_vfr_first].
  assert (B0 : t_base t0 = F15_SPEED_ALTITUDE) by (cbn [derives proper] in D; tauto). rewrite B0. change (base_eqb F15_SPEED_ALTITUDE F15_SPEED_VFR) with false.
  cbn [effs tokens_of length]. set (a := sa_eff t0 adep0). set (x := retype F15_SID (sid_sub t) (carry a (tok_rec t))).
  assert (La : r_llv a = false) by (unfold a, sa_eff; destruct (sa_cut (t_sub t0)); reflexivity). assert (Lx : r_llv x = false) by reflexivity.
  change (eff1 G 0 (SFirst t0) core0) with (mkK [] a []). change (eff1 G (0 + 1) (SSid t) (mkK [] a [])) with (mkK [a] x [0 + 1]).
  destruct Ha as [Ha|(z & ->)].
  - assert (T : Two a x (eff1 G (0 + 1 + 1) s2 (mkK [a] x [0 + 1])) (eff1 G (0 + 1) s2 (mkK [] a []))).
    { assert (Ad : forall z i i', Two a x (add_k i z (mkK [a] x [0 + 1])) (add_k i' z (mkK [] a []))) by (intros z i i'; exists []; repeat split).
      assert (Ru : forall r k1 k2, Two a x k1 k2 -> Two a x (rule_k r k1) (rule_k r k2)) by (intros r k1 k2 (m & F1 & F2 & F3); exists m; unfold rule_k, k_with; cbn [k_l k_p]; now rewrite F3).
      assert (Pt : forall t k1 k2, Two a x k1 k2 -> Two a x (pt_k G t k1) (pt_k G t k2)).
      { intros z k1 k2 (m & F1 & F2 & F3). unfold pt_k. rewrite F1, F2, <- F3. destruct (prev_two a x z m (k_p k1) La Lx) as (m' & -> & ->). now exists m'. }
      destruct Ha as [Ha|(z & ->)]; [destruct s2; try discriminate Ha; cbn [eff1]; auto|]. exists []. repeat split. }
    apply (Two_steps a x La Lx ss2 (0 + 1 + 1 + length (tokens_of s2)) (0 + 1 + length (tokens_of s2))) in T. destruct T as (l & E1 & E2 & E3).
    unfold core_final. rewrite !core_recs_eq, E1, E2, <- E3. cbn [upd_first]. set (p := k_p _). exists [], a, x, (l ++ [p; ades_rec (l ++ [p])]).
    assert (Q : forall h, ades_rec (h ++ l ++ [p]) = ades_rec (l ++ [p])) by (intro h; unfold ades_rec; now rewrite !app_assoc, !last_last).
    change ((a :: x :: l) ++ [p]) with ([a; x] ++ l ++ [p]). change ((a :: l) ++ [p]) with ([a] ++ l ++ [p]). rewrite !Q. split; [|split; [|apply bare_carry]]; cbn [app]; rewrite <- app_assoc; reflexivity.
  - assert (ss2 = []) as ->. { cbn [derives after] in D. decompose [and] D. destruct ss2 as [|y r]; [reflexivity|]. cbn [derives] in *. match goal with K : follows XEnd y = true /\ _ |- _ => destruct K as (K & _); discriminate K | K : follows XEnd y = true |- _ => discriminate K end. }
    exists [], a, x, [ades_rec [a]]. repeat split.
Qed.

(** ** Results *)
Lemma to_less depth' f depth s big small t b g : parse_field15 G depth f = Ok true s -> s_ers s = mkErs (result_of G big) [] (derived (result_of G big)) ->
  more t b (result_of G big) (result_of G small) -> derives XStart small -> by_text (yield small) -> element_texts g = map t_text (yield small) -> 3 * n_tokens g <= depth' + 1 ->
  exists s', parse_field15 G depth' g = Ok true s' /\ one_more (t_text t) b (s_ers s) (s_ers s').
Proof.
  intros H Es M D B Eg Hd. destruct (parse_steps G depth' small g D B Eg Hd) as (s' & Hp & E1 & E2 & E3). exists s'. split; [exact Hp|]. rewrite <- (more_derived _ _ _ _ M) in E3.
  destruct M as (U & q & r & V & M1 & M2 & Bq). exists U, q, r, V. rewrite Es. cbn [e_recs e_errs e_rules]. split; [exact M1|]. split; [apply er_same_list; rewrite E1, M2; reflexivity|].
  unfold bare in Bq. rewrite E2, E3. tauto.
Qed.
Lemma same_sym_list l l' : Forall2 same_but_place l l' -> Forall2 same_but_place l' l.
Proof. induction 1 as [|? ? ? ? H]; constructor; [|assumption]. unfold same_but_place in *. decompose [and] H. repeat split; now symmetry. Qed.
Lemma to_more depth' f depth s big small t b g : parse_field15 G depth f = Ok true s -> s_ers s = mkErs (result_of G small) [] (derived (result_of G small)) ->
  more t b (result_of G big) (result_of G small) -> derives XStart big -> by_text (yield big) -> element_texts g = map t_text (yield big) -> 3 * n_tokens g <= depth' + 1 ->
  exists s', parse_field15 G depth' g = Ok true s' /\ one_more (t_text t) b (s_ers s') (s_ers s).
Proof.
  intros H Es M D B Eg Hd. destruct (parse_steps G depth' big g D B Eg Hd) as (s' & Hp & E1 & E2 & E3). exists s'. split; [exact Hp|]. rewrite (more_derived _ _ _ _ M) in E3.
  destruct M as (U & q & r & V & M1 & M2 & Bq). rewrite M1, map_app in E1. cbn [map] in E1. apply map_split in E1 as (U1 & q1 & W1 & F1 & F2 & F3 & F4). symmetry in F4.
  destruct W1 as [|r1 V1]; [discriminate F4|]. cbn [map] in F4.
  assert (Fr : er_rec r1 = er_rec r) by (symmetry; exact (f_equal (hd (er_rec r)) F4)). assert (Fv : map er_rec V1 = map er_rec V) by (symmetry; exact (f_equal (@tl _) F4)).
  exists U1, q1, r1, V1. rewrite Es. cbn [e_recs e_errs e_rules]. split; [exact F1|]. split.
  - apply er_same_list. rewrite M2, !map_app. cbn [map]. rewrite F2, F3, Fv. reflexivity.
  - apply er_same in Fr, F3. unfold same_but_place, bare in *. decompose [and] Fr. decompose [and] F3. decompose [and] Bq. rewrite E2, E3. repeat split; congruence.
Qed.

(** ** Steps of procedures *)
Lemma proc_step s c r a t b : proper c s r -> rstep s = a ++ (t, ROut) :: b -> In (t_base t) [F15_SID; F15_STAR; F15_SID_STAR] ->
  ((s = SSid t /\ t_base t <> F15_STAR) \/ (s = SStar t /\ t_base t <> F15_SID)) /\ a = [] /\ b = [].
Proof.
  intros P E B. cbn [In] in B. destruct s; cbn [rstep tokens_of map] in E;
    try (apply text_role in E; discriminate E);
    (destruct a as [|x [|y [|z a]]]; cbn [app] in E; try discriminate E; injection E; intros; subst; cbn [proper] in P; try (destruct a; discriminate);
     try (exfalso; decompose [and or] P; decompose [or False] B; congruence)).
  - split; [left; split; [reflexivity|destruct P; congruence]|auto].
  - split; [right; split; [reflexivity|destruct P as ([P|(P & _)] & _); congruence]|auto].
Qed.
Lemma starts_first ss : derives XStart ss -> forall x t w, ryield ss = x :: (t, ROut) :: w -> exists t0 s r, ss = SFirst t0 :: s :: r /\ x = (t0, ROut).
Proof.
  intros D x t w E. destruct ss as [|s ss]; [discriminate E|]. cbn [derives] in D. destruct D as (F & P & D). destruct s; try discriminate F; rewrite ryield_cons in E; cbn [rstep tokens_of map app] in E.
  - destruct ss as [|s ss]; [discriminate E|]. exists t0, s, ss. split; [reflexivity|]. now injection E.
  - exfalso. destruct ss as [|s ss]; [discriminate E|]. cbn [derives after] in D. destruct D as (F' & P' & D). destruct s; try discriminate F'. rewrite ryield_cons in E. cbn [rstep] in E. cbn [proper] in P'. destruct txt as [|y txt]; [tauto|].
    cbn [map app] in E. injection E as _ _ K _. discriminate K.
Qed.
Lemma first_head (ss : list step) c x w : derives c ss -> ryield ss = x :: w -> exists s r w', ss = s :: r /\ rstep s = x :: w'.
Proof.
  intros D E. destruct ss as [|s r]; [discriminate E|]. cbn [derives] in D. destruct D as (_ & P & _). apply step_tokens in P. rewrite ryield_cons in E.
  destruct (rstep s) as [|y w'] eqn:Er; [exfalso; apply P; rewrite <- (rstep_fst s), Er; reflexivity|]. cbn [app] in E. injection E as -> _. eauto 10.
Qed.

Theorem star_left_out depth depth' f s pre t g : parse_field15 G depth f = Ok true s -> field_roles f = pre ++ [(t, ROut)] -> In (t_base t) [F15_STAR; F15_SID_STAR] ->
  2 <= length pre -> element_texts g = wordsof pre -> 3 * n_tokens g <= depth' + 1 ->
  exists s', parse_field15 G depth' g = Ok true s' /\ one_more (t_text t) F15_STAR (s_ers s) (s_ers s').
Proof.
  intros H W Bt Hl Eg Hd. destruct (roles_steps G f depth s H) as (ss & D & Y & R & B & Es). rewrite R in W.
  destruct (locate ss XStart _ _ _ D W) as (c & st & ss1 & ss2 & a & b & Ess & Er & Ep & Et & F & P & D2 & Ec). subst ss.
  destruct (proc_step _ _ _ _ _ _ P Er) as ([(-> & _)|(-> & _)] & -> & ->); [cbn [In] in *; tauto| |]; rewrite app_nil_r in Ep; cbn [app] in Et.
  { exfalso. assert (c = XAdep) as -> by (destruct c as [| | | | | | | | |[]|[]| | |]; try discriminate F; reflexivity). symmetry in Ec. destruct (adep_only _ _ D Ec) as (t0 & ->). subst pre. cbn in Hl. lia. }
  assert (ss2 = []) as ->. { destruct ss2 as [|x r]; [reflexivity|]. cbn [derives after] in D2. destruct D2 as (K & _). discriminate K. }
  assert (D' : derives XStart (ss1 ++ [])).
  { apply (exchange ss1 XStart [SStar t] []); try rewrite <- Ec; auto.
    - destruct c as [| | | | | | | | |[]|[]| | |]; try discriminate F; reflexivity.
    - left. destruct c as [| | | | | | | | |[]|[]| | |]; try discriminate F; reflexivity.
    - intros _. exact Logic.I.
    - right. right. subst pre. rewrite len_ryield in Hl. destruct ss1 as [|x [|y r]]; [cbn in Hl; lia| |cbn [length]; lia]. exfalso.
      cbn [app derives] in D. destruct D as (F1 & _). destruct x; try discriminate F1; cbn in Hl; lia.
    - intros ->. discriminate F. }
  rewrite app_nil_r in D'. assert (B' : by_text (yield ss1)) by (rewrite yield_app in B; apply (by_text_app_inv _ _ B)).
  apply (to_less depth' f depth s (ss1 ++ [SStar t]) ss1 t F15_STAR g); auto; [now apply star_effect|]. now rewrite Eg, Ep, words_ryield.
Qed.
Theorem sid_left_out depth depth' f s x t q rest g : parse_field15 G depth f = Ok true s -> field_roles f = x :: (t, ROut) :: q :: rest -> In (t_base t) [F15_SID; F15_SID_STAR] ->
  t_base (fst q) <> F15_ROUTE -> t_base (fst q) <> F15_SID_STAR -> element_texts g = wordsof (x :: q :: rest) -> 3 * n_tokens g <= depth' + 1 ->
  exists s', parse_field15 G depth' g = Ok true s' /\ one_more (t_text t) F15_SID (s_ers s) (s_ers s').
Proof.
  intros H W Bt N1 N2 Eg Hd. destruct (roles_steps G f depth s H) as (ss & D & Y & R & B & Es). rewrite R in W.
  destruct (starts_first ss D _ _ _ W) as (t0 & s1 & r & -> & ->). pose proof D as D0. cbn [derives after] in D. destruct D as (_ & P0 & F & P & D).
  change (SFirst t0 :: s1 :: r) with ([SFirst t0] ++ s1 :: r) in W. rewrite ryield_app, ryield_cons in W. cbn [ryield flat_map rstep tokens_of map app] in W. injection W as W.
  assert (K : exists a b, rstep s1 = a ++ (t, ROut) :: b /\ a = []).
  { pose proof (step_tokens _ _ _ P) as Ns. destruct (rstep s1) as [|y w] eqn:E; [exfalso; apply Ns; rewrite <- (rstep_fst s1), E; reflexivity|]. cbn [app] in W. injection W as -> _. exists [], w. auto. }
  destruct K as (a & b & Er & ->). destruct (proc_step _ _ _ _ _ _ P Er) as (Hs & _ & ->); [cbn [In] in *; tauto|].
  destruct Hs as [(-> & _)|(-> & Hs)].
  2:{ exfalso. cbn [proper] in P. destruct P as ([P|(_ & P)] & _); [|congruence]. cbn [In] in Bt. destruct Bt as [Bt|[Bt|[]]]; congruence. }
  cbn [rstep tokens_of map app] in W. injection W as W. cbn [after] in D. destruct (first_head r XSid q rest D W) as (s2 & r2 & w2 & -> & Er2).
  assert (Pre : derives XStart (SFirst t0 :: s2 :: r2) /\ ((adds s2 = true \/ (exists x, s2 = SStar x)) \/ (exists x, s2 = STrunc x))).
  { cbn [derives] in D |- *. destruct D as (F2 & P2 & D2). split.
    - split; [reflexivity|]. split; [cbn [proper] in P0 |- *; destruct P0 as (A1 & A2 & _); split; [exact A1|split; [exact A2|]]; apply step_tokens in P2; rewrite yield_cons; destruct (tokens_of s2); [congruence|discriminate]|].
      cbn [after]. destruct s2; try discriminate F2; cbn [rstep tokens_of map] in Er2; injection Er2 as <- _; cbn [fst] in *; cbn [proper] in P2.
      + congruence.
      + split; [reflexivity|]. split; [exact P2|exact D2].
      + split; [reflexivity|]. split; [|exact D2]. destruct P2 as ([P2|(P2 & _)] & P3); [|congruence]. split; [now left|exact P3].
      + split; [reflexivity|]. split; [exact P2|exact D2].
    - destruct s2; try discriminate F2; eauto. exfalso. cbn [rstep tokens_of map] in Er2. injection Er2 as <- _. cbn [proper] in P2. cbn [fst] in N1. congruence. }
  destruct Pre as (D' & Ha). assert (B' : by_text (yield (SFirst t0 :: s2 :: r2))).
  { intros y Hy. apply B. rewrite yield_cons in Hy |- *. cbn [tokens_of app] in *. destruct Hy as [->|Hy]; [now left|right]. rewrite yield_cons. right. exact Hy. }
  apply (to_less depth' f depth s (SFirst t0 :: SSid t :: s2 :: r2) (SFirst t0 :: s2 :: r2) t F15_SID g); auto; [now apply sid_effect|].
  rewrite Eg, <- words_ryield. rewrite ryield_cons. cbn [rstep tokens_of map app]. rewrite <- W. reflexivity.
Qed.
Theorem star_put_in depth depth' f s w g : parse_field15 G depth f = Ok true s -> before_star (field_roles f) -> In (fst (classify w)) [F15_STAR; F15_SID_STAR] ->
  element_texts g = element_texts f ++ [w] -> 3 * n_tokens g <= depth' + 1 ->
  exists s', parse_field15 G depth' g = Ok true s' /\ one_more w F15_STAR (s_ers s') (s_ers s).
Proof.
  intros H (pre & x & W & Hx) Cw Eg Hd. destruct (roles_steps G f depth s H) as (ss & D & Y & R & B & Es). rewrite R in W.
  assert (Ew : element_texts f = map t_text (yield ss)) by (rewrite Y; apply et_map).
  destruct (locate ss XStart _ _ _ D W) as (c & st & ss1 & ss2 & a & b & Ess & Er & Ep & Et & F & P & D2 & Ec).
  assert (Eb : b = [] /\ ss2 = []).
  { symmetry in Et. apply app_eq_nil in Et as [-> K]. split; [reflexivity|]. destruct ss2 as [|s2 r]; [reflexivity|]. exfalso. cbn [derives] in D2. destruct D2 as (_ & P2 & _). apply step_tokens in P2.
    rewrite ryield_cons in K. apply app_eq_nil in K as [K _]. apply P2. rewrite <- (rstep_fst s2), K. reflexivity. }
  destruct Eb as [-> ->]. subst ss.
  assert (Nx : c <> XAdep -> length (ryield ss1) = 1 -> False).
  { intros Nc Lp. rewrite len_ryield in Lp. subst c. destruct ss1 as [|s0 [|s1 r]]; [discriminate Lp| |].
    - cbn [app derives] in D. destruct D as (F0 & _). destruct s0; try discriminate F0; cbn [fold_left after] in Nc, F; [congruence|]. destruct st; try discriminate F. cbn [rstep] in Er. apply text_role in Er. discriminate Er.
    - cbn [app derives] in D. destruct D as (_ & Q0 & _ & Q1 & _). apply step_tokens in Q0, Q1. rewrite !yield_cons, !app_length in Lp. destruct (tokens_of s0), (tokens_of s1); try congruence. cbn in Lp. lia. }
  assert (Fo : follows (after c st) (SStar (typed_token w)) = true /\ after c st <> XAdep).
  { clear Ec. cbn [derives] in D2. destruct st; cbn [rstep tokens_of map] in Er; try (apply text_role in Er; discriminate Er);
      (destruct a as [|y [|z [|z2 a]]]; cbn [app] in Er; try discriminate Er; injection Er; intros; subst; cbn [proper] in P; try (destruct a; discriminate));
      try (exfalso; cbn [In] in Hx; decompose [and or] P; decompose [and or False] Hx; congruence);
      try (split; [reflexivity|discriminate]).
    - exfalso. destruct P as (_ & _ & P). apply P. reflexivity.
    - destruct c as [| | | | | | | | |[]|[]| | |]; try discriminate F; try discriminate D2; cbn [after]; split; try reflexivity; discriminate.
    - exfalso. destruct P as ([P|(P & Nc)] & _); [cbn [In] in Hx; decompose [and or False] Hx; congruence|].
      destruct Hx as [Hx|(_ & Lp)]; [cbn [In] in Hx; decompose [or False] Hx; congruence|]. rewrite app_nil_r in Lp. exact (Nx Nc Lp).
    - destruct c as [| | | | | | | | |[]|[]| | |]; try discriminate F; cbn [after]; split; try reflexivity; discriminate.
    - destruct c as [| | | | | | | | |[]|[]| | |]; try discriminate F; cbn [after]; split; try reflexivity; discriminate.
    - destruct c as [| | | | | | | | |[]|[]| | |]; try discriminate F; cbn [after]; split; try reflexivity; discriminate. }
  destruct Fo as (Fo & Na). set (sw := SStar (typed_token w)) in *. set (SS := ss1 ++ [st]) in *.
  assert (EF : fold_left after SS XStart = after c st) by (unfold SS; rewrite fold_left_app, Ec; reflexivity).
  assert (D' : derives XStart (SS ++ [sw])).
  { rewrite <- (app_nil_r SS) in D. apply (exchange SS XStart [] [sw] D); rewrite ?EF.
    - cbn [derives]. split; [exact Fo|]. split; [|reflexivity]. cbn [proper sw]. split; [|reflexivity]. cbn [In] in Cw. change (t_base (typed_token w)) with (fst (classify w)). destruct Cw as [<-|[<-|[]]]; auto.
    - left. destruct (after c st) as [| | | | | | | | |[]|[]| | |]; try discriminate Fo; reflexivity.
    - intros _. unfold sw. rewrite yield_cons. cbn [tokens_of app no_slash]. change (t_base (typed_token w)) with (fst (classify w)). cbn [In] in Cw. destruct Cw as [<-|[<-|[]]]; discriminate.
    - left. unfold sw. rewrite yield_cons. discriminate.
    - intro K. rewrite K in Fo. discriminate Fo. }
  change w with (t_text (typed_token w)). apply (to_more depth' f depth s (SS ++ [sw]) SS (typed_token w) F15_STAR g); auto.
  - now apply star_effect.
  - rewrite yield_app. intros y Hy. apply in_app_or in Hy as [Hy|Hy]; [now apply B|]. destruct Hy as [<-|[]]. unfold typed_token. cbn [t_base t_sub t_text]. now destruct (classify w).
  - rewrite Eg, Ew, yield_app, map_app. reflexivity.
Qed.
Theorem sid_put_in depth depth' f s x q rest w g : parse_field15 G depth f = Ok true s -> field_roles f = x :: (q, ROut) :: rest -> In (t_base q) [F15_POINT; F15_STAR; F15_TRUNCATE] ->
  In (fst (classify w)) [F15_SID; F15_SID_STAR] -> element_texts g = t_text (fst x) :: w :: wordsof ((q, ROut) :: rest) -> 3 * n_tokens g <= depth' + 1 ->
  exists s', parse_field15 G depth' g = Ok true s' /\ one_more w F15_SID (s_ers s') (s_ers s).
Proof.
  intros H W Bq Cw Eg Hd. destruct (roles_steps G f depth s H) as (ss & D & Y & R & B & Es). rewrite R in W.
  destruct (starts_first ss D _ _ _ W) as (t0 & s2 & r & -> & ->). cbn [derives after] in D. destruct D as (_ & P0 & F & P & D).
  change (SFirst t0 :: s2 :: r) with ([SFirst t0] ++ s2 :: r) in W. rewrite ryield_app in W. cbn [ryield flat_map rstep tokens_of map app] in W. injection W as W. change (ryield (s2 :: r) = (q, ROut) :: rest) in W.
  assert (Er2 : exists w2, rstep s2 = (q, ROut) :: w2).
  { pose proof (step_tokens _ _ _ P) as Ns. rewrite ryield_cons in W. destruct (rstep s2) as [|y w2] eqn:E; [exfalso; apply Ns; rewrite <- (rstep_fst s2), E; reflexivity|]. cbn [app] in W. injection W as -> _. eauto. }
  destruct Er2 as (w2 & Er2). set (tw := typed_token w).
  assert (Pre : derives XStart (SFirst t0 :: SSid tw :: s2 :: r) /\ ((adds s2 = true \/ (exists x, s2 = SStar x)) \/ (exists x, s2 = STrunc x))).
  { split.
    - cbn [derives after]. split; [reflexivity|]. split; [cbn [proper] in P0 |- *; destruct P0 as (A1 & A2 & _); split; [exact A1|split; [exact A2|]]; rewrite yield_cons; discriminate|].
      split; [reflexivity|]. split; [cbn [proper]; change (t_base tw) with (fst (classify w)); cbn [In] in Cw; destruct Cw as [<-|[<-|[]]]; auto|].
      destruct s2; try discriminate F; cbn [rstep tokens_of map] in Er2; injection Er2 as <- _; cbn [proper In] in P, Bq.
      + exfalso. decompose [or False] Bq; congruence.
      + split; [reflexivity|]. split; [exact P|exact D].
      + exfalso. destruct P as [P|P]; decompose [or False] Bq; congruence.
      + split; [reflexivity|]. split; [|exact D]. destruct P as ([P|(_ & P)] & P3); [|congruence]. split; [now left|exact P3].
      + split; [reflexivity|]. split; [exact P|exact D].
    - destruct s2; try discriminate F; eauto; cbn [rstep tokens_of map] in Er2; injection Er2 as <- _; cbn [proper In] in P, Bq; exfalso; [|destruct P as [P|P]]; decompose [or False] Bq; congruence. }
  destruct Pre as (D' & Ha). change w with (t_text tw). apply (to_more depth' f depth s (SFirst t0 :: SSid tw :: s2 :: r) (SFirst t0 :: s2 :: r) tw F15_SID g); auto.
  - now apply sid_effect.
  - intros y Hy. rewrite !yield_cons in Hy. cbn [tokens_of app] in Hy. destruct Hy as [<-|[<-|Hy]]; [apply B; rewrite yield_cons; now left|unfold tw, typed_token; cbn [t_base t_sub t_text]; now destruct (classify w)|]. apply B. rewrite yield_cons. right. rewrite yield_cons. exact Hy.
  - rewrite Eg, <- words_ryield. change (SFirst t0 :: SSid tw :: s2 :: r) with ([SFirst t0; SSid tw] ++ s2 :: r). rewrite ryield_app, W. reflexivity.
Qed.
End G.
