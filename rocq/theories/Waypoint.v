(** * Waypoint: a point left out or put in before another point. *)
From Coq Require Import ZArith NArith List Bool String Lia.
From Coq Require Import Floats.SpecFloat.
From Coq Require Import ZifyBool ZifyNat ZifyN.
From Verif Require Import PyBase PyFloat Enums ErrorTable Regex SyntaxTable Syntax Tokenizer Ers Utils Parser.
From Verif Require Import SpecTokenizer TokenizerProofs SpecNum ParserPrims PerfEq PointEq SyntaxProofs Trace ParseTrace ParserFacts SpecParser SpecGrammar GrammarSem Grammar SpecAccept Accept Describe AcceptFacts SpecLayout Layout SpecViable Viable Unambiguous SpecRemoval Removal SpecConnector Connector Join SpecWords Words SpecSections Sections SpecWaypoint.
Import List ListNotations.
Local Open Scope list_scope.
Local Open Scope nat_scope.

Section G.
Variable G : geodesic.
(** ** IFR somewhere after the first record *)
Definition rl (k : core) : list pstr := map r_rules (k_l k ++ [k_p k]).
Definition has (k : core) : Prop := 1 <= length (k_l k) /\ In ($"IFR") (tl (rl k)).
Lemma rl_cases j s k : (exists x, rl (eff1 G j s k) = rl k ++ [x]) \/ rl (eff1 G j s k) = rl k \/ rl (eff1 G j s k) = map r_rules (k_l k) ++ [$"IFR"].
Proof.
  assert (W : forall p, r_rules p = r_rules (k_p k) -> rl (k_with k p) = rl k) by (intros p E; unfold rl, k_with; cbn [k_l k_p]; rewrite !map_app; cbn [map]; now rewrite E).
  assert (Wi : forall p, r_rules p = r_rules (k_p k) \/ r_rules p = $"IFR" -> (exists x, rl (k_with k p) = rl k ++ [x]) \/ rl (k_with k p) = rl k \/ rl (k_with k p) = map r_rules (k_l k) ++ [$"IFR"]).
  { intros p [E|E]; right; [left; now apply W|right]. unfold rl, k_with. cbn [k_l k_p]. rewrite map_app. cbn [map]. now rewrite E. }
  assert (Sa : forall t p, r_rules (sa_eff t p) = r_rules p \/ r_rules (sa_eff t p) = $"IFR") by (intros t p; unfold sa_eff; destruct (sa_cut (t_sub t)); [right; reflexivity|now left]).
  assert (Cl : forall t p, r_rules (climb_eff t p) = r_rules p \/ r_rules (climb_eff t p) = $"IFR").
  { intros t p. unfold climb_eff, sap_eff, saa_eff. destruct (t_base t); repeat match goal with |- context [match ?x with Some _ => _ | None => _ end] => destruct x as [[]|] end; repeat match goal with q : _ * _ |- _ => destruct q end; (now left) || (right; reflexivity). }
  assert (Rp : forall t l p, map r_rules (pt_prev G t l p) = map r_rules l).
  { intros t l p. assert (Rb : forall l, map r_rules (map er_brg l) = map r_rules l) by (intro l0; rewrite map_map; apply map_ext; intros []; reflexivity).
    now rewrite <- (Rb (pt_prev G t l p)), prev_brg, Rb. }
  assert (Ad : forall l0 p0 js, map r_rules l0 = rl k -> exists x, rl (mkK l0 p0 js) = rl k ++ [x]).
  { intros l0 p0 js E. exists (r_rules p0). unfold rl at 1. cbn [k_l k_p]. rewrite map_app, E. reflexivity. }
  destruct s; cbn [eff1]; auto; try (left; unfold rule_k, add_k, pt_k, vfr_k, k_with; cbn [k_l k_p k_js]; apply Ad; rewrite ?Rp; cbn [k_l k_p]; unfold rl; rewrite ?map_app; reflexivity).
  - right. left. apply W. revert txt. assert (X : forall txt p, r_rules (texts txt p) = r_rules p).
    { induction txt as [|t txt IH]; intro p; [reflexivity|]. change (r_rules (texts txt (append_break_text (t_text t) p)) = r_rules p). rewrite IH. unfold append_break_text. destruct (pstr_eqb (r_break p) []); reflexivity. }
    intro txt. apply X.
Qed.
Lemma has_step j s k : has k -> has (eff1 G j s k).
Proof.
  intros [L I]. split; [pose proof (eff_len G j s k); lia|].
  destruct (rl_cases j s k) as [(x & E)|[E|E]]; rewrite E; [|exact I|].
  - destruct (rl k) as [|a l]; [destruct I|]. cbn [app tl] in *. apply in_or_app. now left.
  - destruct (k_l k) as [|a l]; [cbn in L; lia|]. cbn [map app tl]. apply in_or_app. right. now left.
Qed.
Lemma has_steps : forall ss j k, has k -> has (effs G j ss k).
Proof. induction ss as [|s ss IH]; intros j k H; [exact H|]. cbn [effs]. now apply IH, has_step. Qed.
Lemma derived_ifr u U x V : r_rules x = $"IFR" -> In ($"IFR") (map r_rules (U ++ V)) -> derived ((u :: U) ++ x :: V) = derived ((u :: U) ++ V).
Proof.
  intros E I. assert (Sm : forall ru, some_rules ru ((u :: U) ++ x :: V) = some_rules ru ((u :: U) ++ V)).
  { intro ru. unfold some_rules. rewrite !existsb_app. cbn [existsb]. destruct (pstr_eqb (r_rules x) ru) eqn:F; [|reflexivity]. cbn [orb].
    assert (K : existsb (fun r => pstr_eqb (r_rules r) ru) (U ++ V) = true).
    { apply existsb_exists. apply in_map_iff in I as (y & Ey & Hy). exists y. split; [exact Hy|]. now rewrite Ey, <- E. }
    rewrite existsb_app in K. destruct (pstr_eqb (r_rules u) ru), (existsb _ U), (existsb _ V); try discriminate K; reflexivity. }
  cbn [app] in *. unfold derived. now rewrite !Sm.
Qed.
(** ** The record *)
Lemma pt_rec_places t z : pt_rec G t z = set_r_lat (r_lat (pt_rec G t z)) (set_r_lon (r_lon (pt_rec G t z)) (set_r_llv (r_llv (pt_rec G t z)) z)).
Proof. unfold pt_rec, move_bd. destruct z. destruct (t_sub t); reflexivity. Qed.
Lemma point_effect ss1 q p ss2 : derives XStart (ss1 ++ SPoint q :: SPoint p :: ss2) -> (t_base q, t_sub q) = classify (t_text q) ->
  exists U y x V, result_of G (ss1 ++ SPoint q :: SPoint p :: ss2) = U ++ y :: x :: V /\
    Forall2 same_but_leg (U ++ y :: V) (result_of G (ss1 ++ SPoint p :: ss2)) /\ 2 <= length V /\
    r_name x = t_text q /\ (r_base x, r_sub x) = classify (t_text q) /\ r_rules x = $"IFR" /\ r_break x = [] /\ r_stay x = 0%Z /\ r_cto x = [] /\
    r_speed x = r_speed y /\ r_alt x = r_alt y /\ r_speed_si x = r_speed_si y /\ r_alt_si x = r_alt_si y /\
    derived (result_of G (ss1 ++ SPoint q :: SPoint p :: ss2)) = derived (result_of G (ss1 ++ SPoint p :: ss2)).
Proof.
  intros D Hq. assert (N1 : yield ss1 <> []).
  { destruct ss1 as [|x ss1]; [cbn [app derives] in D; destruct D as (K & _); discriminate K|]. cbn [app derives] in D. destruct D as (_ & Px & _). apply step_tokens in Px. rewrite yield_cons. destruct (tokens_of x); [congruence|discriminate]. }
  unfold result_of. rewrite <- (vfr_first_same ss1 (SPoint q :: SPoint p :: ss2) (SPoint p :: ss2) N1). set (v := is_vfr_first _).
  rewrite !effs_app. set (k0 := effs G 0 ss1 core0). cbn [effs].
  set (j := 0 + length (yield ss1)). set (j1 := j + length (tokens_of (SPoint q))).
  set (kb := eff1 G j (SPoint q) k0). set (A := map er_brg (k_l k0 ++ [k_p k0])). set (r := er_brg (k_p kb)).
  assert (Ekb : exists la lo b, k_p kb = set_r_lat la (set_r_lon lo (set_r_llv b (set_r_rules ($"IFR") (carry (k_p k0) (tok_rec q)))))).
  { unfold kb. cbn [eff1]. unfold pt_k, rule_k, add_k, k_with. cbn [k_l k_p k_js]. set (z := set_r_rules RULE_I (carry (k_p k0) (tok_rec q))).
    exists (r_lat (pt_rec G q z)), (r_lon (pt_rec G q z)), (r_llv (pt_rec G q z)). change (set_r_rules ($"IFR") (carry (k_p k0) (tok_rec q))) with z.
    apply pt_rec_places. }
  destruct Ekb as (la & lo & bv & Ekb).
  assert (R1 : Rel A r (eff1 G j1 (SPoint p) kb) (eff1 G j (SPoint p) k0)).
  { cbn [eff1]. apply Rel_pt. exists []. unfold A, r. unfold rule_k, add_k, k_with. cbn [k_l k_p k_js]. split; [|split].
    - rewrite !map_app. cbn [map]. f_equal. unfold kb. cbn [eff1]. unfold pt_k, rule_k, add_k, k_with. cbn [k_l k_p k_js]. rewrite prev_brg, map_app. reflexivity.
    - rewrite leg_of_brg. cbn [map]. now rewrite app_nil_r.
    - rewrite Ekb. destruct (k_p k0), p. reflexivity. }
  pose proof (Rel_steps G A r ss2 (j1 + length (tokens_of (SPoint p))) (j + length (tokens_of (SPoint p))) _ _ R1) as R2.
  destruct (Rel_split v A r _ _ R2) as (U & x & V & F1 & F0 & F2 & F3 & F4); [unfold A; destruct (k_l k0); discriminate|].
  assert (Eu : exists U0 y, U = U0 ++ [y] /\ r_speed y = r_speed (k_p k0) /\ r_alt y = r_alt (k_p k0) /\ r_speed_si y = r_speed_si (k_p k0) /\ r_alt_si y = r_alt_si (k_p k0)).
  { unfold A in F0. rewrite map_app in F0. cbn [map] in F0. destruct (k_l k0) as [|a l]; cbn [map app] in F0.
    - destruct v; cbn [upd_first list_upd] in F0; apply (map_split er_brg U [] _ []) in F0 as (A0 & y & B0 & -> & Ea & Eq & Eb); apply map_eq_nil in Ea; apply map_eq_nil in Eb; subst A0 B0; exists [], y;
        (split; [reflexivity|]); destruct y, (k_p k0); injection Eq; intros; subst; repeat split.
    - assert (F0' : map er_brg U = upd_first v (er_brg a :: map er_brg l) ++ [er_brg (k_p k0)]) by (rewrite F0; apply (upd_first_app v (er_brg a) (map er_brg l) [er_brg (k_p k0)])).
      apply map_split in F0' as (A0 & y & B0 & -> & _ & Eq & Eb). apply map_eq_nil in Eb. subst B0. exists A0, y. split; [reflexivity|]. destruct y, (k_p k0). injection Eq. intros. subst. repeat split. }
  destruct Eu as (U0 & y & -> & Q1 & Q2 & Q3 & Q4). exists U0, y, x, V.
  assert (Hx : forall X (h : rrec -> X), (forall z, h (er_brg z) = h z) -> h x = h (k_p kb)) by (intros X h Hh; rewrite <- (Hh x), F2; unfold r; apply Hh).
  assert (Er : r_rules x = $"IFR") by (rewrite (Hx _ r_rules) by reflexivity; now rewrite Ekb).
  split; [rewrite F1, <- app_assoc; reflexivity|]. split; [rewrite <- app_assoc in F4; exact F4|]. split; [exact F3|].
  split; [rewrite (Hx _ r_name) by reflexivity; now rewrite Ekb|]. split; [rewrite (Hx _ r_base), (Hx _ r_sub) by reflexivity; rewrite Ekb; exact Hq|]. split; [exact Er|].
  split; [rewrite (Hx _ r_break) by reflexivity; now rewrite Ekb|]. split; [rewrite (Hx _ r_stay) by reflexivity; now rewrite Ekb|].
  split; [rewrite (Hx _ r_cto) by reflexivity; now rewrite Ekb|].
  split; [rewrite (Hx _ r_speed) by reflexivity; rewrite Ekb; symmetry; exact Q1|]. split; [rewrite (Hx _ r_alt) by reflexivity; rewrite Ekb; symmetry; exact Q2|].
  split; [rewrite (Hx _ r_speed_si) by reflexivity; rewrite Ekb; symmetry; exact Q3|]. split; [rewrite (Hx _ r_alt_si) by reflexivity; rewrite Ekb; symmetry; exact Q4|].
  rewrite F1. set (k' := effs G (j + length (tokens_of (SPoint p))) ss2 (eff1 G j (SPoint p) k0)) in *.
  assert (Ef : map r_rules ((U0 ++ [y]) ++ V) = map r_rules (core_final v k')).
  { clear -F4. induction F4 as [|a1 b1 la lb H _ IH]; [reflexivity|]. cbn [map]. f_equal; [apply H|exact IH]. }
  rewrite <- (derived_rules _ _ Ef).
  assert (Hs : has k').
  { apply has_steps. split.
    - cbn [eff1]. unfold pt_k, rule_k, add_k, k_with. cbn [k_l k_p]. rewrite pt_prev_length, app_length. cbn [length]. lia.
    - cbn [eff1]. unfold rl, pt_k, rule_k, add_k, k_with. cbn [k_l k_p]. rewrite map_app. cbn [map]. rewrite pt_rec_rule. cbn [r_rules set_r_rules].
      destruct (map r_rules (pt_prev G p (k_l k0 ++ [k_p k0]) (set_r_rules RULE_I (carry (k_p k0) (tok_rec p))))) as [|b l] eqn:E.
      + exfalso. apply (f_equal (@length _)) in E. rewrite map_length, pt_prev_length, app_length in E. cbn [length] in E. lia.
      + cbn [app tl]. apply in_or_app. right. now left. }
  assert (In' : In ($"IFR") (tl (map r_rules ((U0 ++ [y]) ++ V)))).
  { rewrite Ef. destruct Hs as [Hl Hi]. unfold rl in Hi. unfold core_final. rewrite core_recs_eq. destruct (k_l k') as [|a l]; [cbn in Hl; lia|]. cbn [app map tl] in Hi.
    rewrite map_app. destruct v; cbn [upd_first list_upd app map tl]; apply in_or_app; now left. }
  destruct U0 as [|u U0]; [apply (derived_ifr y [] x V Er In')|apply (derived_ifr u (U0 ++ [y]) x V Er In')].
Qed.
Lemma point_result ss1 q p ss2 x x' : derives XStart (ss1 ++ SPoint q :: SPoint p :: ss2) -> (t_base q, t_sub q) = classify (t_text q) ->
  map er_rec (e_recs x) = map er_rec (result_of G (ss1 ++ SPoint q :: SPoint p :: ss2)) -> map er_rec (e_recs x') = map er_rec (result_of G (ss1 ++ SPoint p :: ss2)) ->
  e_errs x = [] -> e_errs x' = [] -> e_rules x = derived (result_of G (ss1 ++ SPoint q :: SPoint p :: ss2)) -> e_rules x' = derived (result_of G (ss1 ++ SPoint p :: ss2)) ->
  one_point (t_text q) x x'.
Proof.
  intros D Hk E1 E2 E3 E4 E5 E6. destruct (point_effect ss1 q p ss2 D Hk) as (U & y & r & V & K1 & K2 & K3 & K4 & K5 & K6 & K7 & K8 & K9 & K10 & K11 & K12 & K13 & K14).
  rewrite K1, map_app in E1. cbn [map] in E1. apply map_split in E1 as (U' & q' & W' & Ex & EU & Eq & EW). apply (map_split er_rec W' [] (er_rec r)) in EW as (Z & r' & V' & -> & Ez & Er & EV). apply map_eq_nil in Ez. subst Z.
  exists U', q', r', V'. split; [exact Ex|].
  assert (Tr : forall l m l' m', Forall2 same_but_leg l m -> map er_rec l' = map er_rec l -> map er_rec m' = map er_rec m -> Forall2 same_but_leg l' m').
  { clear. intros l m l' m' HF. revert l' m'. induction HF as [|y z l m H HF IH]; intros l' m' E1 E2; destruct l' as [|y' l'], m' as [|z' m']; try discriminate; constructor.
    - cbn [map] in E1, E2. assert (Q : er_rec y' = er_rec y) by exact (f_equal (hd (er_rec y')) E1). assert (Q' : er_rec z' = er_rec z) by exact (f_equal (hd (er_rec z')) E2). apply er_same in Q, Q'. unfold same_but_place, same_but_leg in *. decompose [and] Q. decompose [and] Q'. decompose [and] H. repeat split; congruence.
    - apply IH; [exact (f_equal (@tl _) E1)|exact (f_equal (@tl _) E2)]. }
  split; [apply (Tr _ _ _ _ K2); [rewrite !map_app; cbn [map]; now rewrite EU, Eq, EV|exact E2]|].
  split; [rewrite <- (map_length er_rec), EV, map_length; exact K3|].
  apply er_same in Eq. apply er_same in Er. unfold same_but_place in Eq, Er. decompose [and] Eq. decompose [and] Er. rewrite E3, E4, E5, E6, <- K5. repeat split; try congruence.
Qed.

(** ** Where a point may stand *)
Lemma not_after_text ss1 s2 rest c pre x : derives XStart (ss1 ++ s2 :: rest) -> c = fold_left after ss1 XStart -> ryield ss1 = pre ++ [x] -> may_precede x false -> forall k, c <> XBreak k.
Proof.
  intros D Ec Ep (Hx & _) k K. destruct (snoc_ind_ctx ss1) as [->|(ss0 & s1 & ->)]; [destruct pre; discriminate|].
  destruct (derives_last _ _ _ _ D) as (F0 & P0). rewrite fold_left_app in Ec. cbn [fold_left] in Ec. pose proof (last_is _ _ F0) as Li. rewrite <- Ec, K in Li. destruct Li as (u & ->).
    rewrite ryield_app in Ep. unfold ryield in Ep at 2. cbn [flat_map rstep] in Ep. rewrite app_nil_r in Ep. cbn [proper] in P0. destruct P0 as (Nu & _).
    destruct (exists_last Nu) as (u1 & u2 & ->). rewrite map_app, app_assoc in Ep. cbn [map] in Ep. apply app_inj_tail in Ep as (_ & <-). discriminate Hx.
Qed.
Lemma route_ctx ss1 s2 rest c pre x b : derives XStart (ss1 ++ s2 :: rest) -> c = fold_left after ss1 XStart -> ryield ss1 = pre ++ [x] -> may_precede x b -> c = XRoute -> b = false.
Proof.
  intros D Ec Ep (Hx & Hb) K. destruct (snoc_ind_ctx ss1) as [->|(ss0 & s1 & ->)]; [destruct pre; discriminate|].
  destruct (derives_last _ _ _ _ D) as (F0 & P0). rewrite fold_left_app in Ec. cbn [fold_left] in Ec. pose proof (last_is _ _ F0) as Li. rewrite <- Ec, K in Li. destruct Li as (u & ->).
  rewrite ryield_app in Ep. unfold ryield in Ep at 2. cbn [flat_map rstep tokens_of map app] in Ep. apply app_inj_tail in Ep as (_ & <-). cbn [proper] in P0. apply Hb. exact P0.
Qed.
Definition point_place (c : ctx) : Prop := match c with XAdep | XDct | XRoute | XC | XSid | XStay | XPoint _ => True | _ => False end.
Lemma place_of_point c t st : follows c st = true -> (st = SPoint t \/ st = SRejoin t) -> (forall k, c <> XBreak k) -> st = SPoint t /\ point_place c.
Proof. intros F [-> | ->] N; destruct c as [| | | | | | | | |k|k| | |]; try discriminate F; try (now destruct (N k)); split; (reflexivity || exact Logic.I). Qed.
Lemma point_fits c t : point_place c -> (c = XRoute -> computed_point (t_sub t) = false) -> follows c (SPoint t) = true /\ after c (SPoint t) = XPoint (computed_point (t_sub t)) /\ c <> XEnd /\ halfway c = false.
Proof. intros P H. destruct c; try destruct P; cbn [follows after halfway]; try rewrite (H eq_refl); repeat split; discriminate. Qed.

Theorem point_put_in depth depth' f s pre x p rest w g : parse_field15 G depth f = Ok true s ->
  field_roles f = pre ++ x :: (p, ROut) :: rest -> t_base p = F15_POINT -> may_precede x (computed_point (snd (classify w))) -> good_point w ->
  element_texts g = wordsof (pre ++ [x]) ++ w :: wordsof ((p, ROut) :: rest) -> 3 * n_tokens g <= depth' + 1 ->
  exists s', parse_field15 G depth' g = Ok true s' /\ one_point w (s_ers s') (s_ers s).
Proof.
  intros H W Bp Mx (Gw & Aw) Eg Hd. destruct (roles_steps G f depth s H) as (ss & D & Y & R & B & Es). rewrite R in W.
  change (pre ++ x :: (p, ROut) :: rest) with (pre ++ [x] ++ (p, ROut) :: rest) in W. rewrite app_assoc in W.
  destruct (locate ss XStart _ _ _ D W) as (c & st & ss1 & ss2 & a & b & Ess & Er & Ep & Et & F & P & D2 & Ec). subst ss.
  destruct (point_step _ _ _ _ _ _ P Er Bp) as (Hst & -> & ->). rewrite app_nil_r in Ep. cbn [app] in Et. subst rest. symmetry in Ep.
  assert (Nb : forall k, c <> XBreak k) by (apply (not_after_text ss1 st ss2 c pre x D Ec Ep); split; [apply Mx|reflexivity]).
  destruct (place_of_point c p st F Hst Nb) as (-> & Pc). clear Hst. set (q := typed_token w).
  destruct (point_fits c q Pc) as (Fq & Aq & Nx & Nh); [intro K; exact (route_ctx ss1 _ _ c pre x _ D Ec Ep Mx K)|].
  assert (Ap : after c (SPoint p) = XPoint (computed_point (t_sub p))) by (apply point_fits; [exact Pc|intros ->; cbn [follows] in F; now destruct (computed_point (t_sub p))]).
  assert (D' : derives XStart (ss1 ++ SPoint q :: SPoint p :: ss2)).
  { apply (exchange ss1 XStart _ _ D); rewrite <- ?Ec.
    - cbn [derives]. split; [exact Fq|]. split; [cbn [proper]; split; [exact Gw|exact Aw]|]. rewrite Aq. split; [reflexivity|]. split; [exact P|]. cbn [after]. rewrite Ap in D2. exact D2.
    - now left.
    - intros _. rewrite yield_cons. cbn [tokens_of app no_slash q typed_token t_base]. rewrite Gw. discriminate.
    - left. rewrite yield_cons. discriminate.
    - exact Nx. }
  assert (Ty : (t_base q, t_sub q) = classify (t_text q)) by (cbn [q t_base t_sub t_text typed_token]; now rewrite <- surjective_pairing).
  assert (B1 : by_text (yield (ss1 ++ SPoint q :: SPoint p :: ss2))).
  { intros t Ht. rewrite yield_app in B, Ht. rewrite yield_cons in B. rewrite !yield_cons in Ht. cbn [tokens_of] in *. rewrite !in_app_iff in Ht. destruct Ht as [Ht|[[<-|[]]|Ht]]; [apply B; rewrite !in_app_iff; tauto|exact Ty|apply B; rewrite !in_app_iff; tauto]. }
  destruct (parse_steps G depth' _ g D' B1) as (s' & Hp & E1 & E2 & E3); [|exact Hd|].
  { rewrite Eg, <- Ep, yield_app, !yield_cons. cbn [tokens_of]. rewrite !map_app, <- !words_ryield. cbn [map app q typed_token t_text]. reflexivity. }
  exists s'. split; [exact Hp|]. apply (point_result ss1 q p ss2); try assumption; rewrite Es; reflexivity.
Qed.
Theorem point_left_out depth depth' f s pre x q p rest g : parse_field15 G depth f = Ok true s ->
  field_roles f = pre ++ x :: (q, ROut) :: (p, ROut) :: rest -> t_base q = F15_POINT -> t_base p = F15_POINT -> may_precede x (computed_point (t_sub p)) ->
  element_texts g = wordsof (pre ++ [x]) ++ wordsof ((p, ROut) :: rest) -> 3 * n_tokens g <= depth' + 1 ->
  exists s', parse_field15 G depth' g = Ok true s' /\ one_point (t_text q) (s_ers s) (s_ers s').
Proof.
  intros H W Bq Bp Mx Eg Hd. destruct (roles_steps G f depth s H) as (ss & D & Y & R & B & Es). rewrite R in W.
  change (pre ++ x :: (q, ROut) :: (p, ROut) :: rest) with (pre ++ [x] ++ (q, ROut) :: (p, ROut) :: rest) in W. rewrite app_assoc in W.
  destruct (locate ss XStart _ _ _ D W) as (c & st & ss1 & ss2 & a & b & Ess & Er & Ep & Et & F & P & D2 & Ec). subst ss.
  destruct (point_step _ _ _ _ _ _ P Er Bq) as (Hst & -> & ->). rewrite app_nil_r in Ep. cbn [app] in Et. symmetry in Ep.
  assert (Nb : forall k, c <> XBreak k) by (apply (not_after_text ss1 st ss2 c pre x D Ec Ep); split; [apply Mx|reflexivity]).
  destruct (place_of_point c q st F Hst Nb) as (-> & Pc). clear Hst.
  assert (Aq : after c (SPoint q) = XPoint (computed_point (t_sub q))) by (apply point_fits; [exact Pc|intros ->; cbn [follows] in F; now destruct (computed_point (t_sub q))]).
  rewrite Aq in D2. destruct ss2 as [|st2 ss2]; [discriminate Et|]. cbn [derives] in D2. destruct D2 as (F2 & P2 & D2).
  assert (Hs : st2 = SPoint p /\ rest = ryield ss2).
  { rewrite ryield_cons in Et. destruct st2; try discriminate F2; cbn [rstep tokens_of map app] in Et; injection Et; intros; subst; cbn [proper] in P2; auto; exfalso;
      repeat match goal with H : _ /\ _ |- _ => destruct H | H : _ \/ _ |- _ => destruct H end; congruence. }
  destruct Hs as (-> & ->). clear Et. cbn [after] in D2.
  destruct (point_fits c p Pc) as (Fp & Ap & Nx & Nh); [intro K; exact (route_ctx ss1 _ _ c pre x _ D Ec Ep Mx K)|].
  assert (D' : derives XStart (ss1 ++ SPoint p :: ss2)).
  { apply (exchange ss1 XStart _ _ D); rewrite <- ?Ec.
    - cbn [derives]. split; [exact Fp|]. split; [exact P2|]. rewrite Ap. exact D2.
    - now left.
    - intros _. rewrite yield_cons. cbn [tokens_of app no_slash]. rewrite Bp. discriminate.
    - left. rewrite yield_cons. discriminate.
    - exact Nx. }
  assert (B1 : by_text (yield (ss1 ++ SPoint p :: ss2))).
  { intros t Ht. apply B. rewrite yield_app in Ht. rewrite yield_app, !yield_cons. rewrite yield_cons in Ht. rewrite !in_app_iff in *. tauto. }
  destruct (parse_steps G depth' _ g D' B1) as (s' & Hp & E1 & E2 & E3); [|exact Hd|].
  { rewrite Eg, <- Ep, yield_app, yield_cons. rewrite map_app, <- words_ryield. cbn [tokens_of]. rewrite map_app, <- words_ryield. reflexivity. }
  exists s'. split; [exact Hp|]. apply (point_result ss1 q p ss2); try assumption; try (rewrite Es; reflexivity).
  apply B. rewrite yield_app, yield_cons. rewrite !in_app_iff. right. left. now left.
Qed.
End G.
