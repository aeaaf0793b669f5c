(** * Sections: a section left out or put in. *)
From Coq Require Import ZArith NArith List Bool String Lia.
From Coq Require Import Floats.SpecFloat.
From Coq Require Import ZifyBool ZifyNat ZifyN.
From Verif Require Import PyBase PyFloat Enums ErrorTable Regex SyntaxTable Syntax Tokenizer Ers Utils Parser.
From Verif Require Import SpecTokenizer TokenizerProofs SpecNum ParserPrims PerfEq PointEq SyntaxProofs Trace ParseTrace ParserFacts SpecParser SpecGrammar GrammarSem Grammar SpecAccept Accept Describe AcceptFacts SpecLayout Layout SpecViable Viable Unambiguous SpecRemoval Removal SpecConnector Connector Join SpecWords Words SpecSections.
Import List ListNotations.
Local Open Scope list_scope.
Local Open Scope nat_scope.

Section G.
Variable G : geodesic.
(** ** Records *)
Lemma Rel_split (v : bool) A r k k' : Rel A r k k' -> A <> [] ->
  exists U x V, core_final v k = U ++ x :: V /\ map er_brg U = upd_first v A /\ er_brg x = r /\ 2 <= length V /\ Forall2 same_but_leg (U ++ V) (core_final v k').
Proof.
  intros (B & E1 & E2 & E3) Na. apply map_split in E1 as (A0 & x & B0 & El & EA & Ex & EB). destruct A0 as [|a0 A0]; [cbn in EA; congruence|].
  assert (Ek : core_recs v k = upd_first v (a0 :: A0) ++ x :: B0 ++ [k_p k]).
  { rewrite core_recs_eq, El, <- app_assoc. apply (upd_first_app v a0 A0). }
  assert (Ek' : map er_leg (core_recs v k') = map er_leg (upd_first v (a0 :: A0) ++ B0 ++ [k_p k])).
  { rewrite core_recs_eq, <- (upd_first_app v a0 A0). apply upd_first_leg. rewrite !map_app, E2, <- EA, <- EB. cbn [map]. rewrite er_twice, E3, !leg_of_brg. rewrite <- !app_assoc. reflexivity. }
  assert (Ea' : er_leg (ades_rec (core_recs v k')) = er_leg (ades_rec (core_recs v k))).
  { pose proof (last_leg _ _ adep0 Ek') as K. unfold ades_rec. assert (Q : r_rules (last (core_recs v k') adep0) = r_rules (last (core_recs v k) adep0)); [|now rewrite Q].
    transitivity (r_rules (last (upd_first v (a0 :: A0) ++ B0 ++ [k_p k]) adep0)); [apply (same_leg _ _ K)|]. rewrite Ek. f_equal. rewrite app_assoc.
    change (x :: B0 ++ [k_p k]) with ((x :: B0) ++ [k_p k]). rewrite app_assoc, !last_last. reflexivity. }
  exists (upd_first v (a0 :: A0)), x, (B0 ++ [k_p k] ++ [ades_rec (core_recs v k)]).
  assert (Ef : core_final v k = upd_first v (a0 :: A0) ++ x :: (B0 ++ [k_p k] ++ [ades_rec (core_recs v k)])).
  { unfold core_final. rewrite Ek at 1. rewrite <- app_assoc. cbn [app]. rewrite <- app_assoc. reflexivity. }
  assert (Eg : map er_leg (core_final v k') = map er_leg (upd_first v (a0 :: A0) ++ (B0 ++ [k_p k] ++ [ades_rec (core_recs v k)]))).
  { unfold core_final. rewrite map_app, Ek'. rewrite !map_app. cbn [map]. rewrite Ea', <- !app_assoc. reflexivity. }
  split; [exact Ef|]. split; [rewrite <- EA; destruct v; cbn [upd_first list_upd map]; [f_equal; destruct a0; reflexivity|reflexivity]|]. split; [exact Ex|]. split; [rewrite !app_length; cbn [length]; lia|]. apply same_legs; now symmetry.
Qed.
Lemma derived_other u U x V : r_rules x <> $"VFR" -> r_rules x <> $"IFR" -> derived ((u :: U) ++ x :: V) = derived ((u :: U) ++ V).
Proof.
  intros H1 H2. assert (Sm : forall ru, r_rules x <> ru -> some_rules ru ((u :: U) ++ x :: V) = some_rules ru ((u :: U) ++ V)).
  { intros ru N. unfold some_rules. rewrite !existsb_app. cbn [existsb]. destruct (pstr_eqb (r_rules x) ru) eqn:E; [apply pstr_eqb_eq in E; contradiction|reflexivity]. }
  cbn [app] in *. unfold derived. now rewrite !Sm.
Qed.
Lemma carry_perf q r : r_speed (carry q r) = r_speed q /\ r_alt (carry q r) = r_alt q /\ r_speed_si (carry q r) = r_speed_si q /\ r_alt_si (carry q r) = r_alt_si q.
Proof. destruct q, r. repeat split. Qed.
Lemma section_effect ss1 b k txt p ss2 : derives XStart (ss1 ++ SBreak b :: SText txt :: SPoint p :: ss2) -> begins (t_sub b) = Some k -> Forall (fun s => s <> []) (map t_text txt) ->
  exists U q x V, result_of G (ss1 ++ SBreak b :: SText txt :: SPoint p :: ss2) = U ++ q :: x :: V /\
    Forall2 same_but_leg (U ++ q :: V) (result_of G (ss1 ++ SPoint p :: ss2)) /\ 2 <= length V /\
    r_name x = t_text b /\ r_base x = F15_BREAK_START /\ r_rules x = rules_within k /\ r_break x = joined (map t_text txt) /\ r_llv x = false /\ r_stay x = 0%Z /\ r_cto x = [] /\
    r_speed x = r_speed q /\ r_alt x = r_alt q /\ r_speed_si x = r_speed_si q /\ r_alt_si x = r_alt_si q /\
    (k <> KVfr -> derived (result_of G (ss1 ++ SBreak b :: SText txt :: SPoint p :: ss2)) = derived (result_of G (ss1 ++ SPoint p :: ss2))).
Proof.
  intros D Hk Nt. assert (N1 : yield ss1 <> []).
  { destruct ss1 as [|x ss1]; [cbn [app derives] in D; destruct D as (K & _); discriminate K|]. cbn [app derives] in D. destruct D as (_ & Px & _). apply step_tokens in Px. rewrite yield_cons. destruct (tokens_of x); [congruence|discriminate]. }
  assert (Bb : t_base b = F15_BREAK_START) by (apply derives_app in D; cbn [derives proper] in D; tauto).
  unfold result_of. rewrite <- (vfr_first_same ss1 (SBreak b :: SText txt :: SPoint p :: ss2) (SPoint p :: ss2) N1). set (v := is_vfr_first _).
  rewrite !effs_app. set (k0 := effs G 0 ss1 core0). cbn [effs].
  set (j := 0 + length (yield ss1)). set (j1 := j + length (tokens_of (SBreak b))). set (j2 := j1 + length (tokens_of (SText txt))).
  set (kb := eff1 G j1 (SText txt) (eff1 G j (SBreak b) k0)).
  set (A := map er_brg (k_l k0 ++ [k_p k0])). set (r := er_brg (k_p kb)).
  assert (R1 : Rel A r (eff1 G j2 (SPoint p) kb) (eff1 G j (SPoint p) k0)).
  { cbn [eff1]. apply Rel_pt. exists []. unfold A, r, kb. cbn [eff1 rule_k add_k k_with k_l k_p k_js]. split; [|split].
    - rewrite !map_app. reflexivity.
    - rewrite leg_of_brg. cbn [map]. now rewrite app_nil_r.
    - rewrite texts_set. destruct (k_p k0). reflexivity. }
  pose proof (Rel_steps G A r ss2 (j2 + length (tokens_of (SPoint p))) (j + length (tokens_of (SPoint p))) _ _ R1) as R2.
  destruct (Rel_split v A r _ _ R2) as (U & x & V & F1 & F0 & F2 & F3 & F4); [unfold A; destruct (k_l k0); discriminate|].
  assert (Eu : exists U0 q, U = U0 ++ [q] /\ r_speed q = r_speed (k_p k0) /\ r_alt q = r_alt (k_p k0) /\ r_speed_si q = r_speed_si (k_p k0) /\ r_alt_si q = r_alt_si (k_p k0)).
  { unfold A in F0. rewrite map_app in F0. cbn [map] in F0. destruct (k_l k0) as [|a l]; cbn [map app] in F0.
    - destruct v; cbn [upd_first list_upd] in F0; apply (map_split er_brg U [] _ []) in F0 as (A0 & q & B0 & -> & Ea & Eq & Eb); apply map_eq_nil in Ea; apply map_eq_nil in Eb; subst A0 B0; exists [], q;
        (split; [reflexivity|]); destruct q, (k_p k0); injection Eq; intros; subst; repeat split.
    - assert (F0' : map er_brg U = upd_first v (er_brg a :: map er_brg l) ++ [er_brg (k_p k0)]) by (rewrite F0; apply (upd_first_app v (er_brg a) (map er_brg l) [er_brg (k_p k0)])).
      apply map_split in F0' as (A0 & q & B0 & -> & _ & Eq & Eb). apply map_eq_nil in Eb. subst B0. exists A0, q. split; [reflexivity|]. destruct q, (k_p k0). injection Eq. intros. subst. repeat split. }
  destruct Eu as (U0 & q & -> & Q1 & Q2 & Q3 & Q4). exists U0, q, x, V.
  assert (Hx : forall X (h : rrec -> X), (forall y, h (er_brg y) = h y) -> h x = h (k_p kb)) by (intros X h Hh; rewrite <- (Hh x), F2; unfold r; apply Hh).
  assert (Ekb : k_p kb = set_r_break (joined (map t_text txt)) (set_r_rules (break_rule (t_sub b)) (carry (k_p k0) (tok_rec b)))).
  { unfold kb. cbn [eff1 rule_k add_k k_with k_l k_p k_js]. rewrite texts_set. f_equal. exact (texts_break txt (set_r_rules (break_rule (t_sub b)) (carry (k_p k0) (tok_rec b))) [] (Forall_nil _) Nt eq_refl). }
  assert (Er : r_rules x = rules_within k) by (rewrite (Hx _ r_rules) by reflexivity; rewrite Ekb; cbn; unfold break_rule; rewrite Hk; destruct k; reflexivity).
  split; [rewrite F1, <- app_assoc; reflexivity|]. split; [rewrite <- app_assoc in F4; exact F4|]. split; [exact F3|].
  split; [rewrite (Hx _ r_name) by reflexivity; now rewrite Ekb|]. split; [rewrite (Hx _ r_base) by reflexivity; rewrite Ekb; exact Bb|]. split; [exact Er|].
  split; [rewrite (Hx _ r_break) by reflexivity; now rewrite Ekb|]. split; [rewrite (Hx _ r_llv) by reflexivity; now rewrite Ekb|]. split; [rewrite (Hx _ r_stay) by reflexivity; now rewrite Ekb|].
  split; [rewrite (Hx _ r_cto) by reflexivity; now rewrite Ekb|].
  split; [rewrite (Hx _ r_speed) by reflexivity; rewrite Ekb; symmetry; exact Q1|]. split; [rewrite (Hx _ r_alt) by reflexivity; rewrite Ekb; symmetry; exact Q2|].
  split; [rewrite (Hx _ r_speed_si) by reflexivity; rewrite Ekb; symmetry; exact Q3|]. split; [rewrite (Hx _ r_alt_si) by reflexivity; rewrite Ekb; symmetry; exact Q4|].
  intro Nk. rewrite F1. assert (Ef : map r_rules ((U0 ++ [q]) ++ V) = map r_rules (core_final v (effs G (j + length (tokens_of (SPoint p))) ss2 (eff1 G j (SPoint p) k0)))).
  { clear -F4. induction F4 as [|a1 b1 la lb H _ IH]; [reflexivity|]. cbn [map]. f_equal; [apply H|exact IH]. }
  rewrite <- (derived_rules _ _ Ef). destruct U0 as [|u U0]; [apply (derived_other q [] x V)|apply (derived_other u (U0 ++ [q]) x V)]; rewrite Er; destruct k; try congruence; discriminate.
Qed.
Lemma section_result ss1 b k txt p ss2 x x' : derives XStart (ss1 ++ SBreak b :: SText txt :: SPoint p :: ss2) -> begins (t_sub b) = Some k -> Forall (fun s => s <> []) (map t_text txt) ->
  map er_rec (e_recs x) = map er_rec (result_of G (ss1 ++ SBreak b :: SText txt :: SPoint p :: ss2)) -> map er_rec (e_recs x') = map er_rec (result_of G (ss1 ++ SPoint p :: ss2)) ->
  e_errs x = [] -> e_errs x' = [] -> e_rules x = derived (result_of G (ss1 ++ SBreak b :: SText txt :: SPoint p :: ss2)) -> e_rules x' = derived (result_of G (ss1 ++ SPoint p :: ss2)) ->
  one_section k (t_text b) (map t_text txt) x x'.
Proof.
  intros D Hk Nt E1 E2 E3 E4 E5 E6. destruct (section_effect ss1 b k txt p ss2 D Hk Nt) as (U & q & r & V & K1 & K2 & K3 & K4 & K5 & K6 & K7 & K8 & K9 & K10 & K11 & K12 & K13 & K14 & K15).
  rewrite K1, map_app in E1. cbn [map] in E1. apply map_split in E1 as (U' & q' & W' & Ex & EU & Eq & EW). apply (map_split er_rec W' [] (er_rec r)) in EW as (Z & r' & V' & -> & Ez & Er & EV). apply map_eq_nil in Ez. subst Z.
  exists U', q', r', V'. split; [exact Ex|].
  assert (Tr : forall l m l' m', Forall2 same_but_leg l m -> map er_rec l' = map er_rec l -> map er_rec m' = map er_rec m -> Forall2 same_but_leg l' m').
  { clear. intros l m l' m' HF. revert l' m'. induction HF as [|y z l m H HF IH]; intros l' m' E1 E2; destruct l' as [|y' l'], m' as [|z' m']; try discriminate; constructor.
    - cbn [map] in E1, E2. assert (Q : er_rec y' = er_rec y) by exact (f_equal (hd (er_rec y')) E1). assert (Q' : er_rec z' = er_rec z) by exact (f_equal (hd (er_rec z')) E2). apply er_same in Q, Q'. unfold same_but_place, same_but_leg in *. decompose [and] Q. decompose [and] Q'. decompose [and] H. repeat split; congruence.
    - apply IH; [exact (f_equal (@tl _) E1)|exact (f_equal (@tl _) E2)]. }
  split; [apply (Tr _ _ _ _ K2); [rewrite !map_app; cbn [map]; now rewrite EU, Eq, EV|exact E2]|].
  split; [rewrite <- (map_length er_rec), EV, map_length; exact K3|].
  apply er_same in Eq. apply er_same in Er. unfold same_but_place in Eq, Er. decompose [and] Eq. decompose [and] Er. rewrite E3, E4, E5, E6. repeat split; try congruence. exact K15.
Qed.
Lemma break_step s c r a t b : proper c s r -> rstep s = a ++ (t, ROut) :: b -> t_base t = F15_BREAK_START -> s = SBreak t /\ a = [] /\ b = [].
Proof.
  intros P E B. destruct s; cbn [rstep tokens_of map] in E; try (apply text_role in E; discriminate); one_of E; cbn [proper] in P; try discriminate; auto;
    repeat match goal with H : _ /\ _ |- _ => destruct H | H : _ \/ _ |- _ => destruct H end; try congruence;
    try (destruct a; discriminate).
Qed.
Lemma run_same : forall (txt txt' : list token) p q x y, map (fun t => (t, RText)) txt ++ (p, ROut) :: x = map (fun t => (t, RText)) txt' ++ (q, ROut) :: y -> txt = txt' /\ p = q /\ x = y.
Proof.
  induction txt as [|t txt IH]; intros [|t' txt'] p q x y E; cbn [map app] in E; try discriminate E; [injection E as -> ->; auto|]. injection E as <- E. apply IH in E as (-> & -> & ->). auto.
Qed.
Theorem section_left_out depth depth' f s pre b txt p rest g : parse_field15 G depth f = Ok true s ->
  field_roles f = pre ++ (b, ROut) :: map (fun t => (t, RText)) txt ++ (p, ROut) :: rest -> t_base b = F15_BREAK_START -> ~ then_vfr rest ->
  element_texts g = wordsof pre ++ wordsof ((p, ROut) :: rest) -> 3 * n_tokens g <= depth' + 1 ->
  exists s' k, begins (t_sub b) = Some k /\ parse_field15 G depth' g = Ok true s' /\ one_section k (t_text b) (map t_text txt) (s_ers s) (s_ers s').
Proof.
  intros H W Bb Nv Eg Hd. destruct (roles_steps G f depth s H) as (ss & D & Y & R & B & Es). rewrite R in W.
  destruct (locate ss XStart _ _ _ D W) as (c & st & ss1 & ss2 & a & b' & Ess & Er & Ep & Et & F & P & D2 & Ec). subst ss.
  destruct (break_step _ _ _ _ _ _ P Er Bb) as (-> & -> & ->). rewrite app_nil_r in Ep. cbn [app] in Et. cbn [proper] in P. destruct P as (_ & P). cbn [after] in D2.
  destruct (begins (t_sub b)) as [k|] eqn:Hk; [|congruence]. clear P.
  destruct ss2 as [|s2 ss2]; [destruct txt; discriminate Et|]. cbn [derives] in D2. destruct D2 as (F2 & P2 & D2). destruct s2; try discriminate F2. rename txt0 into txt'. cbn [after] in D2.
  rewrite ryield_cons in Et. cbn [rstep] in Et.
  destruct ss2 as [|s3 ss2].
  { exfalso. unfold ryield in Et. cbn [flat_map] in Et. rewrite app_nil_r in Et. assert (K : In (p, ROut) (map (fun t => (t, RText)) txt')) by (rewrite <- Et; apply in_or_app; right; now left). apply in_map_iff in K as (z & K & _). discriminate. }
  cbn [derives] in D2. destruct D2 as (F3 & P3 & D3). rewrite ryield_cons in Et.
  assert (Hs : s3 = SPoint p /\ txt = txt' /\ rest = ryield ss2).
  { destruct k, s3; try discriminate F3; cbn [rstep tokens_of map app] in Et; apply run_same in Et as (-> & -> & ->); auto. exfalso. apply Nv. cbn [after] in D3.
    destruct ss2 as [|s4 ss2]; [discriminate D3|]. cbn [derives] in D3. destruct D3 as (F4 & P4 & _). destruct s4; try discriminate F4. cbn [proper] in P4. rewrite ryield_cons. unfold then_vfr. cbn [rstep tokens_of map app]. do 4 eexists. split; [reflexivity|apply P4]. }
  destruct Hs as (-> & -> & ->). clear Et F3. cbn [proper] in P3. destruct P3 as (P3 & P3').
  set (cb := computed_point (t_sub p)).
  assert (D4 : derives (XPoint cb) ss2).
  { destruct k; cbn [after] in D3; [|exact D3|exact D3]. destruct ss2 as [|s4 ss2]; [discriminate D3|]. cbn [derives] in D3. destruct D3 as (F4 & P4 & D4). destruct s4; try discriminate F4. cbn [derives]. split; [reflexivity|]. split; [exact P4|exact D4]. }
  assert (D' : derives XStart (ss1 ++ SPoint p :: ss2)).
  { apply (exchange ss1 XStart _ _ D); rewrite <- ?Ec.
    - cbn [derives proper]. destruct c as [| | | | | | | | |[]|[]| | |]; try discriminate F; (split; [reflexivity|]); (split; [split; assumption|exact D4]).
    - left. destruct c as [| | | | | | | | |[]|[]| | |]; try discriminate F; reflexivity.
    - intros _. rewrite yield_cons. cbn [tokens_of app no_slash]. rewrite P3. discriminate.
    - left. rewrite yield_cons. discriminate.
    - destruct c as [| | | | | | | | |[]|[]| | |]; try discriminate F; discriminate. }
  assert (B1 : by_text (yield (ss1 ++ SPoint p :: ss2))).
  { intros t Ht. apply B. rewrite yield_app in Ht. rewrite yield_app, !yield_cons. rewrite yield_cons in Ht. rewrite !in_app_iff in *. tauto. }
  destruct (parse_steps G depth' _ g D' B1) as (s' & Hp & E1 & E2 & E3); [|exact Hd|].
  { rewrite Eg, Ep. rewrite <- words_ryield, ryield_app, ryield_cons. unfold wordsof. rewrite !map_app. reflexivity. }
  exists s', k. split; [reflexivity|]. split; [exact Hp|]. apply (section_result ss1 b k txt' p ss2); try assumption; try (rewrite Es; reflexivity).
  apply Forall_forall. intros x Hx. assert (Ne : forall fld x, In x (element_texts fld) -> x <> []) by (intros fld z Hz; exact (proj1 (texts_in _ _ _ Hz))). apply (Ne f).
  rewrite et_map, <- Y, yield_app, !yield_cons, !map_app. cbn [tokens_of]. rewrite !in_app_iff. tauto.
Qed.
Lemma keyword_types k : classify (fst (keywords k)) = (F15_BREAK_START, match k with KVfr => F15_SB_VFR | KOat => F15_SB_OAT | KIfpstop => F15_SB_IFPSTOP end) /\
  fst (classify (snd (keywords k))) <> F15_TOO_LONG /\ ends k (snd (classify (snd (keywords k)))) = true.
Proof. destruct k; vm_compute; repeat split; discriminate. Qed.
Lemma section_words k ws last rest : Forall (fun w => fst (classify w) <> F15_TOO_LONG /\ ends k (snd (classify w)) = false) ws ->
  t_base last <> F15_TOO_LONG -> ends k (t_sub last) = true -> resume k rest = Resumes -> section k (map typed_token ws ++ [last]) rest.
Proof.
  intros Fw L1 L2 R. induction Fw as [|w ws (H1 & H2) Fw IH]; cbn [map app section].
  - split; [exact L1|]. rewrite L2. cbn [app]. now rewrite R.
  - split; [exact H1|]. cbn [typed_token t_sub]. rewrite H2. exact IH.
Qed.
Theorem section_put_in depth depth' f s pre x p rest k ws g : parse_field15 G depth f = Ok true s ->
  field_roles f = pre ++ x :: (p, ROut) :: rest -> pre <> [] -> before_section x -> t_base p = F15_POINT -> (k = KVfr -> then_level rest) ->
  Forall (fun w => fst (classify w) <> F15_TOO_LONG /\ ends k (snd (classify w)) = false) ws ->
  element_texts g = wordsof (pre ++ [x]) ++ (fst (keywords k) :: ws ++ [snd (keywords k)]) ++ wordsof ((p, ROut) :: rest) -> 3 * n_tokens g <= depth' + 1 ->
  exists s', parse_field15 G depth' g = Ok true s' /\ one_section k (fst (keywords k)) (ws ++ [snd (keywords k)]) (s_ers s') (s_ers s).
Proof.
  intros H W Npre Bx Bq Tl Fw Eg Hd. destruct (roles_steps G f depth s H) as (ss & D & Y & R & B & Es). rewrite R in W.
  change (pre ++ x :: (p, ROut) :: rest) with (pre ++ [x] ++ (p, ROut) :: rest) in W. rewrite app_assoc in W.
  destruct (locate ss XStart _ _ _ D W) as (c & st & ss1 & ss2 & a & b & Ess & Er & Ep & Et & F & P & D2 & Ec). subst ss.
  destruct (point_step _ _ _ _ _ _ P Er Bq) as (Hst & -> & ->). rewrite app_nil_r in Ep. cbn [app] in Et. subst rest.
  destruct (keyword_types k) as (C1 & C2 & C3). set (b := typed_token (fst (keywords k))). set (e := typed_token (snd (keywords k))). set (txt := map typed_token ws ++ [e]).
  assert (Bk : begins (t_sub b) = Some k) by (unfold b; cbn [typed_token t_sub]; rewrite C1; destruct k; reflexivity).
  assert (Bb : t_base b = F15_BREAK_START) by (unfold b; cbn [typed_token t_base]; now rewrite C1).
  assert (Hc : follows c (SBreak b) = true /\ st = SPoint p).
  { assert (Na : c <> XAdep).
    { intro K. rewrite K in Ec. symmetry in Ec. destruct (adep_only _ _ D Ec) as (t & ->). unfold ryield in Ep. cbn [flat_map rstep tokens_of map app] in Ep. destruct pre as [|? [|? ?]]; [congruence|discriminate Ep|discriminate Ep]. }
    destruct (snoc_ind_ctx ss1) as [->|(ss0 & s1 & ->)]; [destruct pre; discriminate|]. destruct (derives_last _ _ _ _ D) as (F0 & P0). rewrite fold_left_app in Ec. cbn [fold_left] in Ec.
    rewrite ryield_app in Ep. unfold ryield in Ep at 2. cbn [flat_map] in Ep. rewrite app_nil_r in Ep. destruct Bx as (Bx1 & Bx2). destruct x as (x & rx). cbn [fst snd] in *. subst rx.
    assert (Lx : exists a0, rstep s1 = a0 ++ [(x, ROut)]).
    { apply step_tokens in P0. destruct (exists_last (l := rstep s1)) as (u & z & Eu); [intro K; apply (f_equal (@length _)) in K; rewrite rstep_len in K; destruct (tokens_of s1); [congruence|discriminate K]|].
      rewrite Eu, app_assoc in Ep. apply app_inj_tail in Ep as (_ & <-). exists u. exact Eu. }
    destruct Lx as (a0 & Lx).
    assert (Nt : forall txt, s1 <> SText txt) by (intros txt0 ->; cbn [rstep] in Lx; apply text_role in Lx; discriminate).
    assert (Nr : forall t, s1 <> SRoute t) by (intros t ->; cbn [rstep tokens_of map] in Lx; one_of Lx; cbn [proper] in P0; rewrite P0 in Bx2; exact Bx2).
    assert (Nd : forall t, s1 <> SDct t) by (intros t ->; cbn [rstep tokens_of map] in Lx; one_of Lx; cbn [proper] in P0; rewrite P0 in Bx2; exact Bx2).
    assert (Ns : forall t, s1 <> SSid t) by (intros t ->; cbn [rstep tokens_of map] in Lx; one_of Lx; cbn [proper] in P0; destruct P0 as [P0|P0]; rewrite P0 in Bx2; exact Bx2).
    pose proof (last_is _ _ F0) as Li. rewrite <- Ec in Li.
    destruct Hst as [-> | ->]; destruct c as [| | | | | | | | |k0|k0| | |]; try discriminate F; try congruence; try (exfalso; destruct Li as (u & Li); first [now apply (Nt u)|now apply (Nr u)|now apply (Nd u)|now apply (Ns u)]); auto. }
  destruct Hc as (Hc & ->). clear Hst.
  assert (Nx : c <> XEnd /\ halfway c = false /\ after c (SPoint p) = XPoint (computed_point (t_sub p))) by (destruct c as [| | | | | | | | |[]|[]| | |]; try discriminate Hc; repeat split; discriminate). destruct Nx as (Nx & Nh & Na). rewrite Na in D2.
  cbn [proper] in P. destruct P as (_ & P).
  assert (Sec : section k txt (yield (SPoint p :: ss2)) /\ derives (after (XBreak k) (SPoint p)) ss2).
  { rewrite yield_cons. cbn [tokens_of app]. destruct k; cbn [after]; try (split; [|exact D2]; apply section_words; auto; cbn [resume]; now rewrite Bq).
    destruct (Tl eq_refl) as (sl & t & r & Et & Esl & Espd). destruct (two_steps ss2 _ sl t D2 r Et Esl Espd) as (r' & -> & _).
    split.
    - apply section_words; auto. rewrite yield_cons. cbn [tokens_of app resume]. now rewrite Bq, Esl, Espd.
    - cbn [derives] in D2 |- *. destruct D2 as (_ & P4 & D4). split; [reflexivity|]. split; [exact P4|]. exact D4. }
  destruct Sec as (Sec & D3).
  assert (D' : derives XStart (ss1 ++ SBreak b :: SText txt :: SPoint p :: ss2)).
  { apply (exchange ss1 XStart _ _ D); rewrite <- ?Ec.
    - cbn [derives]. split; [exact Hc|]. split; [cbn [proper]; split; [exact Bb|rewrite Bk; discriminate]|]. cbn [after]. rewrite Bk. split; [reflexivity|]. split; [cbn [proper]; split; [unfold txt; destruct ws; discriminate|exact Sec]|].
      cbn [after]. split; [destruct k; reflexivity|]. split; [cbn [proper]; auto|exact D3].
    - now left.
    - intros _. rewrite yield_cons. cbn [tokens_of app no_slash]. rewrite Bb. discriminate.
    - left. rewrite yield_cons. discriminate.
    - exact Nx. }
  assert (Ty : forall u, (t_base (typed_token u), t_sub (typed_token u)) = classify (t_text (typed_token u))) by (intro u; cbn [t_base t_sub t_text typed_token]; now rewrite <- surjective_pairing).
  assert (B1 : by_text (yield (ss1 ++ SBreak b :: SText txt :: SPoint p :: ss2))).
  { intros t Ht. rewrite yield_app in B, Ht. rewrite yield_cons in B. rewrite !yield_cons in Ht. cbn [tokens_of] in *. rewrite !in_app_iff in Ht. destruct Ht as [Ht|[[<-|[]]|[Ht|Ht]]]; [apply B; rewrite !in_app_iff; tauto|apply Ty| |apply B; rewrite !in_app_iff; tauto].
    unfold txt in Ht. apply in_app_or in Ht as [Ht|[<-|[]]]; [apply in_map_iff in Ht as (z & <- & _)|]; apply Ty. }
  assert (Tt : map t_text txt = ws ++ [snd (keywords k)]) by (unfold txt; rewrite map_app, map_map; cbn [t_text typed_token map e]; now rewrite map_id).
  assert (Eg' : element_texts g = map t_text (yield (ss1 ++ SBreak b :: SText txt :: SPoint p :: ss2))).
  { rewrite Eg, Ep, yield_app, !yield_cons. cbn [tokens_of]. rewrite !map_app, Tt, <- !words_ryield. reflexivity. }
  destruct (parse_steps G depth' _ g D' B1 Eg' Hd) as (s' & Hp & E1 & E2 & E3).
  exists s'. split; [exact Hp|]. rewrite <- Tt. apply (section_result ss1 b k txt p ss2); try assumption; try (rewrite Es; reflexivity).
  apply Forall_forall. intros z Hz. assert (Ne : forall fld x, In x (element_texts fld) -> x <> []) by (intros fld z' Hz'; exact (proj1 (texts_in _ _ _ Hz'))). apply (Ne g).
  rewrite Eg', yield_app, !yield_cons, !map_app. cbn [tokens_of]. rewrite !in_app_iff. tauto.
Qed.
End G.
