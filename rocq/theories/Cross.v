(** * Cross: two routes through the same point (lemmas behind PropsCross). *)
From Coq Require Import ZArith NArith List Bool String Lia.
From Coq Require Import Floats.SpecFloat.
From Coq Require Import ZifyBool ZifyNat ZifyN.
From Verif Require Import PyBase PyFloat Enums ErrorTable Regex SyntaxTable Syntax Tokenizer Ers Utils Parser.
From Verif Require Import SpecTokenizer TokenizerProofs SpecNum ParserPrims PerfEq PointEq SyntaxProofs Trace ParseTrace ParserFacts SpecParser SpecGrammar GrammarSem Grammar SpecAccept Accept Describe AcceptFacts SpecLayout Layout SpecViable Viable Unambiguous SpecRemoval Removal SpecConnector Connector SpecSplit Split Join SpecChange Change SpecCross.
Import List ListNotations.
Local Open Scope list_scope.
Local Open Scope nat_scope.

Lemma not_just_ifr w : match rev w with _ :: (_, ro) :: _ => ro | _ => ROut end = ROut -> ~ just_ifr w.
Proof. intros E (w0 & x & p & -> & _). rewrite rev_app_distr in E. cbn [rev app] in E. discriminate E. Qed.
Lemma yields_fst ss : map fst (ryield ss) = yield ss.
Proof. induction ss as [|s ss IH]; [reflexivity|]. now rewrite yield_cons, ryield_cons, map_app, rstep_fst, IH. Qed.
Section G.
Variable G : geodesic.
Lemma find_point ss pre p rest : derives XStart ss -> ryield ss = (pre ++ [(p, ROut)]) ++ rest -> t_base p = F15_POINT -> ~ just_ifr (pre ++ [(p, ROut)]) ->
  exists ss1 ss2, ss = (ss1 ++ [SPoint p]) ++ ss2 /\ ryield ss1 = pre /\ ryield ss2 = rest /\ ryield (ss1 ++ [SPoint p]) = pre ++ [(p, ROut)] /\
    fold_left after (ss1 ++ [SPoint p]) XStart = XPoint (computed_point (t_sub p)) /\ derives (XPoint (computed_point (t_sub p))) ss2.
Proof.
  intros D W Bp Nj. rewrite <- app_assoc in W. cbn [app] in W.
  destruct (locate ss XStart _ _ _ D W) as (c & st & ss1 & ss2 & a & b & Ess & Er & Ep & Et & F & P & D2 & Ec). rewrite Ess in D.
  destruct (point_step _ _ _ _ _ _ P Er Bp) as (St & -> & ->). rewrite app_nil_r in Ep. cbn [app] in Et. subst pre rest.
  assert (Rs : rstep st = [(p, ROut)]) by (destruct St as [->| ->]; reflexivity).
  assert (E0 : ryield (ss1 ++ [st]) = ryield ss1 ++ [(p, ROut)]) by (rewrite ryield_app; unfold ryield at 2; cbn [flat_map]; now rewrite app_nil_r, Rs).
  rewrite <- E0 in *. assert (A0 : ss1 ++ st :: ss2 = (ss1 ++ [st]) ++ ss2) by (rewrite <- app_assoc; reflexivity). rewrite A0 in *. clear A0.
  assert (Ec' : fold_left after (ss1 ++ [st]) XStart = after c st) by (rewrite fold_left_app, Ec; reflexivity).
  destruct St as [->| ->].
  - assert (Hx : after c (SPoint p) = XPoint (computed_point (t_sub p))).
    { cbn [after] in Ec' |- *. destruct c as [| | | | | | | | |[]|[]| | |]; try reflexivity. exfalso. apply Nj. exact (then_speed_ifr _ _ _ D Ec'). }
    exists ss1, ss2. rewrite Hx in Ec', D2. repeat (split; [auto|]). auto.
  - exfalso. apply Nj. destruct c as [| | | | | | | | | |[]| | |]; try discriminate F. symmetry in Ec. rewrite <- app_assoc in D. exact (ifr_before _ _ _ p D Ec eq_refl).
Qed.
Lemma cross_derives ss1 ss2 tt2 b : derives XStart (ss1 ++ ss2) -> fold_left after ss1 XStart = XPoint b -> derives (XPoint b) tt2 -> derives XStart (ss1 ++ tt2).
Proof.
  intros D Ec D2. apply (exchange ss1 XStart _ _ D); rewrite ?Ec; [exact D2|now left|discriminate| |discriminate]. right. right. exact (two_at_point _ _ _ D Ec).
Qed.
Lemma n_before_k ss1 ss2 b : derives XStart (ss1 ++ ss2) -> fold_left after ss1 XStart = XPoint b -> length (k_l (effs G 0 ss1 core0)) = n_before (ryield ss1).
Proof.
  intros D Ec. pose proof (cross_derives ss1 ss2 [] b D Ec eq_refl) as D1. rewrite app_nil_r in D1. unfold n_before.
  pose proof (effs_adds G ss1 0 core0) as K. rewrite (effs_js G ss1 XStart 0 core0 D1) in K. change (k_js core0) with (@nil nat) in K. change (k_l core0) with (@nil rrec) in K. cbn [app length] in K. lia.
Qed.
Lemma after_point_ne ss1 p j k : k_l (effs G j (ss1 ++ [SPoint p]) k) <> [].
Proof.
  rewrite effs_app. cbn [effs eff1]. unfold pt_k, rule_k, add_k, k_with. cbn [k_l]. intro K. apply (f_equal (@length _)) in K. rewrite Stay.prev_len, app_length in K. cbn [length] in K. lia.
Qed.
(** The records of the elements after the point. *)
Lemma parted v ss k : k_l k <> [] -> forall j, exists A X, core_final v (effs G j ss k) = A ++ X /\ length A = length (k_l k) /\ map er_leg A = map er_leg (upd_first v (k_l k)).
Proof.
  intros Ne j. assert (T0 : Tail (k_l k) (k_l k) k k) by (exists [], []; rewrite !app_nil_r; repeat split; auto).
  pose proof (Tail_steps G _ _ ss j j _ _ T0) as (N & N' & T1 & _). apply map_app_eq in T1 as (l1 & l2 & El & E1 & _).
  destruct l1 as [|a l1]; [destruct (k_l k); [congruence|discriminate E1]|].
  exists (upd_first v (a :: l1)). unfold core_final. eexists. rewrite core_recs_eq, El at 1. rewrite <- !app_assoc. rewrite upd_first_app, <- !app_assoc. split; [reflexivity|]. split.
  - apply (f_equal (@length _)) in E1. rewrite !map_length in E1. destruct v; exact E1.
  - apply upd_first_leg, leg_brg. exact E1.
Qed.
Lemma cross_core v1 v2 ss k1 k2 j j' : k_l k1 <> [] -> k_l k2 <> [] -> er_leg (k_p k1) = er_leg (k_p k2) ->
  exists A1 A2 X1 X2, core_final v1 (effs G j ss k1) = A1 ++ X1 /\ core_final v2 (effs G j' ss k2) = A2 ++ X2 /\ length A1 = length (k_l k1) /\ length A2 = length (k_l k2) /\
    map er_leg A1 = map er_leg (upd_first v1 (k_l k1)) /\ map er_leg X1 = map er_leg X2.
Proof.
  intros N1 N2 Ep. assert (T0 : Tail (k_l k1) (k_l k2) k1 k2) by (exists [], []; rewrite !app_nil_r; repeat split; auto).
  pose proof (Tail_steps G _ _ ss j j' _ _ T0) as (N & N' & T1 & T2 & T3 & T4). set (k3 := effs G j ss k1) in *. set (k3' := effs G j' ss k2) in *.
  apply map_app_eq in T1 as (l1 & l2 & El & E1 & E2). apply map_app_eq in T2 as (l1' & l2' & El' & E1' & E2').
  destruct l1 as [|a l1]; [destruct (k_l k1); [congruence|discriminate E1]|]. destruct l1' as [|a' l1']; [destruct (k_l k2); [congruence|discriminate E1']|].
  assert (Ek : core_recs v1 k3 = upd_first v1 (a :: l1) ++ (l2 ++ [k_p k3])) by (rewrite core_recs_eq, El, <- app_assoc; apply upd_first_app).
  assert (Ek' : core_recs v2 k3' = upd_first v2 (a' :: l1') ++ (l2' ++ [k_p k3'])) by (rewrite core_recs_eq, El', <- app_assoc; apply upd_first_app).
  exists (upd_first v1 (a :: l1)), (upd_first v2 (a' :: l1')), ((l2 ++ [k_p k3]) ++ [ades_rec (core_recs v1 k3)]), ((l2' ++ [k_p k3']) ++ [ades_rec (core_recs v2 k3')]).
  split; [unfold core_final; rewrite Ek at 1; now rewrite <- app_assoc|]. split; [unfold core_final; rewrite Ek' at 1; now rewrite <- app_assoc|].
  split; [apply (f_equal (@length _)) in E1; rewrite !map_length in E1; destruct v1; exact E1|]. split; [apply (f_equal (@length _)) in E1'; rewrite !map_length in E1'; destruct v2; exact E1'|].
  split; [apply upd_first_leg, leg_brg; exact E1|]. rewrite !map_app. assert (L2 : map er_leg l2 = map er_leg l2') by (rewrite <- leg_of_brg, E2, T3; now symmetry). rewrite L2. cbn [map]. rewrite T4. do 2 f_equal.
  unfold ades_rec. rewrite Ek, Ek', !app_assoc, !last_last. pose proof (same_leg _ _ T4) as (_ & _ & _ & _ & _ & _ & _ & _ & -> & _). reflexivity.
Qed.
(** The record of the point. *)
Lemma point_now ss1 p p' tt1 ss2 tt2 m : derives XStart ((ss1 ++ [SPoint p]) ++ ss2) -> derives XStart ((tt1 ++ [SPoint p']) ++ tt2) ->
  Forall wt (yield ss1) -> in_force (ryield ss1) = Some m -> t_text p = t_text p' -> t_base p = t_base p' -> t_sub p = t_sub p' ->
  er_leg (k_p (effs G 0 (ss1 ++ [SPoint p]) core0)) = er_leg (h (fst m) (snd m) (PyInt (spd_si (fst m) (lvl_si (snd m)))) (PyInt (lvl_si (snd m))) (k_p (effs G 0 (tt1 ++ [SPoint p']) core0))).
Proof.
  intros D D' W If Et Eb Es. rewrite <- !app_assoc in D, D'.
  pose proof (perf_run G ss1 XStart _ 0 core0 None D W eq_refl) as Pf. unfold in_force in If. rewrite If in Pf. cbn [perf0] in Pf.
  rewrite !effs_app. cbn [effs]. set (k := effs G 0 ss1 core0) in *. set (k' := effs G 0 tt1 core0). clearbody k k'. cbn [eff1]. unfold pt_k, rule_k, add_k, k_with. cbn [k_p].
  assert (Q : forall r, pt_rec G p' r = pt_rec G p r) by (intro r; unfold pt_rec; rewrite Et, Es; reflexivity).
  rewrite Q. match goal with |- _ = er_leg (h ?a ?b ?c ?d ?x) => change (h a b c d x) with (hb a b c d true x) end. rewrite <- ptrec_hb. apply leg_pt. cbn [hb].
  destruct Pf as (P1 & P2 & P3 & P4). unfold carry, tok_rec, h. rewrite Et, Eb, Es, P1, P2, P3, P4. reflexivity.
Qed.
Lemma in_force_point ss1 p : t_base p = F15_POINT -> in_force (ryield (ss1 ++ [SPoint p])) = in_force (ryield ss1).
Proof. intro B. unfold in_force. rewrite ryield_app, last_some_app. unfold ryield at 1. cbn [flat_map rstep tokens_of map app last_some]. unfold modifier. cbn [snd fst]. rewrite B. reflexivity. Qed.
Lemma force_at_point ss1 ss2 b : derives XStart (ss1 ++ ss2) -> Forall wt (yield ss1) -> fold_left after ss1 XStart = XPoint b -> exists m, in_force (ryield ss1) = Some m.
Proof.
  intros D W Ec. pose proof (perf_run G ss1 XStart _ 0 core0 None D W eq_refl) as Pf. rewrite Ec in Pf. fold (in_force (ryield ss1)) in Pf. destruct (in_force (ryield ss1)) as [m|]; [eauto|discriminate Pf].
Qed.
Definition hm (m : pstr * pstr) : rrec -> rrec := h (fst m) (snd m) (PyInt (spd_si (fst m) (lvl_si (snd m)))) (PyInt (lvl_si (snd m))).
Lemma cross_result ss1 p ss2 tt1 p' tt2 m : derives XStart ((ss1 ++ [SPoint p]) ++ ss2) -> derives XStart ((tt1 ++ [SPoint p']) ++ tt2) ->
  Forall wt (yield (ss1 ++ [SPoint p])) -> Forall wt (yield tt2) -> t_base p = F15_POINT -> in_force (ryield (ss1 ++ [SPoint p])) = Some m -> t_text p = t_text p' -> t_base p = t_base p' -> t_sub p = t_sub p' ->
  fold_left after (ss1 ++ [SPoint p]) XStart = XPoint (computed_point (t_sub p)) -> fold_left after (tt1 ++ [SPoint p']) XStart = XPoint (computed_point (t_sub p')) ->
  exists A1 X1 A2 M2 V2 A3 M3 V3, result_of G ((ss1 ++ [SPoint p]) ++ ss2) = A1 ++ X1 /\ result_of G ((tt1 ++ [SPoint p']) ++ tt2) = A2 ++ M2 ++ V2 /\
    result_of G ((ss1 ++ [SPoint p]) ++ tt2) = A3 ++ M3 ++ V3 /\ length A1 = n_before (ryield (ss1 ++ [SPoint p])) /\ length A2 = n_before (ryield (tt1 ++ [SPoint p'])) /\ length M2 = reach 1 (ryield tt2) /\
    map er_leg A1 = map er_leg A3 /\ map er_leg (map (hm m) M2) = map er_leg M3 /\ map er_leg V2 = map er_leg V3.
Proof.
  intros D D' W W2 Bp If Et Eb Es Ec Ec'. pose proof (n_before_k _ _ _ D Ec) as L1. pose proof (n_before_k _ _ _ D' Ec') as L2.
  pose proof (after_point_ne ss1 p 0 core0) as Ne1. pose proof (after_point_ne tt1 p' 0 core0) as Ne2.
  assert (W1 : Forall wt (yield ss1)) by (rewrite yield_app, Forall_app in W; tauto).
  pose proof If as If1. rewrite in_force_point in If1 by exact Bp. pose proof (point_now ss1 p p' tt1 ss2 tt2 m D D' W1 If1 Et Eb Es) as Ep. fold (hm m) in Ep.
  unfold result_of. rewrite (vfr_first_same (ss1 ++ [SPoint p]) ss2 []), (vfr_first_same (ss1 ++ [SPoint p]) tt2 []) by (rewrite yield_app; intro K; apply app_eq_nil in K as (_ & K); discriminate K).
  set (v1 := is_vfr_first (yield ((ss1 ++ [SPoint p]) ++ []))). set (v2 := is_vfr_first _).
  set (j1 := 0 + length (yield (ss1 ++ [SPoint p]))). set (j2 := 0 + length (yield (tt1 ++ [SPoint p']))).
  rewrite !(effs_app G (ss1 ++ [SPoint p])), (effs_app G (tt1 ++ [SPoint p'])). fold j1 j2.
  set (k1 := effs G 0 (ss1 ++ [SPoint p]) core0) in *. set (k2 := effs G 0 (tt1 ++ [SPoint p']) core0) in *. set (k2h := k_with k2 (hm m (k_p k2))).
  assert (D2 : derives (XPoint (computed_point (t_sub p'))) tt2) by (apply derives_app in D'; rewrite Ec' in D'; exact D').
  assert (Na : 1 <= length (k_l k2)) by (destruct (k_l k2); [congruence|cbn [length]; lia]).
  destruct (Zp_final G _ _ _ _ v2 tt2 _ _ j2 j2 k2 k2h D2 W2 (or_introl Na) eq_refl eq_refl eq_refl) as (U & M & V & Q1 & Q2 & Q3 & Q4).
  fold (hm m) in Q2.
  destruct (cross_core v1 v2 tt2 k1 k2h j1 j2 Ne1 Ne2 Ep) as (A3 & A2 & X3 & X2 & R1 & R2 & R3 & R4 & R5 & R6).
  destruct (parted v1 ss2 k1 Ne1 j1) as (A1 & X1 & S1 & S2 & S3).
  rewrite Q2 in R2. apply Change.app_split in R2 as (_ & R2); [|rewrite Q3, R4; reflexivity]. rewrite <- R2, map_app in R6. apply map_app_eq in R6 as (M3 & V3 & -> & R6 & R7).
  exists A1, X1, U, M, V, A3, M3, V3. repeat (split; [first [assumption|congruence]|]). congruence.
Qed.
Lemma leg_track m r r' : er_leg (hm m r) = er_leg r' -> same_track r r' /\ r_speed r' = fst m /\ r_alt r' = snd m.
Proof. intro E. apply same_leg in E. destruct E as (E1 & E2 & E3 & E4 & E5 & E6 & E7 & E8). split; [|now rewrite <- E4, <- E6]. unfold same_track. tauto. Qed.
Lemma legs_track m : forall l l', map er_leg (map (hm m) l) = map er_leg l' -> Forall2 same_track l l' /\ Forall (fun r => Some m = Some (r_speed r, r_alt r)) l'.
Proof.
  induction l as [|r l IH]; intros [|r' l'] E; try discriminate E; [now split|]. change (map (hm m) (r :: l)) with (hm m r :: map (hm m) l) in E. apply cons_leg in E as [E1 E2]. destruct (IH l' E2) as (I1 & I2). destruct (leg_track m r r' E1) as (T & T1 & T2).
  split; constructor; auto. rewrite T1, T2. now destruct m.
Qed.
Lemma rec_legs l l' l2 : map er_leg l = map er_leg l2 -> map er_rec l' = map er_rec l2 -> map er_leg l = map er_leg l'.
Proof. intros E K. rewrite E. symmetry. now apply legs_of_recs. Qed.
Lemma same_types a b p p' : by_text a -> by_text b -> In p a -> In p' b -> t_text p = t_text p' -> t_base p = t_base p' /\ t_sub p = t_sub p'.
Proof. intros A B Ha Hb E. apply A in Ha. apply B in Hb. rewrite E, <- Hb in Ha. now injection Ha. Qed.
Lemma in_mid {X} (x : X) a b : In x ((a ++ [x]) ++ b). Proof. apply in_or_app. left. apply in_or_app. right. now left. Qed.
Lemma by_mid a p b : by_text (yield ((a ++ [SPoint p]) ++ b)) -> In p (yield ((a ++ [SPoint p]) ++ b)).
Proof. intros _. rewrite !yield_app. cbn [yield flat_map tokens_of app]. apply (in_mid p (yield a)). Qed.
Lemma by_text_app a b a' b' : by_text (yield (a ++ b)) -> by_text (yield (a' ++ b')) -> by_text (yield (a ++ b')).
Proof. rewrite !yield_app. intros H K u Hu. apply in_app_or in Hu as [Hu|Hu]; [apply H|apply K]; apply in_or_app; auto. Qed.
Theorem cross_fields depth1 depth2 depth3 f g x s1 s2 pre p rest pre' p' rest' : parse_field15 G depth1 f = Ok true s1 -> parse_field15 G depth2 g = Ok true s2 ->
  field_roles f = (pre ++ [(p, ROut)]) ++ rest -> field_roles g = (pre' ++ [(p', ROut)]) ++ rest' -> t_base p = F15_POINT -> t_text p = t_text p' ->
  ~ just_ifr (pre ++ [(p, ROut)]) -> ~ just_ifr (pre' ++ [(p', ROut)]) ->
  element_texts x = wordsof (pre ++ [(p, ROut)]) ++ wordsof rest' -> 3 * n_tokens x <= depth3 + 1 ->
  exists s3, parse_field15 G depth3 x = Ok true s3 /\ e_errs (s_ers s3) = [] /\
    crossed (pre ++ [(p, ROut)]) (pre' ++ [(p', ROut)]) rest' (e_recs (s_ers s1)) (e_recs (s_ers s2)) (e_recs (s_ers s3)).
Proof.
  intros H1 H2 W1 W2 Bp Et N1 N2 Ex Hd. destruct (roles_steps G f depth1 s1 H1) as (ss & D1 & _ & R1 & T1 & E1). destruct (roles_steps G g depth2 s2 H2) as (tt & D2 & _ & R2 & T2 & E2).
  rewrite R1 in W1. rewrite R2 in W2. destruct (find_point ss _ _ _ D1 W1 Bp N1) as (ss1 & ss2 & -> & Y1 & Y2 & Y3 & C1 & _).
  assert (Bp' : t_base p' = F15_POINT).
  { apply (f_equal (map fst)) in W2. rewrite yields_fst in W2. assert (K : In p' (yield tt)) by (rewrite W2, !map_app; apply in_mid). apply T2 in K. pose proof (T1 _ (by_mid _ _ _ T1)) as L. rewrite Et, <- K in L. congruence. }
  destruct (find_point tt _ _ _ D2 W2 Bp' N2) as (tt1 & tt2 & -> & Z1 & Z2 & Z3 & C2 & D4). clear W1 W2.
  destruct (same_types _ _ _ _ T1 T2 (by_mid _ _ _ T1) (by_mid _ _ _ T2) Et) as (Eb & Es). rewrite <- Es in D4.
  pose proof (cross_derives _ _ _ _ D1 C1 D4) as D3. pose proof (by_text_app _ _ _ _ T1 T2) as T3.
  assert (Wa : Forall wt (yield (ss1 ++ [SPoint p]))) by (pose proof (wt_by_text _ T1) as K; rewrite yield_app, Forall_app in K; tauto).
  assert (Wb : Forall wt (yield tt2)) by (pose proof (wt_by_text _ T2) as K; rewrite (yield_app (tt1 ++ _)), Forall_app in K; tauto).
  destruct (force_at_point _ _ _ D1 Wa C1) as (m & If).
  destruct (parse_steps G depth3 _ x D3 T3) as (s3 & Hp & E3 & E4 & _); [|exact Hd|].
  { rewrite Ex, <- words_ryield, (ryield_app (ss1 ++ _)), Y3, Z2. unfold wordsof. now rewrite !map_app. }
  exists s3. split; [exact Hp|]. split; [assumption|].
  destruct (cross_result ss1 p ss2 tt1 p' tt2 m D1 D2 Wa Wb Bp If Et Eb Es C1 C2) as (A1 & X1 & A2 & M2 & V2 & A3 & M3 & V3 & Q1 & Q2 & Q3 & Q4 & Q5 & Q6 & Q7 & Q8 & Q9).
  rewrite E1, E2. cbn [e_recs]. rewrite Q1, Q2. rewrite Q3, !map_app in E3. apply map_app_eq in E3 as (A4 & T4 & Er3 & EA & ET). apply map_app_eq in ET as (M4 & V4 & -> & EM & EV).
  pose proof (rec_legs _ _ _ Q7 EA) as LA. pose proof (rec_legs _ _ _ Q8 EM) as LM. pose proof (rec_legs _ _ _ Q9 EV) as LV. destruct (legs_track _ _ _ LM) as (K1 & K2).
  exists A1, X1, A2, M2, V2, A4, M4, V4. rewrite Y3 in If, Q4. rewrite Z3 in Q5. rewrite Z2 in Q6. rewrite If. repeat (split; [first [reflexivity|assumption|apply same_legs; assumption]|]). exact K2.
Qed.
(** ** A detour *)
Lemma grows : forall ss j k, length (k_l (effs G j ss k)) = length (k_l k) + length (k_l (effs G j ss core0)).
Proof.
  assert (K : forall ss j k k', length (k_l (effs G j ss k)) + length (k_l k') = length (k_l k) + length (k_l (effs G j ss k'))).
  { induction ss as [|s ss IH]; intros j k k'; cbn [effs]; [lia|]. specialize (IH (j + length (tokens_of s)) (eff1 G j s k) (eff1 G j s k')). rewrite !(eff_adds G) in IH. lia. }
  intros ss j k. specialize (K ss j k core0). change (k_l core0) with (@nil rrec) in K. cbn [length] in K. lia.
Qed.
Lemma grows_j : forall ss j j' k, length (k_l (effs G j ss k)) = length (k_l (effs G j' ss k)).
Proof.
  assert (K : forall ss j j' k k', length (k_l k) = length (k_l k') -> length (k_l (effs G j ss k)) = length (k_l (effs G j' ss k'))).
  { induction ss as [|s ss IH]; intros j j' k k' E; cbn [effs]; [exact E|]. apply IH. rewrite !(eff_adds G). lia. }
  intros. now apply K.
Qed.
Lemma nb_more a b : length (k_l (effs G 0 (a ++ b) core0)) = length (k_l (effs G 0 a core0)) + length (k_l (effs G 0 b core0)).
Proof. rewrite effs_app, grows. now rewrite (grows_j b _ 0). Qed.
Lemma long_split {X} (a b c d : list X) : a ++ b = c ++ d -> length a <= length c -> exists e, c = a ++ e /\ b = e ++ d.
Proof. revert c. induction a as [|x a IH]; intros c E L; [exists c; auto|]. destruct c as [|y c]; [cbn in L; lia|]. cbn [app length] in *. injection E as <- E. destruct (IH c E) as (e & -> & ->); [lia|]. exists e. auto. Qed.
Lemma F2_prefix {X} (R : X -> X -> Prop) : forall e d l, Forall2 R l (e ++ d) -> exists l1 l2, l = l1 ++ l2 /\ Forall2 R l1 e /\ length l1 = length e.
Proof.
  induction e as [|x e IH]; intros d l H; [exists [], l; auto|]. cbn [app] in H. inversion H as [|y ? l' ? Hy Hl]; subst. destruct (IH _ _ Hl) as (l1 & l2 & -> & F & L). exists (y :: l1), l2. cbn [app length]. auto.
Qed.
Lemma leg_then_track l1 l2 : forall l3, Forall2 same_track l1 l2 -> map er_leg l2 = map er_leg l3 -> Forall2 same_track l1 l3.
Proof.
  intros l3 H. revert l3. induction H as [|a b l1 l2 Ha _ IH]; intros [|c l3] E; try discriminate E; constructor; apply cons_leg in E as [E1 E2]; [|now apply IH].
  apply same_leg in E1. unfold same_track in *. unfold same_but_leg in E1. repeat match goal with K : _ /\ _ |- _ => destruct K end. repeat split; congruence.
Qed.
Lemma legs_same_track l l' : map er_leg l = map er_leg l' -> Forall2 same_track l l'.
Proof.
  intro E. apply same_legs in E. induction E as [|a b l l' H _ IH]; constructor; [|exact IH]. unfold same_but_leg in H. unfold same_track. tauto.
Qed.
Lemma detour_result s1 p sm q s3 t1 p' tm q' t3 : let w := s1 ++ [SPoint p] in let w' := t1 ++ [SPoint p'] in let mid := sm ++ [SPoint q] in let mid' := tm ++ [SPoint q'] in
  derives XStart ((w ++ mid) ++ s3) -> derives XStart ((w' ++ mid') ++ t3) -> by_text (yield ((w ++ mid) ++ s3)) -> by_text (yield ((w' ++ mid') ++ t3)) ->
  t_base p = F15_POINT -> t_base q' = F15_POINT -> t_text p = t_text p' -> t_base p = t_base p' -> t_sub p = t_sub p' -> t_text q = t_text q' -> t_base q = t_base q' -> t_sub q = t_sub q' ->
  fold_left after w XStart = XPoint (computed_point (t_sub p)) -> fold_left after w' XStart = XPoint (computed_point (t_sub p')) ->
  fold_left after (w ++ mid) XStart = XPoint (computed_point (t_sub q)) -> fold_left after (w' ++ mid') XStart = XPoint (computed_point (t_sub q')) ->
  derives XStart ((w ++ mid') ++ s3) /\
  exists A1 B1 C1 A2 B2 C2 A3 B3 C3, result_of G ((w ++ mid) ++ s3) = A1 ++ B1 ++ C1 /\ result_of G ((w' ++ mid') ++ t3) = A2 ++ B2 ++ C2 /\ result_of G ((w ++ mid') ++ s3) = A3 ++ B3 ++ C3 /\
    length A1 = n_before (ryield w) /\ length (A1 ++ B1) = n_before (ryield (w ++ mid)) /\ length A2 = n_before (ryield w') /\ length (A2 ++ B2) = n_before (ryield (w' ++ mid')) /\
    map er_leg A1 = map er_leg A3 /\ Forall2 same_track B2 B3 /\ Forall2 same_track C1 C3 /\
    (in_force (ryield (w ++ mid')) = in_force (ryield (w ++ mid)) -> map er_leg C1 = map er_leg C3).
Proof.
  cbv zeta. set (w := s1 ++ [SPoint p]). set (w' := t1 ++ [SPoint p']). intros D D' T T' Bp Bq Ep1 Ep2 Ep3 Eq1 Eq2 Eq3 C1 C2 C3 C4.
  assert (D2 : derives (XPoint (computed_point (t_sub p))) ((tm ++ [SPoint q']) ++ t3)).
  { rewrite <- app_assoc in D'. apply derives_app in D'. rewrite C2, <- Ep3 in D'. exact D'. }
  assert (Dy : derives XStart (w ++ (tm ++ [SPoint q']) ++ t3)) by (rewrite <- app_assoc in D; exact (cross_derives _ _ _ _ D C1 D2)).
  assert (C5 : fold_left after (w ++ tm ++ [SPoint q']) XStart = XPoint (computed_point (t_sub q'))) by (rewrite fold_left_app, C1, Ep3, <- C2, <- fold_left_app; exact C4).
  assert (D3 : derives (XPoint (computed_point (t_sub q))) s3) by (apply derives_app in D; rewrite C3 in D; exact D).
  assert (Dx : derives XStart ((w ++ tm ++ [SPoint q']) ++ s3)).
  { rewrite app_assoc in Dy. rewrite Eq3 in D3. exact (cross_derives _ _ _ _ Dy C5 D3). }
  split; [exact Dx|].
  assert (W1 : Forall wt (yield (w ++ sm ++ [SPoint q])) /\ Forall wt (yield s3)) by (pose proof (wt_by_text _ T) as K; now rewrite (yield_app (w ++ _)), Forall_app in K).
  assert (W2 : Forall wt (yield (w' ++ tm ++ [SPoint q'])) /\ Forall wt (yield t3)) by (pose proof (wt_by_text _ T') as K; now rewrite (yield_app (w' ++ _)), Forall_app in K).
  destruct W1 as (W1 & Ws3). destruct W2 as (W2 & Wt3).
  assert (Ww : Forall wt (yield w)) by (rewrite yield_app, Forall_app in W1; tauto).
  assert (Wm : Forall wt (yield (tm ++ [SPoint q']))) by (rewrite (yield_app w'), Forall_app in W2; tauto).
  pose proof D as Da. pose proof D' as Db. rewrite <- app_assoc in Da, Db.
  destruct (force_at_point _ _ _ Da Ww C1) as (m & If).
  destruct (cross_result s1 p ((sm ++ [SPoint q]) ++ s3) t1 p' ((tm ++ [SPoint q']) ++ t3) m Da Db Ww ltac:(rewrite yield_app, Forall_app; auto) Bp If Ep1 Ep2 Ep3 C1 C2)
    as (A1 & X1 & A2 & M2 & V2 & A3 & M3 & V3 & Q1 & Q2 & Q3 & Q4 & Q5 & Q6 & Q7 & Q8 & Q9).
  fold w in Q1, Q3, Q4. fold w' in Q2, Q5.
  assert (Ay : forall z, w ++ (tm ++ [SPoint q']) ++ z = ((w ++ tm) ++ [SPoint q']) ++ z) by (intro; rewrite <- !app_assoc; reflexivity).
  assert (Af : forall z, (w ++ sm ++ [SPoint q]) ++ z = ((w ++ sm) ++ [SPoint q]) ++ z) by (intro; rewrite <- !app_assoc; reflexivity).
  assert (Ax : forall z, (w ++ tm ++ [SPoint q']) ++ z = ((w ++ tm) ++ [SPoint q']) ++ z) by (intro; rewrite <- !app_assoc; reflexivity).
  assert (Ax0 : w ++ tm ++ [SPoint q'] = (w ++ tm) ++ [SPoint q']) by (now rewrite app_assoc).
  assert (Af0 : w ++ sm ++ [SPoint q] = (w ++ sm) ++ [SPoint q]) by (now rewrite app_assoc).
  assert (Wy : Forall wt (yield ((w ++ tm) ++ [SPoint q']))) by (rewrite <- Ax0, yield_app, Forall_app; auto).
  pose proof Dy as Dy1. rewrite Ay in Dy1. pose proof D as Df1. rewrite Af in Df1. pose proof C5 as C51. rewrite Ax0 in C51. pose proof C3 as C31. rewrite Af0 in C31.
  destruct (force_at_point _ _ _ Dy1 Wy C51) as (m' & If').
  assert (Bq0 : t_base q = F15_POINT) by congruence.
  destruct (cross_result (w ++ tm) q' t3 (w ++ sm) q s3 m' Dy1 Df1 Wy Ws3 Bq If' (eq_sym Eq1) (eq_sym Eq2) (eq_sym Eq3) C51 C31)
    as (A1' & X1' & A2' & M2' & V2' & A3' & M3' & V3' & R1 & R2 & R3 & R4 & R5 & R6 & R7 & R8 & R9).
  pose proof (n_before_k _ _ _ Da C1) as L1. pose proof (n_before_k _ _ _ Db C2) as L2. pose proof (n_before_k _ _ _ Dy1 C51) as L3. pose proof (n_before_k _ _ _ Df1 C31) as L4. pose proof (n_before_k _ _ _ D' C4) as L5.
  rewrite <- Ax0, nb_more in L3. rewrite <- Af0, nb_more in L4. rewrite nb_more in L5. rewrite Ax0 in L3. rewrite Af0 in L4. rewrite <- Q4 in L1. rewrite <- R4 in L3. rewrite <- R5 in L4. rewrite <- Q5 in L2.
  rewrite <- Ay in R1. rewrite <- Af in R2. rewrite <- Ax in R3. rewrite Q3 in R1. rewrite <- app_assoc, Q1 in R2.
  assert (L6 : length A3 = length A1) by (apply (f_equal (@length _)) in Q7; rewrite !map_length in Q7; auto).
  destruct (long_split A3 (M3 ++ V3) A1' X1') as (e & -> & Ee); [exact R1|lia|].
  destruct (long_split A1 X1 A2' (M2' ++ V2')) as (e1 & -> & Ee1); [exact R2|lia|].
  assert (Tm : Forall2 same_track (M2 ++ V2) (e ++ X1')).
  { rewrite <- Ee. apply Forall2_app; [exact (proj1 (legs_track _ _ _ Q8))|exact (legs_same_track _ _ Q9)]. }
  apply F2_prefix in Tm as (B2 & C2' & EB & TB & LB).
  rewrite map_app in R7. symmetry in R7. apply map_app_eq in R7 as (A4 & B4 & -> & E4 & E5).
  exists A1, e1, (M2' ++ V2'), A2, B2, C2', A4, B4, (M3' ++ V3').
  split; [rewrite <- app_assoc, Q1, Ee1; reflexivity|]. split; [rewrite <- app_assoc, Q2, EB; reflexivity|]. split; [rewrite R3, <- !app_assoc; reflexivity|].
  split; [exact Q4|]. split; [rewrite R5, <- Af0; reflexivity|]. split; [exact Q5|]. split; [rewrite app_length in *; lia|].
  split; [congruence|]. split; [exact (leg_then_track _ _ _ TB (eq_sym E5))|].
  split; [apply Forall2_app; [exact (proj1 (legs_track _ _ _ R8))|exact (legs_same_track _ _ R9)]|].
  intro Ei. rewrite Ax0, If', Af0 in Ei. symmetry in Ei. rewrite !map_app, R9. f_equal. rewrite <- R8.
  assert (Wf : Forall wt (yield ((w ++ sm) ++ [SPoint q]))) by (rewrite <- Af0; exact W1).
  destruct (cross_result (w ++ sm) q s3 (w ++ sm) q s3 m' Df1 Df1 Wf Ws3 Bq0 Ei eq_refl eq_refl eq_refl C31 C31)
    as (A5 & X5 & A6 & M6 & V6 & A7 & M7 & V7 & S1 & S2 & S3 & S4 & S5 & S6 & S7 & S8 & S9).
  rewrite <- Af, <- app_assoc, Q1, R2 in S2, S3.
  apply Change.app_split in S2 as (_ & S2); [|congruence]. apply Change.app_split in S3 as (_ & S3); [|apply (f_equal (@length _)) in S7; rewrite !map_length in S7; congruence].
  apply Change.app_split in S2 as (-> & _); [|congruence]. apply Change.app_split in S3 as (<- & _); [|apply (f_equal (@length _)) in S8; rewrite !map_length in S8; congruence]. now symmetry.
Qed.
Lemma find_two ss pre p mid q post : derives XStart ss -> ryield ss = (pre ++ [(p, ROut)]) ++ (mid ++ [(q, ROut)]) ++ post -> t_base p = F15_POINT -> t_base q = F15_POINT ->
  ~ just_ifr (pre ++ [(p, ROut)]) -> ~ just_ifr ((pre ++ [(p, ROut)]) ++ mid ++ [(q, ROut)]) ->
  exists s1 sm s3, ss = ((s1 ++ [SPoint p]) ++ sm ++ [SPoint q]) ++ s3 /\ ryield (s1 ++ [SPoint p]) = pre ++ [(p, ROut)] /\ ryield (sm ++ [SPoint q]) = mid ++ [(q, ROut)] /\ ryield s3 = post /\
    fold_left after (s1 ++ [SPoint p]) XStart = XPoint (computed_point (t_sub p)) /\ fold_left after ((s1 ++ [SPoint p]) ++ sm ++ [SPoint q]) XStart = XPoint (computed_point (t_sub q)).
Proof.
  intros D W Bp Bq N1 N2. destruct (find_point ss _ _ _ D W Bp N1) as (s1 & ss2 & E1 & Y1 & Y2 & Y3 & C1 & _).
  assert (W' : ryield ss = (((pre ++ [(p, ROut)]) ++ mid) ++ [(q, ROut)]) ++ post) by (rewrite W, <- !app_assoc; reflexivity). rewrite (app_assoc _ mid) in N2.
  destruct (find_point ss _ _ _ D W' Bq N2) as (s1' & s3 & E2 & Z1 & Z2 & Z3 & C2 & _).
  assert (E : s1' ++ SPoint q :: s3 = s1 ++ SPoint p :: ss2) by (rewrite <- !app_assoc in E1, E2; cbn [app] in E1, E2; congruence).
  apply AcceptFacts.app_split in E as [(c & Ec & Er)|(c & Ec & Er)].
  - subst s1'. exists s1, c, s3. rewrite E2. assert (A : (s1 ++ SPoint p :: c) ++ [SPoint q] = (s1 ++ [SPoint p]) ++ c ++ [SPoint q]) by (rewrite <- !app_assoc; reflexivity). rewrite A in *.
    split; [reflexivity|]. split; [exact Y3|]. split; [|auto]. rewrite (ryield_app (s1 ++ _)), Y3, <- !app_assoc in Z3. now apply app_inv_head in Z3; apply app_inv_head in Z3.
  - exfalso. subst s1. rewrite ryield_app, Z1 in Y1. apply (f_equal (@length _)) in Y1. rewrite !app_length in Y1. cbn [length] in Y1. lia.
Qed.
Theorem detour_fields depth1 depth2 depth3 f g x s1 s2 pre p mid q post pre' p' mid' q' post' : parse_field15 G depth1 f = Ok true s1 -> parse_field15 G depth2 g = Ok true s2 ->
  field_roles f = (pre ++ [(p, ROut)]) ++ (mid ++ [(q, ROut)]) ++ post -> field_roles g = (pre' ++ [(p', ROut)]) ++ (mid' ++ [(q', ROut)]) ++ post' ->
  t_base p = F15_POINT -> t_base q = F15_POINT -> t_text p = t_text p' -> t_text q = t_text q' ->
  ~ just_ifr (pre ++ [(p, ROut)]) -> ~ just_ifr ((pre ++ [(p, ROut)]) ++ mid ++ [(q, ROut)]) -> ~ just_ifr (pre' ++ [(p', ROut)]) -> ~ just_ifr ((pre' ++ [(p', ROut)]) ++ mid' ++ [(q', ROut)]) ->
  element_texts x = wordsof (pre ++ [(p, ROut)]) ++ wordsof (mid' ++ [(q', ROut)]) ++ wordsof post -> 3 * n_tokens x <= depth3 + 1 ->
  exists s3, parse_field15 G depth3 x = Ok true s3 /\ e_errs (s_ers s3) = [] /\
    detoured (pre ++ [(p, ROut)]) (mid ++ [(q, ROut)]) (pre' ++ [(p', ROut)]) (mid' ++ [(q', ROut)]) (e_recs (s_ers s1)) (e_recs (s_ers s2)) (e_recs (s_ers s3)).
Proof.
  intros H1 H2 W1 W2 Bp Bq Ep Eq N1 N2 N3 N4 Ex Hd. destruct (roles_steps G f depth1 s1 H1) as (ss & D1 & _ & R1 & T1 & E1). destruct (roles_steps G g depth2 s2 H2) as (tt & D2 & _ & R2 & T2 & E2).
  rewrite R1 in W1. rewrite R2 in W2.
  assert (I1 : In p (yield ss) /\ In q (yield ss)) by (rewrite <- yields_fst, W1, !map_app; cbn [map fst]; rewrite !in_app_iff; cbn [In]; auto 10).
  assert (I2 : In p' (yield tt) /\ In q' (yield tt)) by (rewrite <- yields_fst, W2, !map_app; cbn [map fst]; rewrite !in_app_iff; cbn [In]; auto 10).
  destruct (same_types _ _ _ _ T1 T2 (proj1 I1) (proj1 I2) Ep) as (Ep1 & Ep2). destruct (same_types _ _ _ _ T1 T2 (proj2 I1) (proj2 I2) Eq) as (Eq1 & Eq2). clear I1 I2.
  destruct (find_two ss _ _ _ _ _ D1 W1 Bp Bq N1 N2) as (a1 & am & a3 & -> & Y1 & Y2 & Y3 & C1 & C2).
  destruct (find_two tt _ _ _ _ _ D2 W2 ltac:(congruence) ltac:(congruence) N3 N4) as (b1 & bm & b3 & -> & Z1 & Z2 & Z3 & C3 & C4).
  destruct (detour_result a1 p am q a3 b1 p' bm q' b3 D1 D2 T1 T2 Bp ltac:(congruence) Ep Ep1 Ep2 Eq Eq1 Eq2 C1 C3 C2 C4) as (D3 & A1 & B1 & K1 & A2 & B2 & K2 & A3 & B3 & K3 & Q1 & Q2 & Q3 & Q4 & Q5 & Q6 & Q7 & Q8 & Q9 & Q10 & Q11).
  assert (T3 : by_text (yield (((a1 ++ [SPoint p]) ++ bm ++ [SPoint q']) ++ a3))).
  { rewrite !yield_app in *. intros u Hu. apply in_app_or in Hu as [Hu|Hu]; [|apply T1, in_or_app; now right]. apply in_app_or in Hu as [Hu|Hu].
    - apply T1. apply in_or_app. left. apply in_or_app. now left.
    - apply T2. apply in_or_app. left. apply in_or_app. now right. }
  destruct (parse_steps G depth3 _ x D3 T3) as (s3 & Hp & E3 & E4 & _); [|exact Hd|].
  { rewrite Ex, <- words_ryield, (ryield_app (_ ++ _)), (ryield_app (a1 ++ _)), Y1, Z2, Y3. unfold wordsof. now rewrite !map_app, <- !app_assoc. }
  exists s3. split; [exact Hp|]. split; [exact E4|]. rewrite E1, E2. cbn [e_recs].
  rewrite Q3, !map_app in E3. apply map_app_eq in E3 as (A4 & T4 & Er3 & EA & ET). apply map_app_eq in ET as (B4 & K4 & -> & EB & EK).
  rewrite (ryield_app (a1 ++ _) (am ++ _)), (ryield_app (a1 ++ _) (bm ++ _)), Y1, Y2, Z2 in Q11.
  rewrite Y1 in Q4. rewrite (ryield_app (a1 ++ _)), Y1, Y2 in Q5. rewrite Z1 in Q6. rewrite (ryield_app (b1 ++ _)), Z1, Z2 in Q7.
  exists A1, B1, K1, A2, B2, K2, A4, B4, K4. split; [exact Q1|]. split; [exact Q2|]. split; [exact Er3|]. do 4 (split; [assumption|]).
  split; [apply same_legs; exact (rec_legs _ _ _ Q8 EA)|]. split; [exact (leg_then_track _ _ _ Q9 (eq_sym (legs_of_recs _ _ EB)))|]. split; [exact (leg_then_track _ _ _ Q10 (eq_sym (legs_of_recs _ _ EK)))|].
  intro Ei. apply same_legs. exact (rec_legs _ _ _ (Q11 Ei) EK).
Qed.
End G.
