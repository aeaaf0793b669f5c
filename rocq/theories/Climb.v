(** * Climb: a cruise climb and a point with a change of speed and level. *)
From Coq Require Import ZArith NArith List Bool String Lia.
From Coq Require Import Floats.SpecFloat.
From Coq Require Import ZifyBool ZifyNat ZifyN.
From Verif Require Import PyBase PyFloat Enums ErrorTable Regex SyntaxTable Syntax Tokenizer Ers Utils Parser.
From Verif Require Import SpecTokenizer TokenizerProofs SpecNum ParserPrims PerfEq PointEq SyntaxProofs Trace ParseTrace ParserFacts SpecParser SpecGrammar GrammarSem Grammar SpecAccept Accept Describe AcceptFacts SpecLayout Layout SpecViable Viable Unambiguous SpecRemoval Removal SpecConnector Connector Join SpecClimb.
From Verif Require Stay.
Import List ListNotations.
Local Open Scope list_scope.
Local Open Scope nat_scope.

Section G.
Variable G : geodesic.
Section V.
Variable tg : pstr.
Variable v : pynum.
Variable z : token.
Definition h (r : rrec) : rrec := set_r_cto_si v (set_r_cto tg r).
Definition named (r : rrec) : Prop := r_name r = t_text z /\ r_cto r = [] /\ r_cto_si r = PyZeroFloat.
Lemma azi_tgt A x B p : named x -> exists A' x' B', azi G (A ++ x :: B) p = A' ++ x' :: B' /\ azi G (A ++ h x :: B) p = A' ++ h x' :: B' /\ length A' = length A /\ named x'.
Proof.
  intro Nx. unfold azi. destruct (r_llv p); [|now exists A, x, B].
  rewrite !rev_app_distr. cbn [rev]. destruct (rev B) as [|b1 [|b2 m]] eqn:EB; cbn [app].
  - change (r_llv (h x)) with (r_llv x). apply (f_equal (@rev _)) in EB. rewrite rev_involutive in EB. cbn [rev] in EB. subst B. destruct (r_llv x).
    + destruct (rev A) as [|a m] eqn:EA; apply (f_equal (@rev _)) in EA; rewrite rev_involutive in EA; cbn [rev] in EA; subst A.
      * exists [], (set_bd G x p), []. cbn [rev app]. repeat split; try reflexivity; apply Nx.
      * exists (rev m ++ [a]), (set_bd G x p), []. cbn [rev]. repeat split; try reflexivity; apply Nx.
    + destruct (rev A) as [|a m] eqn:EA; [now exists A, x, []|]. apply (f_equal (@rev _)) in EA. rewrite rev_involutive in EA. cbn [rev] in *. subst A.
      destruct (r_llv a); [|now exists (rev m ++ [a]), x, []]. exists (rev m ++ [set_bd G a p]), x, []. rewrite <- !app_assoc. cbn [app]. rewrite !app_length. auto.
  - apply (f_equal (@rev _)) in EB. rewrite rev_involutive in EB. cbn [rev app] in EB. subst B. destruct (r_llv b1).
    + exists A, x, [set_bd G b1 p]. cbn [rev]. rewrite !rev_involutive, <- !app_assoc. cbn [app]. auto.
    + change (r_llv (h x)) with (r_llv x). destruct (r_llv x); [|now exists A, x, [b1]]. exists A, (set_bd G x p), [b1]. rewrite !rev_involutive. repeat split; try reflexivity; apply Nx.
  - apply (f_equal (@rev _)) in EB. rewrite rev_involutive in EB. cbn [rev app] in EB. subst B. destruct (r_llv b1).
    + exists A, x, (rev m ++ [b2; set_bd G b1 p]). cbn [rev]. rewrite !rev_app_distr. cbn [rev app]. rewrite !rev_involutive, <- !app_assoc. cbn [app]. auto.
    + destruct (r_llv b2).
      * exists A, x, (rev m ++ [set_bd G b2 p; b1]). rewrite !rev_app_distr. cbn [rev app]. rewrite !rev_involutive, <- !app_assoc. cbn [app]. auto.
      * exists A, x, ((rev m ++ [b2]) ++ [b1]). auto.
Qed.
Lemma prev_tgt t A x B p : named x -> exists A' x' B', pt_prev G t (A ++ x :: B) p = A' ++ x' :: B' /\ pt_prev G t (A ++ h x :: B) p = A' ++ h x' :: B' /\ length A' = length A /\ named x'.
Proof.
  intro Lx. unfold pt_prev. destruct (t_sub t); try (now exists A, x, B); try now apply azi_tgt.
  - destruct (azi_tgt A x B (set_coords (coords_deg (t_text t)) p) Lx) as (A1 & x1 & B1 & -> & -> & L1 & N1). destruct (azi_tgt A1 x1 B1 (pt_rec G t p) N1) as (A2 & x2 & B2 & E1 & E2 & L2 & N2). exists A2, x2, B2. rewrite E1, E2, L2, L1. auto.
  - destruct (azi_tgt A x B (set_coords (coords_min (t_text t)) p) Lx) as (A1 & x1 & B1 & -> & -> & L1 & N1). destruct (azi_tgt A1 x1 B1 (pt_rec G t p) N1) as (A2 & x2 & B2 & E1 & E2 & L2 & N2). exists A2, x2, B2. rewrite E1, E2, L2, L1. auto.
Qed.
Definition Tg (k k' : core) : Prop := exists A x B, k_l k = A ++ x :: B /\ k_l k' = A ++ h x :: B /\ k_p k = k_p k' /\ A <> [] /\ named x.
Lemma Tg_pt t k k' : Tg k k' -> Tg (pt_k G t k) (pt_k G t k').
Proof.
  intros (A & x & B & E1 & E2 & E3 & N & Nx). unfold pt_k. rewrite E1, E2, E3. destruct (prev_tgt t A x B (k_p k') Nx) as (A' & x' & B' & F1 & F2 & F3 & F4).
  exists A', x', B'. cbn [k_l k_p]. repeat split; auto; try apply F4. now apply (len_ne A).
Qed.
Lemma Tg_with k k' p : Tg k k' -> Tg (k_with k p) (k_with k' p).
Proof. intros (A & x & B & E1 & E2 & _ & N). exists A, x, B. auto. Qed.
Lemma Tg_push k k' q p js js' : Tg k k' -> Tg (mkK (k_l k ++ [q]) p js) (mkK (k_l k' ++ [q]) p js').
Proof. intros (A & x & B & E1 & E2 & _ & N). exists A, x, (B ++ [q]). cbn [k_l k_p]. rewrite E1, E2, <- !app_assoc. auto. Qed.
Lemma Tg_p k k' : Tg k k' -> k_p k = k_p k'.
Proof. intros (? & ? & ? & _ & _ & E & _). exact E. Qed.
Lemma Tg_rule r k k' : Tg k k' -> Tg (rule_k r k) (rule_k r k').
Proof. intro K. unfold rule_k. rewrite (Tg_p _ _ K). now apply Tg_with. Qed.
Lemma Tg_step s j j' k k' : Tg k k' -> Tg (eff1 G j s k) (eff1 G j' s k').
Proof.
  intros H. pose proof (Tg_p _ _ H) as Ep.
  assert (Ad : forall i i' t, Tg (add_k i t k) (add_k i' t k')) by (intros i i' t; unfold add_k; rewrite Ep; now apply Tg_push).
  destruct s; cbn [eff1]; rewrite ?Ep; try (now apply Tg_with); auto using Tg_rule, Tg_pt.
  - unfold vfr_k. rewrite Ep. now apply Tg_push.
  - cbv zeta. change (k_p (add_k j t k)) with (carry (k_p k) (tok_rec t)). change (k_p (add_k j' t k')) with (carry (k_p k') (tok_rec t)). rewrite Ep. apply Tg_with, Ad.
  - cbv zeta. change (k_p (add_k j t k)) with (carry (k_p k) (tok_rec t)). change (k_p (add_k j' t k')) with (carry (k_p k') (tok_rec t)). rewrite Ep. apply Tg_with, Ad.
  - unfold vfr_k. rewrite Ep. now apply Tg_push.
Qed.
Lemma Tg_steps : forall ss j j' k k', Tg k k' -> Tg (effs G j ss k) (effs G j' ss k').
Proof. induction ss as [|s ss IH]; intros j j' k k' H; [exact H|]. cbn [effs]. now apply IH, Tg_step. Qed.
Definition target_at (l l' : list rrec) : Prop := exists A x B, l = A ++ x :: B /\ l' = A ++ h x :: B /\ named x.
Lemma final_tgt w k k' : (exists A x B, k_l k ++ [k_p k] = A ++ x :: B /\ k_l k' ++ [k_p k'] = A ++ h x :: B /\ A <> [] /\ named x) -> target_at (core_final w k) (core_final w k').
Proof.
  intros (A & x & B & E1 & E2 & N & Nx). unfold core_final. rewrite !core_recs_eq, E1, E2. destruct A as [|a A]; [congruence|]. rewrite !upd_first_app. set (A1 := upd_first w (a :: A)). clearbody A1.
  assert (La : ades_rec (A1 ++ h x :: B) = ades_rec (A1 ++ x :: B)).
  { unfold ades_rec. f_equal. assert (La : forall (y : rrec) B, last (A1 ++ y :: B) adep0 = last (y :: B) adep0).
    { clear. induction A1 as [|b A1 IH]; intros y B; [reflexivity|]. cbn [app]. rewrite <- (IH y B). destruct (A1 ++ y :: B) eqn:E; [destruct A1; discriminate|reflexivity]. }
    rewrite !La. destruct B; reflexivity. }
  rewrite La. exists A1, x, (B ++ [ades_rec (A1 ++ x :: B)]). rewrite <- !app_assoc. auto.
Qed.

(** The record in question is still the last one. *)
Definition Hd (k k' : core) : Prop := k_l k = k_l k' /\ k_p k' = h (k_p k) /\ k_l k <> [] /\ named (k_p k).
Lemma copy_h q p : copy_perf q (h p) = h (copy_perf q p). Proof. reflexivity. Qed.
Lemma sa_h t p : sa_eff t (h p) = h (sa_eff t p).
Proof. unfold sa_eff. destruct (sa_cut (t_sub t)); reflexivity. Qed.
Lemma sa_named t p : named p -> named (sa_eff t p).
Proof. unfold sa_eff. destruct (sa_cut (t_sub t)); intro H; exact H. Qed.
Definition trailing (c : ctx) : bool := match c with XPoint _ | XStay | XEnd => true | _ => false end.
Lemma Hd_push k k' q p js js' : Hd k k' -> q = k_p k -> Tg (mkK (k_l k ++ [q]) p js) (mkK (k_l k' ++ [h q]) p js').
Proof. intros (E1 & E2 & E3 & E4) ->. exists (k_l k), (k_p k), []. cbn [k_l k_p]. rewrite <- E1. auto. Qed.
Lemma Hd_steps : forall ss c j j' k k', derives c ss -> Forall wt (yield ss) -> trailing c = true -> Hd k k' ->
  Hd (effs G j ss k) (effs G j' ss k') \/ Tg (effs G j ss k) (effs G j' ss k').
Proof.
  induction ss as [|s ss IH]; intros c j j' k k' D W T H; [now left|]. rewrite yield_cons, Forall_app in W. destruct W as (Ws & W). cbn [effs derives] in *. destruct D as (F & P & D).
  assert (Stays : trailing (after c s) = true -> Hd (eff1 G j s k) (eff1 G j' s k') ->
    Hd (effs G (j + length (tokens_of s)) ss (eff1 G j s k)) (effs G (j' + length (tokens_of s)) ss (eff1 G j' s k')) \/
    Tg (effs G (j + length (tokens_of s)) ss (eff1 G j s k)) (effs G (j' + length (tokens_of s)) ss (eff1 G j' s k'))) by (intros T' H'; now apply (IH (after c s))).
  assert (Goes : Tg (eff1 G j s k) (eff1 G j' s k') ->
    Hd (effs G (j + length (tokens_of s)) ss (eff1 G j s k)) (effs G (j' + length (tokens_of s)) ss (eff1 G j' s k')) \/
    Tg (effs G (j + length (tokens_of s)) ss (eff1 G j s k)) (effs G (j' + length (tokens_of s)) ss (eff1 G j' s k'))) by (intros T'; right; now apply Tg_steps).
  assert (Hk := H). destruct H as (E1 & E2 & E3 & E4).
  assert (Ad : forall t i i', Tg (add_k i t k) (add_k i' t k')).
  { intros t i i'. unfold add_k. rewrite E2. change (carry (h (k_p k)) (tok_rec t)) with (carry (k_p k) (tok_rec t)). now apply Hd_push. }
  destruct s; try (destruct c; discriminate); cbn [eff1 after] in *.
  - apply Goes, Ad.
  - apply Goes, Tg_rule, Ad.
  - apply Goes, Tg_pt, Tg_rule, Ad.
  - apply Goes, Ad.
  - apply Goes. cbv zeta. change (k_p (add_k j' t k')) with (carry (k_p k') (tok_rec t)). rewrite E2.
    change (k_p (add_k j t k)) with (carry (k_p k) (tok_rec t)). change (carry (h (k_p k)) (tok_rec t)) with (carry (k_p k) (tok_rec t)). apply Tg_with, Ad.
  - apply Stays; [reflexivity|exact Hk].
  - apply Stays; [destruct c; try discriminate; reflexivity|]. rewrite E2, sa_h. split; [exact E1|]. split; [reflexivity|]. split; [exact E3|]. cbn [k_p k_with]. now apply sa_named.
  - apply Goes. unfold vfr_k. rewrite E2.
    cbn [tokens_of] in Ws. apply Forall_inv_tail, Forall_inv in Ws. cbn [proper] in P. destruct P as (_ & P).
    unfold vfr_eff. destruct (vfr_cut (t_sub t)) as [a|] eqn:Ea.
    + change (vfr_rec a t (h (k_p k))) with (vfr_rec a t (k_p k)). rewrite copy_h.
      exists (k_l k), (copy_perf (vfr_rec a t (k_p k)) (k_p k)), []. cbn [k_l k_p]. rewrite <- E1. auto.
    + exfalso. destruct (all_rows_spec F15_SPEED_VFR _ t ltac:(discriminate) ltac:(discriminate) Ws P vfr_cuts_all) as (sh & _ & K). unfold vfr_cuts in K. rewrite Ea in K. discriminate K.
  - apply Goes, Tg_rule, Ad.
  - apply Goes, Tg_pt, Ad.
  - apply Stays; [reflexivity|]. rewrite E2. split; [exact E1|]. split; [reflexivity|]. split; [exact E3|exact E4].
Qed.
Lemma Hd_final w k k' : Hd k k' \/ Tg k k' -> target_at (core_final w k) (core_final w k').
Proof.
  intros H. apply final_tgt. destruct H as [(E1 & E2 & E3 & E4)|(A & x & B & E1 & E2 & E3 & Ne & Nx)].
  - exists (k_l k), (k_p k), []. rewrite <- E1, E2. auto.
  - exists A, x, (B ++ [k_p k]). rewrite E1, E2, <- E3, <- !app_assoc. auto.
Qed.
End V.

(** ** The two ways of writing *)
Lemma azi_rules l p r : azi G l (set_r_rules r p) = azi G l p. Proof. reflexivity. Qed.
Lemma ptrec_rules t p r : pt_rec G t (set_r_rules r p) = set_r_rules r (pt_rec G t p).
Proof. unfold pt_rec, move_bd. destruct (t_sub t); reflexivity. Qed.
Lemma prev_rules t l p r : pt_prev G t l (set_r_rules r p) = pt_prev G t l p.
Proof. unfold pt_prev. rewrite ptrec_rules. destruct (t_sub t); rewrite ?azi_rules; reflexivity. Qed.
Lemma ptrec_named z t p : named z p -> named z (pt_rec G t p).
Proof. unfold pt_rec, move_bd. destruct (t_sub t); intro H; exact H. Qed.
Lemma climb_sa t w p : wt t -> wt w -> is_climb t -> t_base w = F15_SPEED_ALTITUDE ->
  speed_part (t_text w) = speed_part (t_text t) -> first_level (t_text w) = first_level (t_text t) -> r_cto_si p = PyZeroFloat ->
  climb_eff t p = h (target_of t) (target_value t) (sa_eff w p) /\ sa_eff w (set_r_rules RULE_I p) = sa_eff w p.
Proof.
  intros Wt Ww [B|B] Bw Es El Z; destruct (sa_perf w p Ww Bw) as (a & Ea & S1 & S2); destruct (sa_perf w (set_r_rules RULE_I p) Ww Bw) as (a' & Ea' & S1' & S2'); rewrite Ea, Ea'; unfold climb_eff, target_of, target_value, target_text, target_num; cbn [fst snd]; rewrite B;
    [destruct (saa_perf t p Wt B) as (x & y & z & -> & T1 & T2 & T3)|destruct (sap_perf t p Wt B) as (x & y & -> & T1 & T2 & T3)]; cbn [or_else];
    unfold sa_rec, saa_rec, sap_rec; rewrite T3, <- S1', <- S2', <- S1, <- S2, Es, El, T1, T2; (split; [|reflexivity]); [reflexivity|]. unfold h.
  change (set_r_rules RULE_I (set_spd (text_to x t) (set_r_cto (text_from y t) (set_alt (text_mid x y t) p))) = set_r_cto_si PyZeroFloat (set_r_rules RULE_I (set_spd (text_to x t) (set_r_cto (text_from y t) (set_alt (text_mid x y t) p))))). rewrite <- Z. reflexivity.
Qed.
Lemma climb_effect ss1 p c sl sl2 t sl' w ss3 : derives XStart (ss1 ++ SPoint p :: SSpeed sl' w :: ss3) -> derives XStart (ss1 ++ SClimb c sl p :: SClimbTo sl2 t :: ss3) ->
  by_text (yield (ss1 ++ SPoint p :: SSpeed sl' w :: ss3)) -> by_text (yield (ss1 ++ SClimb c sl p :: SClimbTo sl2 t :: ss3)) ->
  speed_part (t_text w) = speed_part (t_text t) -> first_level (t_text w) = first_level (t_text t) -> yield ss1 <> [] ->
  target_at (target_of t) (target_value t) p (result_of G (ss1 ++ SPoint p :: SSpeed sl' w :: ss3)) (result_of G (ss1 ++ SClimb c sl p :: SClimbTo sl2 t :: ss3)).
Proof.
  intros D D' B B' Es El Ny. pose proof (wt_by_text _ B) as W. pose proof (wt_by_text _ B') as W'. rewrite yield_app, !yield_cons, !Forall_app in W, W'. destruct W as (_ & _ & Ww & W3). destruct W' as (_ & _ & Wt & _).
  apply Forall_inv_tail, Forall_inv in Ww, Wt.
  unfold result_of. rewrite (vfr_first_same ss1 (SPoint p :: SSpeed sl' w :: ss3) (SClimb c sl p :: SClimbTo sl2 t :: ss3) Ny), !effs_app.
  apply derives_app in D, D'. set (x := fold_left after ss1 XStart) in *. clearbody x. set (k := effs G 0 ss1 core0). clearbody k. set (j := 0 + length (yield ss1)). clearbody j.
  cbn [derives] in D, D'. destruct D as (F1 & (Bp & _) & F2 & (_ & Bw & _) & D3). destruct D' as (F1' & _ & F2' & (_ & Bt & _) & D3'). cbn [after] in D3'.
  cbn [effs]. set (q := pt_rec G p (carry (k_p k) (tok_rec p))).
  assert (Nq : named p q) by (apply ptrec_named; repeat split).
  destruct (climb_sa t w q Wt Ww Bt Bw Es El (proj2 (proj2 Nq))) as (C1 & C2).
  apply Hd_final, (Hd_steps _ _ p ss3 (XPoint (computed_point (t_sub p)))).
  - exact D3'.
  - exact W3.
  - reflexivity.
  - cbn [eff1]. unfold pt_k, rule_k, add_k, k_with. cbn [k_l k_p]. rewrite prev_rules, ptrec_rules. fold q. rewrite C1, C2. split; [reflexivity|]. split; [reflexivity|]. split.
    + intro K. apply (f_equal (@length _)) in K. cbn [k_l k_p] in K. rewrite Stay.prev_len, app_length in K. cbn in K. lia.
    + now apply sa_named.
Qed.
Lemma derived_tgt tg v z l l' : target_at tg v z l l' -> derived l = derived l'.
Proof. intros (A & x & B & -> & -> & _). apply derived_rules. rewrite !map_app. reflexivity. Qed.
Lemma er_tgt tg v x r r' : er_rec (h tg v x) = er_rec r -> er_rec x = er_rec r' -> same_but_target r r' /\ r_cto r = tg /\ r_cto_si r = v /\ r_name r = r_name x /\ r_cto r' = r_cto x /\ r_cto_si r' = r_cto_si x.
Proof.
  unfold er_rec, same_but_target, h, set_r_cto, set_r_cto_si. cbn [r_name r_base r_sub r_alt r_alt_si r_speed r_speed_si r_break r_rules r_err r_stay r_cto r_cto_si r_lat r_lon r_brg r_dist r_llv]. intros H H'. injection H. injection H'. clear H H'. intros.
  repeat apply conj; first [assumption | symmetry; assumption | etransitivity; [symmetry; eassumption | eassumption]].
Qed.
(** The context before a C. *)
Definition climbable (c : ctx) : bool := match c with XDct | XRoute | XC | XStay | XPoint _ => true | _ => false end.
Lemma two_before ss1 ss2 : derives XStart (ss1 ++ ss2) -> climbable (fold_left after ss1 XStart) = true -> 2 <= length ss1.
Proof.
  destruct ss1 as [|a [|b ss1]]; cbn [length fold_left app]; intros D H; try lia; [discriminate|]. exfalso. cbn [derives] in D. destruct D as (F & _). destruct a; try discriminate F; discriminate H.
Qed.
Lemma yields ss1 ss2 : derives XStart (ss1 ++ ss2) -> 2 <= length ss1 -> yield ss1 <> [].
Proof. destruct ss1 as [|s0 r]; cbn [length]; [lia|]. intros D _. cbn [app derives] in D. destruct D as (_ & P & _). apply step_tokens in P. rewrite yield_cons. destruct (tokens_of s0); [congruence|discriminate]. Qed.
Lemma route_before ss1 ss2 : derives XStart (ss1 ++ ss2) -> fold_left after ss1 XStart = XRoute -> after_route (ryield ss1).
Proof.
  intros D E. destruct (snoc_ind_ctx ss1) as [->|(ss0 & s & ->)]; [discriminate|]. destruct (derives_last _ _ _ _ D) as (F & P). rewrite fold_left_app in E. cbn [fold_left] in E.
  assert (K : exists t, s = SRoute t).
  { destruct s; cbn [after] in E; try discriminate E; eauto; exfalso; revert E F; generalize (fold_left after ss0 XStart); clear; intros c E F; destruct c as [| | | | | | |[]| |[]|[]| | |]; try discriminate E; try discriminate F; destruct (begins _); discriminate E. }
  destruct K as (t & ->). exists (ryield ss0), t. rewrite ryield_app. split; [reflexivity|exact P].
Qed.
Lemma by_text_typed u : (t_base (typed_token u), t_sub (typed_token u)) = classify (t_text (typed_token u)).
Proof. cbn [t_base t_sub t_text typed_token]. now rewrite <- surjective_pairing. Qed.
Lemma climb_step s c r a t b : proper c s r -> rstep s = a ++ (t, RClimb) :: b -> exists c0 sl, s = SClimb c0 sl t /\ a = [(c0, ROut); (sl, ROut)] /\ b = [].
Proof.
  intros P E. destruct s; cbn [rstep tokens_of map] in E; try (apply text_role in E; discriminate);
    repeat (destruct a as [|? a]; cbn [app] in E; [injection E; intros; try discriminate; subst; eauto|try discriminate E; injection E as <- E]); try (destruct a; discriminate E).
Qed.
Lemma outcome tg v z l l' x x' : target_at tg v z l l' -> map er_rec (e_recs x') = map er_rec l -> map er_rec (e_recs x) = map er_rec l' -> e_errs x = [] -> e_errs x' = [] -> e_rules x = derived l' -> e_rules x' = derived l ->
  one_target (t_text z) tg v x x'.
Proof.
  intros O E' E N N' R R'. pose proof (derived_tgt _ _ _ _ _ O) as Ed. destruct O as (A & r & V & -> & -> & (N1 & N2 & N3)). rewrite map_app in E, E'. cbn [map] in E, E'.
  apply map_split in E as (U1 & r1 & V1 & E1 & EU1 & Er1 & EV1). apply map_split in E' as (U2 & r2 & V2 & E2 & EU2 & Er2 & EV2).
  exists U1, r1, V1, U2, r2, V2. split; [exact E1|]. split; [exact E2|]. split; [apply er_same_list; congruence|]. split; [apply er_same_list; congruence|].
  symmetry in Er1, Er2. destruct (er_tgt _ _ _ _ _ Er1 Er2) as (Q1 & Q2 & Q3 & Q4 & Q5 & Q6). rewrite Q2, Q3, Q4, Q5, Q6, N2, N3, R, R', Ed. repeat split; auto.
  all: apply Q1.
Qed.
Theorem climb_to_point depth depth' f s pre c sl p sl2 t rest w g : parse_field15 G depth f = Ok true s ->
  field_roles f = pre ++ (c, ROut) :: (sl, ROut) :: (p, RClimb) :: (sl2, ROut) :: (t, ROut) :: rest ->
  t_base p = F15_POINT -> ~ (after_route pre /\ computed_point (t_sub p) = true) ->
  fst (classify w) = F15_SPEED_ALTITUDE -> speed_part w = speed_part (t_text t) -> first_level w = first_level (t_text t) ->
  element_texts g = wordsof pre ++ t_text p :: $"/" :: w :: wordsof rest -> 3 * n_tokens g <= depth' + 1 ->
  exists s', parse_field15 G depth' g = Ok true s' /\ one_target (t_text p) (target_of t) (target_value t) (s_ers s) (s_ers s').
Proof.
  intros H W Bp Nr Cw Sw Lw Eg Hdp. destruct (roles_steps G f depth s H) as (ss & D & Y & R & B & Es). rewrite R in W.
  change (ryield ss = pre ++ [(c, ROut); (sl, ROut)] ++ (p, RClimb) :: (sl2, ROut) :: (t, ROut) :: rest) in W. rewrite app_assoc in W.
  destruct (locate ss XStart _ _ _ D W) as (x & st & ss1 & ss2 & a & b & Ess & Er & Ep & Et & F & P & D2 & Ec). subst ss.
  destruct (climb_step _ _ _ _ _ _ P Er) as (c' & sl' & -> & -> & ->).
  assert (Ep' : pre = ryield ss1 /\ c = c' /\ sl = sl').
  { apply (f_equal (@rev _)) in Ep. rewrite !rev_app_distr in Ep. cbn [rev app] in Ep. injection Ep as E1 E2 E3. split; [|auto]. rewrite <- (rev_involutive pre), E3. apply rev_involutive. }
  destruct Ep' as (-> & -> & ->). cbn [after app] in D2, Et.
  destruct ss2 as [|st2 ss3]; [discriminate D2|]. cbn [derives] in D2. destruct D2 as (F2 & P2 & D3). destruct st2; try discriminate F2. rewrite ryield_cons in Et. cbn [rstep tokens_of map app] in Et. injection Et as <- <- ->.
  cbn [after] in D3. assert (Hc : climbable x = true) by (destruct x as [| | | | | | |[]| |[]|[]| | |]; try discriminate F; reflexivity).
  rewrite Ec in Hc. pose proof (two_before _ _ D Hc) as L2. set (w' := typed_token w). set (sv := typed_token ($"/")).
  assert (Hf : follows x (SPoint p) = true).
  { rewrite Ec in *. destruct (fold_left after ss1 XStart) eqn:E; try discriminate Hc; try reflexivity. cbn [follows]. destruct (computed_point (t_sub p)) eqn:K; [|reflexivity]. exfalso. apply Nr. split; [|reflexivity]. exact (route_before _ _ D E). }
  assert (D' : derives XStart (ss1 ++ SPoint p :: SSpeed sv w' :: ss3)).
  { apply (exchange ss1 XStart _ _ D); rewrite <- ?Ec.
    - cbn [derives]. cbn [proper] in P, P2 |- *. split; [exact Hf|]. split; [split; [exact Bp|apply P]|].
      assert (Ea : after x (SPoint p) = XPoint (computed_point (t_sub p))) by (rewrite <- Ec in Hc; destruct x; try discriminate Hc; reflexivity). rewrite Ea. split; [reflexivity|]. split; [|exact D3].
      split; [vm_compute; reflexivity|]. split; [exact Cw|]. unfold levels_ok. change (t_base w') with (fst (classify w)). rewrite Cw. change (t_text w') with w. rewrite Lw.
      destruct P2 as (_ & [B2|B2] & P2); unfold levels_ok in P2; rewrite B2 in P2; tauto.
    - left. rewrite <- Ec in Hc. destruct x; try discriminate Hc; reflexivity.
    - intros _. rewrite yield_cons. cbn [tokens_of app no_slash]. rewrite Bp. discriminate.
    - left. rewrite yield_cons. discriminate.
    - rewrite <- Ec in Hc. destruct x; try discriminate Hc; discriminate. }
  pose proof B as B0. rewrite yield_app, !yield_cons in B0.
  assert (B' : by_text (yield (ss1 ++ SPoint p :: SSpeed sv w' :: ss3))).
  { rewrite yield_app, !yield_cons. intros u Hu. cbn [tokens_of app] in B0, Hu. apply in_app_or in Hu as [Hu|[<-|[<-|[<-|Hu]]]]; try apply by_text_typed; apply B0, in_or_app; [now left|right..]; cbn [In]; auto 10. }
  destruct (parse_steps G depth' _ g D' B') as (s' & Hp & E1 & E2 & E3); [|exact Hdp|].
  { rewrite Eg, <- words_ryield, ryield_app, !ryield_cons. unfold wordsof. rewrite !map_app. reflexivity. }
  exists s'. split; [exact Hp|].
  pose proof (climb_effect ss1 p c' sl' _ _ sv w' ss3 D' D B' B Sw Lw (yields _ _ D L2)) as O.
  apply (outcome _ _ _ _ _ _ _ O); auto; rewrite Es; reflexivity.
Qed.
(** ** The other way *)
Lemma climb_ctx ss1 ss2 p : derives XStart (ss1 ++ ss2) -> before_c (ryield ss1) -> follows (fold_left after ss1 XStart) (SPoint p) = true -> climbable (fold_left after ss1 XStart) = true.
Proof.
  intros D (pre0 & x & E & Ne & Nt & N1 & N2) F. destruct (snoc_ind_ctx ss1) as [->|(ss0 & s & ->)]; [destruct pre0; discriminate|]. destruct (derives_last _ _ _ _ D) as (F1 & P1).
  rewrite fold_left_app in *. cbn [fold_left] in *. rewrite ryield_app in E. unfold ryield at 2 in E. cbn [flat_map] in E. rewrite app_nil_r in E. revert F F1 P1. 
  set (c := fold_left after ss0 XStart). intros F F1 P1.
  destruct (after c s) eqn:Ea; try discriminate F; try reflexivity; exfalso.
  - destruct s; cbn [after] in Ea; try discriminate Ea; try (destruct c as [| | | | | | |[]| |[]|[]| | |]; discriminate); try (destruct (begins _); discriminate).
    destruct (snoc_ind_ctx ss0) as [->|(ss9 & s9 & ->)]; [cbn [ryield flat_map rstep tokens_of map app] in E; destruct pre0 as [|? [|? ?]]; try discriminate E; congruence|].
      rewrite <- app_assoc in D. destruct (derives_last _ _ _ _ D) as (F9 & _). subst c. rewrite fold_left_app in F1. cbn [fold_left] in F1. revert F1 F9. generalize (fold_left after ss9 XStart). clear. intros c F1 F9.
      destruct (after c s9) eqn:E; try discriminate F1; try (match goal with k : kind |- _ => destruct k; discriminate F1 end). pose proof (after_start _ _ E) as ->. destruct s9; discriminate.
  - destruct s; cbn [after] in Ea; try discriminate Ea; try (destruct c as [| | | | | | |[]| |[]|[]| | |]; discriminate); try (destruct (begins _); discriminate).
    cbn [rstep tokens_of map] in E. apply app_inj_tail in E as (_ & <-). cbn [fst proper] in *. tauto.
  - destruct s; cbn [after] in Ea; try discriminate Ea; try (destruct c as [| | | | | | |[]| |[]|[]| | |]; discriminate); try (destruct (begins _); discriminate).
    cbn [rstep] in E. cbn [proper] in P1. destruct P1 as (P1 & _). destruct (exists_last P1) as (t0 & u & ->). rewrite map_app, app_assoc in E. cbn [map] in E. apply app_inj_tail in E as (_ & <-). now apply Nt.
Qed.
Theorem point_to_climb depth depth' f s pre p sl w rest t g : parse_field15 G depth f = Ok true s ->
  field_roles f = pre ++ (p, ROut) :: (sl, ROut) :: (w, ROut) :: rest ->
  t_base p = F15_POINT -> t_base sl = F15_SLASH -> t_base w = F15_SPEED_ALTITUDE -> before_c pre ->
  (t_base t, t_sub t) = classify (t_text t) -> is_climb t -> levels_ok t -> speed_part (t_text t) = speed_part (t_text w) -> first_level (t_text t) = first_level (t_text w) ->
  element_texts g = wordsof pre ++ $"C" :: $"/" :: t_text p :: $"/" :: t_text t :: wordsof rest -> 3 * n_tokens g <= depth' + 1 ->
  exists s', parse_field15 G depth' g = Ok true s' /\ one_target (t_text p) (target_of t) (target_value t) (s_ers s') (s_ers s).
Proof.
  intros H W Bp Bsl Bw Bc Bt It Lt St Ll Eg Hdp. destruct (roles_steps G f depth s H) as (ss & D & Y & R & B & Es). rewrite R in W.
  destruct (locate ss XStart _ _ _ D W) as (x & st & ss1 & ss2 & a & b & Ess & Er & Ep & Et & F & P & D2 & Ec). subst ss.
  assert (St1 : (st = SPoint p \/ st = SRejoin p) /\ a = [] /\ b = []).
  { clear Ec. destruct st; cbn [rstep tokens_of map] in Er; try (apply text_role in Er; discriminate); one_of Er; cbn [proper] in P; try discriminate; auto;
    repeat match goal with H : _ /\ _ |- _ => destruct H | H : _ \/ _ |- _ => destruct H end; try congruence; try (destruct a; discriminate). }
  destruct St1 as (St1 & -> & ->). rewrite app_nil_r in Ep. cbn [app] in Et. subst pre.
  assert (F0 : follows x (SPoint p) = true).
  { destruct St1 as [->| ->]; [exact F|]. destruct x; try discriminate F; try (match goal with k : kind |- _ => destruct k; try discriminate F end). reflexivity. }
  rewrite Ec in F0. pose proof (climb_ctx _ _ p D Bc F0) as Hc. rewrite Ec in F.
  destruct St1 as [->| ->]; [|exfalso; destruct (fold_left after ss1 XStart); try discriminate Hc; discriminate F].
  assert (Ea : after x (SPoint p) = XPoint (computed_point (t_sub p))) by (rewrite Ec; destruct (fold_left after ss1 XStart); try discriminate Hc; reflexivity). rewrite Ea in D2.
  destruct ss2 as [|st2 ss3]; [discriminate Et|]. cbn [derives] in D2. destruct D2 as (F2 & P2 & D3).
  assert (S2 : st2 = SSpeed sl w /\ rest = ryield ss3).
  { rewrite ryield_cons in Et. destruct st2; try discriminate F2; cbn [rstep tokens_of map app proper] in Et, P2; injection Et; intros; subst; auto; exfalso;
      repeat match goal with H : _ /\ _ |- _ => destruct H | H : _ \/ _ |- _ => destruct H end; try congruence. }
  destruct S2 as (-> & ->). cbn [after] in D3.
  pose proof (two_before _ _ D Hc) as L2. set (cc := typed_token ($"C")). set (sv := typed_token ($"/")).
  assert (D' : derives XStart (ss1 ++ SClimb cc sv p :: SClimbTo sv t :: ss3)).
  { apply (exchange ss1 XStart _ _ D).
    - cbn [derives]. cbn [proper] in P, P2 |- *. split; [destruct (fold_left after ss1 XStart); try discriminate Hc; reflexivity|]. split; [split; [vm_compute; reflexivity|]; split; [vm_compute; reflexivity|apply P]|].
      split; [reflexivity|]. split; [|exact D3]. split; [vm_compute; reflexivity|]. auto.
    - left. destruct (fold_left after ss1 XStart); try discriminate Hc; reflexivity.
    - intros _. rewrite yield_cons. cbn [tokens_of app no_slash]. vm_compute. discriminate.
    - left. rewrite yield_cons. discriminate.
    - destruct (fold_left after ss1 XStart); try discriminate Hc; discriminate. }
  pose proof B as B0. rewrite yield_app, !yield_cons in B0.
  assert (B' : by_text (yield (ss1 ++ SClimb cc sv p :: SClimbTo sv t :: ss3))).
  { rewrite yield_app, !yield_cons. intros u Hu. cbn [tokens_of app] in B0, Hu. apply in_app_or in Hu as [Hu|[<-|[<-|[<-|[<-|[<-|Hu]]]]]]; try apply by_text_typed; try exact Bt; apply B0, in_or_app; [now left|right..]; cbn [In]; auto 10. }
  destruct (parse_steps G depth' _ g D' B') as (s' & Hp & E1 & E2 & E3); [|exact Hdp|].
  { rewrite Eg, <- words_ryield, ryield_app, !ryield_cons. unfold wordsof. rewrite !map_app. reflexivity. }
  exists s'. split; [exact Hp|].
  pose proof (climb_effect ss1 p cc sv sv t sl w ss3 D D' B B' (eq_sym St) (eq_sym Ll) (yields _ _ D L2)) as O.
  apply (outcome _ _ _ _ _ _ _ O); auto; rewrite Es; reflexivity.
Qed.
End G.
