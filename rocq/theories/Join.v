(** * Join: going on from a point, and joining two fields (lemmas behind PropsSplit). *)
From Coq Require Import ZArith NArith List Bool String Lia.
From Coq Require Import Floats.SpecFloat.
From Coq Require Import ZifyBool ZifyNat ZifyN.
From Verif Require Import PyBase PyFloat Enums ErrorTable Regex SyntaxTable Syntax Tokenizer Ers Utils Parser.
From Verif Require Import SpecTokenizer TokenizerProofs SpecNum ParserPrims PerfEq PointEq SyntaxProofs Trace ParseTrace ParserFacts SpecParser SpecGrammar GrammarSem Grammar SpecAccept Accept Describe AcceptFacts SpecLayout Layout SpecViable Viable Unambiguous SpecRemoval Removal SpecSplit Split InForce.
Import List ListNotations.
Local Open Scope list_scope.
Local Open Scope nat_scope.

Ltac one_of Er :=
  match type of Er with
  | _ = ?a ++ _ :: _ => destruct a as [|? [|? [|? a]]]; cbn [app] in Er; try discriminate Er; try (injection Er; clear Er; intros; subst)
  end.
Section G.
Variable G : geodesic.
Lemma in_roles f pre x rest : field_roles f = pre ++ x :: rest -> wt (fst x).
Proof.
  intro E. symmetry. apply (by_text_field f). apply (nth_error_In _ (length pre)). apply roles_nth. rewrite E, nth_error_app2, Nat.sub_diag by lia. reflexivity.
Qed.
Lemma in_force_element f pre rest m : field_roles f = pre ++ rest -> in_force pre = Some m ->
  fst (classify (fst m ++ snd m)) = F15_SPEED_ALTITUDE /\ speed_part (fst m ++ snd m) = fst m /\ first_level (fst m ++ snd m) = snd m.
Proof.
  intros W If. apply last_some_in in If as (u & [t ro] & w & -> & M). rewrite <- app_assoc in W. cbn [app] in W. exact (modifier_text t ro m (in_roles f _ _ _ W) M).
Qed.
Theorem from_point depth depth' f s pre p rest sp lv g : parse_field15 G depth f = Ok true s -> field_roles f = pre ++ (p, ROut) :: rest -> t_base p = F15_POINT -> ~ unchecked_point pre rest ->
  in_force pre = Some (sp, lv) -> element_texts g = (sp ++ lv) :: wordsof ((p, ROut) :: rest) -> 3 * n_tokens g <= depth' + 1 ->
  exists s' A B ades a' B', parse_field15 G depth' g = Ok true s' /\ divided (t_start p) (e_recs (s_ers s)) A B ades /\
    e_recs (s_ers s') = a' :: B' /\ aerodrome ($"ADEP") a' /\ Forall2 same_but_leg (B ++ [ades]) B'.
Proof.
  intros H W Bp Nu If Eg Hd. destruct (in_force_element f pre _ _ W If) as (C & E1 & E2). cbn [fst snd] in *.
  apply (go_on G depth depth' f s pre p rest (sp ++ lv) g H W Bp Nu C); [now rewrite E1, E2|exact Eg|exact Hd].
Qed.

(** ** Joining *)
Definition ready (c : ctx) : bool := match c with XDct | XRoute | XC | XSid | XStay | XPoint _ => true | _ => false end.
Lemma last_elements ss1 pre x : derives XStart ss1 -> ryield ss1 = pre ++ [(x, ROut)] -> goes_on pre x -> ready (fold_left after ss1 XStart) = true /\ (fold_left after ss1 XStart = XRoute -> t_base x = F15_ROUTE).
Proof.
  intros D E Hg. destruct (locate ss1 XStart _ _ _ D E) as (c & st & sa & sb & a & b & Ess & Er & Ep & Et & F & P & D2 & Ec).
  symmetry in Et. apply app_eq_nil in Et as (-> & Eb). assert (sb = []) as ->.
  { destruct sb as [|s r]; [reflexivity|]. exfalso. cbn [derives] in D2. destruct D2 as (_ & P2 & _). apply step_tokens in P2. rewrite ryield_cons in Eb. apply app_eq_nil in Eb as (Eb & _).
    apply (f_equal (@length _)) in Eb. rewrite rstep_len in Eb. destruct (tokens_of s); [congruence|discriminate]. }
  rewrite Ess, fold_left_app. cbn [fold_left]. rewrite <- Ec. cbn [derives] in D2. unfold goes_on in Hg.
  assert (Hsid : t_base x = F15_SID_STAR -> c = XAdep).
  { intro K. destruct Hg as [Hg|(_ & Hg)]; [rewrite K in Hg; cbn in Hg; repeat (destruct Hg as [Hg|Hg]; [discriminate Hg|]); contradiction|].
    rewrite Ep in Hg. destruct sa as [|s1 sa].
    - cbn [fold_left] in Ec. subst c. exfalso. destruct st; try discriminate F; cbn [rstep tokens_of map] in Er; destruct a as [|? [|? ?]]; try discriminate Er; cbn [app] in Hg; cbn in Hg; lia.
    - rewrite Ess in D. pose proof D as D0. cbn [app derives] in D. destruct D as (F1 & P1 & D). rewrite ryield_cons in Hg. rewrite !app_length, rstep_len in Hg.
      destruct s1; try discriminate F1; cbn [tokens_of length] in Hg.
      + assert (sa = []) as ->; [|now subst c]. destruct sa as [|s2 sa]; [reflexivity|exfalso]. cbn [app derives] in D. destruct D as (_ & P2 & _). apply step_tokens in P2.
        rewrite ryield_cons, app_length, rstep_len in Hg. destruct (tokens_of s2); [congruence|cbn [length] in Hg; lia].
      + exfalso. destruct sa as [|s2 sa].
        * cbn [app derives after] in D. destruct D as (F2 & _). destruct st; try discriminate F2. cbn [rstep] in Er. apply text_role in Er. discriminate Er.
        * cbn [app derives after] in D. destruct D as (_ & P2 & _). apply step_tokens in P2. rewrite ryield_cons, app_length, rstep_len in Hg. destruct (tokens_of s2); [congruence|cbn [length] in Hg; lia]. }
  assert (Hb : t_base x = F15_SID_STAR \/ In (t_base x) [F15_DCT; F15_ROUTE; F15_POINT; F15_C; F15_SID; F15_SPEED_ALTITUDE; F15_SPEED_ALTITUDE_ALTITUDE; F15_SPEED_ALTITUDE_PLUS; F15_STAY_TIME]) by tauto.
  clear Hg Ess Ep E D Ec.
  assert (Hn : forall b, t_base x = b -> b <> F15_SID_STAR -> In b [F15_DCT; F15_ROUTE; F15_POINT; F15_C; F15_SID; F15_SPEED_ALTITUDE; F15_SPEED_ALTITUDE_ALTITUDE; F15_SPEED_ALTITUDE_PLUS; F15_STAY_TIME]).
  { intros b0 Eb0 Nb. destruct Hb as [Hb|Hb]; [congruence|now rewrite <- Eb0]. }
  destruct st; cbn [rstep tokens_of map] in Er; try (apply text_role in Er; discriminate); one_of Er; cbn [proper] in P; try discriminate; try (destruct a; discriminate).
  all: cbn [after] in *; try (split; [reflexivity|discriminate]).
  - destruct P as (_ & _ & P). exfalso. now apply P.
  - exfalso. specialize (Hn _ P ltac:(discriminate)). cbn in Hn. repeat (destruct Hn as [Hn|Hn]; [discriminate Hn|]). exact Hn.
  - split; [reflexivity|]. intros _. exact P.
  - destruct c as [| | | | | | | | |[]|[]| | |]; try discriminate F; try discriminate D2; split; (reflexivity || discriminate).
  - exfalso. destruct P as ([P|(P & Pc)] & _); [|exact (Pc (Hsid P))]. specialize (Hn _ P ltac:(discriminate)). cbn in Hn. repeat (destruct Hn as [Hn|Hn]; [discriminate Hn|]). exact Hn.
  - exfalso. destruct P as (P & _). specialize (Hn _ P ltac:(discriminate)). cbn in Hn. repeat (destruct Hn as [Hn|Hn]; [discriminate Hn|]). exact Hn.
  - destruct c as [| | | | | | | | |[]|[]| | |]; try discriminate F; split; (reflexivity || discriminate).
  - exfalso. destruct P as (_ & P). specialize (Hn _ P ltac:(discriminate)). cbn in Hn. repeat (destruct Hn as [Hn|Hn]; [discriminate Hn|]). exact Hn.
  - exfalso. destruct P as (P & _). specialize (Hn _ P ltac:(discriminate)). cbn in Hn. repeat (destruct Hn as [Hn|Hn]; [discriminate Hn|]). exact Hn.
  - destruct c as [| | | | | | | | |[]|[]| | |]; try discriminate F; split; (reflexivity || discriminate).
Qed.
Lemma ready_point c p : ready c = true -> (c = XRoute -> computed_point (t_sub p) = false) -> follows c (SPoint p) = true /\ after c (SPoint p) = XPoint (computed_point (t_sub p)) /\ halfway c = false /\ c <> XEnd.
Proof.
  intros R H. destruct c as [| | | | | | | | |[]|[]| | |]; try discriminate R; (split; [try reflexivity; cbn [follows]; now rewrite (H eq_refl)|]); (split; [reflexivity|]); split; (reflexivity || discriminate).
Qed.
Lemma legs_of_recs l l' : map er_rec l = map er_rec l' -> map er_leg l = map er_leg l'.
Proof.
  intro K. assert (Q : forall l, map er_leg l = map er_brg (map er_rec l)) by (intro x; rewrite map_map; apply map_ext; intros []; reflexivity). now rewrite !Q, K.
Qed.
(** The records of two runs joined at a point. *)
Lemma join_records ss1 p ss2 t0 : derives XStart (ss1 ++ SPoint p :: ss2) -> Forall wt (yield ss1) -> wt t0 -> t_base t0 = F15_SPEED_ALTITUDE ->
  in_force (ryield ss1) = Some (speed_part (t_text t0), first_level (t_text t0)) ->
  exists A3 B3 z a B, result_of G (ss1 ++ SPoint p :: ss2) = A3 ++ B3 /\ result_of G (SFirst t0 :: SPoint p :: ss2) = a :: B /\
    result_of G ss1 = core_recs (is_vfr_first (yield ss1)) (effs G 0 ss1 core0) ++ [z] /\ map er_leg A3 = map er_leg (core_recs (is_vfr_first (yield ss1)) (effs G 0 ss1 core0)) /\ map er_leg B3 = map er_leg B.
Proof.
  intros D W1 W0 B0 If. set (k1 := effs G 0 ss1 core0) in *. set (v := is_vfr_first (yield ss1)).
  assert (N1 : yield ss1 <> []).
  { destruct ss1 as [|x ss1]; [discriminate If|]. cbn [app derives] in D. destruct D as (_ & Px & _). apply step_tokens in Px. rewrite yield_cons. destruct (tokens_of x); [congruence|discriminate]. }
  assert (Ev : is_vfr_first (yield (ss1 ++ SPoint p :: ss2)) = v) by (unfold v; rewrite (vfr_first_same ss1 _ [] N1); now rewrite app_nil_r).
  pose proof (perf_run G ss1 XStart _ 0 core0 None D W1 eq_refl) as Pf. unfold in_force in If. rewrite If in Pf. fold k1 in Pf. cbn [perf0] in Pf.
  pose proof (perf_sa t0 adep0 W0 B0) as Pf0.
  set (j := 0 + length (yield ss1)). set (k2 := eff1 G j (SPoint p) k1). set (k2' := eff1 G 1 (SPoint p) (eff1 G 0 (SFirst t0) core0)).
  assert (T0 : Tail (k_l k1 ++ [k_p k1]) [sa_eff t0 adep0] k2 k2').
  { unfold k2, k2'. cbn [eff1]. apply Tail_pt. exists [], []. unfold rule_k, add_k, k_with. cbn [k_l k_p k_js]. rewrite !app_nil_r. split; [reflexivity|]. split; [reflexivity|]. split; [reflexivity|].
    assert (K : forall m q q', perf m q -> perf m q' -> set_r_rules RULE_I (carry q (tok_rec p)) = set_r_rules RULE_I (carry q' (tok_rec p))).
    { intros m q q' (A1 & A2 & A3 & A4) (C1 & C2 & C3 & C4). unfold carry. rewrite A1, A2, A3, A4, C1, C2, C3, C4. reflexivity. }
    now rewrite (K _ _ _ Pf Pf0). }
  pose proof (Tail_steps G _ _ ss2 (j + 1) 2 _ _ T0) as T1. set (k3 := effs G (j + 1) ss2 k2) in *. set (k3' := effs G 2 ss2 k2') in *.
  assert (Er' : result_of G (SFirst t0 :: SPoint p :: ss2) = core_final false k3').
  { unfold result_of. rewrite yield_cons. cbn [tokens_of app is_vfr_first]. rewrite B0. reflexivity. }
  assert (Er : result_of G (ss1 ++ SPoint p :: ss2) = core_final v k3) by (unfold result_of; rewrite Ev, effs_app; reflexivity).
  destruct T1 as (N & N' & T1 & T2 & T3 & T4). apply map_app_eq in T1 as (l1 & l2 & El & E1 & E2). apply map_app_eq in T2 as (l1' & l2' & El' & E1' & E2').
  destruct l1' as [|a [|? ?]]; try discriminate E1'.
  assert (Ne : l1 <> []) by (intros ->; destruct (k_l k1); discriminate E1). destruct l1 as [|b l1]; [congruence|].
  assert (Ek : core_recs v k3 = upd_first v (b :: l1) ++ (l2 ++ [k_p k3])).
  { rewrite core_recs_eq, El, <- app_assoc. apply upd_first_app. }
  assert (Ek' : core_recs false k3' = a :: l2' ++ [k_p k3']) by (rewrite core_recs_eq, El'; reflexivity).
  exists (upd_first v (b :: l1)), ((l2 ++ [k_p k3]) ++ [ades_rec (core_recs v k3)]), (ades_rec (core_recs v k1)), a, ((l2' ++ [k_p k3']) ++ [ades_rec (core_recs false k3')]).
  split; [rewrite Er; unfold core_final; rewrite Ek at 1; now rewrite <- app_assoc|]. split; [rewrite Er'; unfold core_final; rewrite Ek' at 1; reflexivity|]. split; [reflexivity|]. split.
  - rewrite core_recs_eq. apply upd_first_leg, leg_brg. exact E1.
  - rewrite !map_app. assert (L2 : map er_leg l2 = map er_leg l2') by (rewrite <- leg_of_brg, E2, T3; now symmetry). rewrite L2. cbn [map]. rewrite T4. do 2 f_equal.
    unfold ades_rec. rewrite Ek, Ek', app_assoc, app_comm_cons, !last_last. pose proof (same_leg _ _ T4) as (_ & _ & _ & _ & _ & _ & _ & _ & -> & _). reflexivity.
Qed.
Theorem join_fields depth1 depth2 depth3 f g h s1 s2 pre x t0 p rest : parse_field15 G depth1 f = Ok true s1 -> parse_field15 G depth2 g = Ok true s2 ->
  field_roles f = pre ++ [(x, ROut)] -> goes_on pre x -> field_roles g = (t0, ROut) :: (p, ROut) :: rest -> t_base t0 = F15_SPEED_ALTITUDE -> t_base p = F15_POINT ->
  (t_base x = F15_ROUTE -> computed_point (t_sub p) = false) -> in_force (field_roles f) = Some (speed_part (t_text t0), first_level (t_text t0)) ->
  element_texts h = element_texts f ++ tl (element_texts g) -> 3 * n_tokens h <= depth3 + 1 ->
  exists s3 A z a B A3 B3, parse_field15 G depth3 h = Ok true s3 /\ e_recs (s_ers s1) = A ++ [z] /\ e_recs (s_ers s2) = a :: B /\
    e_recs (s_ers s3) = A3 ++ B3 /\ Forall2 same_but_leg A A3 /\ Forall2 same_but_leg B B3.
Proof.
  intros H1 H2 W1 Hg W2 B0 Bp Hc If Eh Hd. destruct (roles_steps G f depth1 s1 H1) as (ss1 & D1 & Y1 & R1 & T1 & E1). destruct (roles_steps G g depth2 s2 H2) as (ssg & D2 & Y2 & R2 & T2 & E2).
  rewrite R1 in W1, If. rewrite R2 in W2. destruct (last_elements ss1 pre x D1 W1 Hg) as (Rd & Hr).
  assert (Hss : exists ss2, ssg = SFirst t0 :: SPoint p :: ss2).
  { destruct ssg as [|a [|b ss2]]; [discriminate W2|exfalso|]; cbn [derives] in D2.
    - destruct D2 as (F & P & _). destruct a; try discriminate F; discriminate W2.
    - destruct D2 as (Fa & Pa & Fb & Pb & _). destruct a; try discriminate Fa; cbn [after] in Fb, Pb; rewrite !ryield_cons in W2; cbn [rstep tokens_of map app] in W2.
      + injection W2 as -> W2. exists ss2. destruct b; try discriminate Fb; cbn [rstep tokens_of map app proper] in W2, Pb; injection W2 as -> W2; try reflexivity; exfalso.
        all: repeat match goal with K : _ /\ _ |- _ => destruct K | K : _ \/ _ |- _ => destruct K end; congruence.
      + exfalso. injection W2 as -> W2. cbn [proper] in Pa. congruence. }
  destruct Hss as (ss2 & ->). set (c := fold_left after ss1 XStart) in *.
  destruct (ready_point c p Rd (fun K => Hc (Hr K))) as (F & Af & Hh & Nx).
  assert (D3 : derives XStart (ss1 ++ SPoint p :: ss2)).
  { pose proof D1 as D1'. rewrite <- (app_nil_r ss1) in D1'. cbn [derives] in D2. destruct D2 as (_ & _ & _ & P2 & D2). apply (exchange ss1 XStart [] _ D1'); fold c.
    - cbn [derives]. split; [exact F|]. split; [exact P2|]. rewrite Af. exact D2.
    - now left.
    - intros _. rewrite yield_cons. cbn [tokens_of app no_slash]. rewrite Bp. discriminate.
    - left. rewrite yield_cons. discriminate.
    - exact Nx. }
  assert (T3 : by_text (yield (ss1 ++ SPoint p :: ss2))).
  { rewrite yield_app. intros t Ht. apply in_app_or in Ht as [Ht|Ht]; [now apply T1|]. apply T2. rewrite yield_cons. apply in_or_app. now right. }
  destruct (parse_steps G depth3 _ h D3 T3) as (s3 & Hp & E3 & _ & _); [|exact Hd|].
  { rewrite Eh, !et_map, <- Y1, <- Y2, yield_app, map_app. reflexivity. }
  assert (Wt0 : wt t0) by (apply (wt_by _ T2); rewrite yield_cons; now left) || (pose proof (wt_by _ T2) as K; rewrite yield_cons in K; inversion K; assumption).
  destruct (join_records ss1 p ss2 t0 D3 (wt_by _ T1) Wt0 B0 If) as (A3 & B3 & z & a & B & J1 & J2 & J3 & J4 & J5).
  rewrite J1, map_app in E3. apply map_app_eq in E3 as (A4 & B4 & Es3 & EA & EB).
  exists s3, (core_recs (is_vfr_first (yield ss1)) (effs G 0 ss1 core0)), z, a, B, A4, B4. rewrite E1, E2. cbn [e_recs].
  split; [exact Hp|]. split; [exact J3|]. split; [exact J2|]. split; [exact Es3|]. split; apply same_legs; [rewrite (legs_of_recs _ _ EA)|rewrite (legs_of_recs _ _ EB)]; now symmetry.
Qed.
End G.
