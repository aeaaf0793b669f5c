(** * Connector: a route designator and a DCT in the same place. *)
From Coq Require Import ZArith NArith List Bool String Lia.
From Coq Require Import Floats.SpecFloat.
From Coq Require Import ZifyBool ZifyNat ZifyN.
From Verif Require Import PyBase PyFloat Enums ErrorTable Regex SyntaxTable Syntax Tokenizer Ers Utils Parser.
From Verif Require Import SpecTokenizer TokenizerProofs SpecNum ParserPrims PerfEq PointEq SyntaxProofs Trace ParseTrace ParserFacts SpecParser SpecGrammar GrammarSem Grammar SpecAccept Accept Describe AcceptFacts SpecLayout Layout SpecViable Viable Unambiguous SpecRemoval Removal SpecConnector.
Import List ListNotations.
Local Open Scope list_scope.
Local Open Scope nat_scope.

(** The record with the name, the place and the types of another token. *)
Definition as_token (t : token) (r : rrec) : rrec :=
  mkR (t_text t) (t_start t) (t_end t) (t_base t) (t_sub t) (r_alt r) (r_alt_si r) (r_speed r) (r_speed_si r) (r_break r) (r_rules r) (r_err r) (r_stay r)
      (r_cto r) (r_cto_si r) (r_lat r) (r_lon r) (r_brg r) (r_dist r) (r_llv r).

Section G.
Variable G : geodesic.
Section T.
Variable t' : token.
Notation h := (as_token t').
Lemma azi_swap A x B p : r_llv x = false -> exists A' B', azi G (A ++ x :: B) p = A' ++ x :: B' /\ azi G (A ++ h x :: B) p = A' ++ h x :: B' /\ length A' = length A.
Proof.
  intro Lx. unfold azi. destruct (r_llv p); [|now exists A, B].
  rewrite !rev_app_distr. cbn [rev]. destruct (rev B) as [|b1 [|b2 m]] eqn:EB; cbn [app].
  - change (r_llv (h x)) with (r_llv x). rewrite Lx. destruct (rev A) as [|a m] eqn:EA; [now exists A, B|]. apply (f_equal (@rev _)) in EB, EA. rewrite rev_involutive in EB, EA. cbn [rev] in *. subst A B.
    destruct (r_llv a); [|now exists (rev m ++ [a]), []]. exists (rev m ++ [set_bd G a p]), []. rewrite <- !app_assoc. cbn [app]. rewrite !app_length. auto.
  - apply (f_equal (@rev _)) in EB. rewrite rev_involutive in EB. cbn [rev app] in EB. subst B. destruct (r_llv b1).
    + exists A, [set_bd G b1 p]. cbn [rev]. rewrite !rev_involutive, <- !app_assoc. cbn [app]. auto.
    + change (r_llv (h x)) with (r_llv x). rewrite Lx. now exists A, [b1].
  - apply (f_equal (@rev _)) in EB. rewrite rev_involutive in EB. cbn [rev app] in EB. subst B. destruct (r_llv b1).
    + exists A, (rev m ++ [b2; set_bd G b1 p]). cbn [rev]. rewrite !rev_app_distr. cbn [rev app]. rewrite !rev_involutive, <- !app_assoc. cbn [app]. auto.
    + destruct (r_llv b2).
      * exists A, (rev m ++ [set_bd G b2 p; b1]). rewrite !rev_app_distr. cbn [rev app]. rewrite !rev_involutive, <- !app_assoc. cbn [app]. auto.
      * exists A, ((rev m ++ [b2]) ++ [b1]). auto.
Qed.
Lemma prev_swap t A x B p : r_llv x = false -> exists A' B', pt_prev G t (A ++ x :: B) p = A' ++ x :: B' /\ pt_prev G t (A ++ h x :: B) p = A' ++ h x :: B' /\ length A' = length A.
Proof.
  intro Lx. unfold pt_prev. destruct (t_sub t); try (now exists A, B); try now apply azi_swap.
  - destruct (azi_swap A x B (set_coords (coords_deg (t_text t)) p) Lx) as (A1 & B1 & -> & -> & L1). destruct (azi_swap A1 x B1 (pt_rec G t p) Lx) as (A2 & B2 & E1 & E2 & L2). exists A2, B2. rewrite E1, E2, L2, L1. auto.
  - destruct (azi_swap A x B (set_coords (coords_min (t_text t)) p) Lx) as (A1 & B1 & -> & -> & L1). destruct (azi_swap A1 x B1 (pt_rec G t p) Lx) as (A2 & B2 & E1 & E2 & L2). exists A2, B2. rewrite E1, E2, L2, L1. auto.
Qed.
Definition Sw (x : rrec) (k k' : core) : Prop := exists A B, k_l k = A ++ x :: B /\ k_l k' = A ++ h x :: B /\ k_p k = k_p k' /\ A <> [].
Lemma len_ne {X} (A A' : list X) : length A' = length A -> A <> [] -> A' <> [].
Proof. destruct A, A'; cbn; congruence. Qed.
Lemma Sw_pt x t k k' : r_llv x = false -> Sw x k k' -> Sw x (pt_k G t k) (pt_k G t k').
Proof.
  intros L (A & B & E1 & E2 & E3 & N). unfold pt_k. rewrite E1, E2, E3. destruct (prev_swap t A x B (k_p k') L) as (A' & B' & F1 & F2 & F3).
  exists A', B'. cbn [k_l k_p]. repeat split; auto. now apply (len_ne A).
Qed.
Lemma Sw_with x k k' p : Sw x k k' -> Sw x (k_with k p) (k_with k' p).
Proof. intros (A & B & E1 & E2 & _ & N). exists A, B. auto. Qed.
Lemma Sw_push x k k' q p js js' : Sw x k k' -> Sw x (mkK (k_l k ++ [q]) p js) (mkK (k_l k' ++ [q]) p js').
Proof. intros (A & B & E1 & E2 & _ & N). exists A, (B ++ [q]). cbn [k_l k_p]. rewrite E1, E2, <- !app_assoc. auto. Qed.
Lemma Sw_step x s j j' k k' : r_llv x = false -> Sw x k k' -> Sw x (eff1 G j s k) (eff1 G j' s k').
Proof.
  intros L H. assert (Ep : k_p k = k_p k') by (destruct H as (? & ? & _ & _ & E & _); exact E).
  assert (Ad : forall i i' t, Sw x (add_k i t k) (add_k i' t k')) by (intros i i' t; unfold add_k; rewrite Ep; now apply Sw_push).
  assert (Ru : forall r y z, Sw x y z -> Sw x (rule_k r y) (rule_k r z)).
  { intros r y z K. unfold rule_k. assert (k_p y = k_p z) as -> by (destruct K as (? & ? & _ & _ & E & _); exact E). now apply Sw_with. }
  destruct s; cbn [eff1]; rewrite ?Ep; try (now apply Sw_with); auto.
  - unfold vfr_k. rewrite Ep. now apply Sw_push.
  - apply Sw_pt; auto.
  - cbv zeta. change (k_p (add_k j t k)) with (carry (k_p k) (tok_rec t)). change (k_p (add_k j' t k')) with (carry (k_p k') (tok_rec t)). rewrite Ep. apply Sw_with, Ad.
  - cbv zeta. change (k_p (add_k j t k)) with (carry (k_p k) (tok_rec t)). change (k_p (add_k j' t k')) with (carry (k_p k') (tok_rec t)). rewrite Ep. apply Sw_with, Ad.
  - unfold vfr_k. rewrite Ep. now apply Sw_push.
  - apply Sw_pt; auto.
Qed.
Lemma Sw_steps x : r_llv x = false -> forall ss j j' k k', Sw x k k' -> Sw x (effs G j ss k) (effs G j' ss k').
Proof. intro L. induction ss as [|s ss IH]; intros j j' k k' H; [exact H|]. cbn [effs]. now apply IH, Sw_step. Qed.

(** The records of the whole field. *)
Definition one_at (x : rrec) (l l' : list rrec) : Prop := exists A B, l = A ++ x :: B /\ l' = A ++ h x :: B.
Lemma final_at v x k k' : (exists A B, k_l k ++ [k_p k] = A ++ x :: B /\ k_l k' ++ [k_p k'] = A ++ h x :: B /\ A <> []) -> one_at x (core_final v k) (core_final v k').
Proof.
  intros (A & B & E1 & E2 & N). unfold core_final. rewrite !core_recs_eq, E1, E2. destruct A as [|a A]; [congruence|]. rewrite !upd_first_app. set (A1 := upd_first v (a :: A)). clearbody A1.
  assert (La : ades_rec (A1 ++ h x :: B) = ades_rec (A1 ++ x :: B)).
  { unfold ades_rec. f_equal. assert (La : forall (y : rrec) B, last (A1 ++ y :: B) adep0 = last (y :: B) adep0).
    { clear. induction A1 as [|b A1 IH]; intros y B; [reflexivity|]. cbn [app]. rewrite <- (IH y B). destruct (A1 ++ y :: B) eqn:E; [destruct A1; discriminate|reflexivity]. }
    rewrite !La. destruct B; reflexivity. }
  rewrite La. exists A1, (B ++ [ades_rec (A1 ++ x :: B)]). rewrite <- !app_assoc. auto.
Qed.
Lemma start_at x l l' js js' s2 ss2 j j' : adds s2 = true -> r_llv x = false -> l = l' -> l <> [] ->
  Sw x (effs G j (s2 :: ss2) (mkK l x js)) (effs G j' (s2 :: ss2) (mkK l' (h x) js')).
Proof.
  intros Ha L <- N. cbn [effs]. apply Sw_steps; [exact L|].
  assert (Ad : forall i i' t, Sw x (add_k i t (mkK l x js)) (add_k i' t (mkK l (h x) js'))) by (intros i i' t; exists l, []; auto).
  assert (Ru : forall r y z, Sw x y z -> Sw x (rule_k r y) (rule_k r z)).
  { intros r y z K. unfold rule_k. assert (k_p y = k_p z) as -> by (destruct K as (? & ? & _ & _ & E & _); exact E). now apply Sw_with. }
  destruct s2; try discriminate Ha; cbn [eff1]; auto using Sw_pt.
Qed.
End T.

(** ** Rules *)
Definition keeps (c : ctx) : bool := match c with XAdep | XDct | XRoute | XC | XSid | XStay | XPoint _ | XClimb _ | XThenSpeed _ => true | _ => false end.
Lemma rules_kept c s r j k : follows c s = true -> proper c s r -> Forall wt (tokens_of s) -> (keeps c = true -> r_rules (k_p k) = RULE_I) ->
  keeps (after c s) = true -> r_rules (k_p (eff1 G j s k)) = RULE_I.
Proof.
  intros F P W H K. assert (Pt : forall t p, r_rules p = RULE_I -> r_rules (pt_rec G t p) = RULE_I) by (intros t p X; unfold pt_rec, move_bd; destruct (t_sub t); exact X).
  assert (Sa : forall t p, wt t -> t_base t = F15_SPEED_ALTITUDE -> r_rules (sa_eff t p) = RULE_I) by (intros t p W0 B; destruct (sa_perf t p W0 B) as (a & -> & _); reflexivity).
  destruct s; cbn [after keeps] in K; try discriminate K; cbn [eff1 k_with k_p pt_k rule_k add_k] in *; try (apply Pt; reflexivity); try reflexivity.
  - cbn [proper] in P. destruct P as (B & _). inversion W; subst. now apply Sa.
  - apply H. destruct c as [| | | | | | | | |[]|[]| | |]; try discriminate F; reflexivity.
  - apply H. destruct c as [| | | | | | | | |[]|[]| | |]; try discriminate F; reflexivity.
  - apply H. destruct c as [| | | | | | | | |[]|[]| | |]; try discriminate F; reflexivity.
  - cbn [proper] in P. destruct P as (_ & B & _). inversion W as [|? ? _ W1]; subst. inversion W1; subst. now apply Sa.
  - destruct (begins (t_sub t)); discriminate K.
  - destruct c; discriminate K.
  - apply Pt. apply H. destruct c as [| | | | | | | | |[]|[]| | |]; try discriminate F; reflexivity.
  - cbn [proper] in P. destruct P as (_ & B & _). inversion W as [|? ? _ W1]; subst. inversion W1; subst. unfold climb_eff.
    destruct B as [B|B]; rewrite B; [destruct (saa_perf t (k_p k)) as (a & b' & c' & -> & _)|destruct (sap_perf t (k_p k)) as (a & b' & -> & _)]; try assumption; reflexivity.
  - apply H. destruct c as [| | | | | | | | |[]|[]| | |]; try discriminate F; reflexivity.
Qed.
Lemma rules_run : forall ss1 c ss2 j k, derives c (ss1 ++ ss2) -> Forall wt (yield ss1) -> (keeps c = true -> r_rules (k_p k) = RULE_I) ->
  keeps (fold_left after ss1 c) = true -> r_rules (k_p (effs G j ss1 k)) = RULE_I.
Proof.
  induction ss1 as [|s r IH]; intros c ss2 j k D W H K; [now apply H|]. cbn [app derives fold_left effs] in *. destruct D as (F & P & D).
  rewrite yield_cons, Forall_app in W. destruct W as [W1 W2]. apply (IH _ ss2 _ _ D W2); [|exact K]. intro K'. now apply (rules_kept c s (yield (r ++ ss2))).
Qed.

(** ** Exchanging the two *)
Definition connector (s : step) : option token := match s with SDct t | SRoute t => Some t | _ => None end.
Lemma connector_eff s t j k : connector s = Some t -> r_rules (k_p k) = RULE_I ->
  eff1 G j s k = mkK (k_l k ++ [k_p k]) (set_r_rules RULE_I (carry (k_p k) (tok_rec t))) (k_js k ++ [j]).
Proof.
  intros C R. destruct s; try discriminate C; injection C as ->; cbn [eff1]; unfold rule_k, add_k, k_with; cbn [k_l k_p k_js]; [|reflexivity].
  f_equal. unfold carry. rewrite R. reflexivity.
Qed.
Definition both (c : ctx) : bool := match c with XC | XStay | XPoint _ => true | _ => false end.
Lemma wt_by_text l : by_text l -> Forall wt l.
Proof. intro H. apply Forall_forall. intros t Ht. unfold wt. rewrite (H t Ht). now destruct (classify (t_text t)). Qed.
Lemma connector_effect ss1 s a s' a' ss2 : derives XStart (ss1 ++ s :: ss2) -> derives XStart (ss1 ++ s' :: ss2) -> by_text (yield ss1) ->
  both (fold_left after ss1 XStart) = true -> connector s = Some a -> connector s' = Some a' -> 
  exists x, one_at a' x (result_of G (ss1 ++ s :: ss2)) (result_of G (ss1 ++ s' :: ss2)) /\ r_name x = t_text a /\ r_base x = t_base a.
Proof.
  intros D D' B Hc Ca Ca'. assert (Ne : ss1 <> []) by (intros ->; discriminate Hc).
  assert (Ny : yield ss1 <> []).
  { destruct ss1 as [|s0 r]; [congruence|]. cbn [app derives] in D. destruct D as (_ & P & _). apply step_tokens in P. rewrite yield_cons. destruct (tokens_of s0); [congruence|discriminate]. }
  assert (R : r_rules (k_p (effs G 0 ss1 core0)) = RULE_I).
  { apply (rules_run ss1 XStart (s :: ss2)); [exact D|now apply wt_by_text|discriminate|]. destruct (fold_left after ss1 XStart); try discriminate Hc; reflexivity. }
  unfold result_of. rewrite (vfr_first_same ss1 (s :: ss2) (s' :: ss2) Ny). rewrite !effs_app. set (k1 := effs G 0 ss1 core0) in *. cbn [effs].
  rewrite (connector_eff s a _ k1 Ca R), (connector_eff s' a' _ k1 Ca' R). clearbody k1.
  set (x := set_r_rules RULE_I (carry (k_p k1) (tok_rec a))). change (set_r_rules RULE_I (carry (k_p k1) (tok_rec a'))) with (as_token a' x).
  exists x. split; [|split; reflexivity]. apply final_at.
  assert (N1 : k_l k1 ++ [k_p k1] <> []) by (destruct (k_l k1); discriminate).
  assert (Lx : r_llv x = false) by reflexivity.
  apply derives_app in D. set (c1 := fold_left after ss1 XStart) in *. destruct ss2 as [|s2 ss2].
  - cbn [effs k_l k_p]. exists (k_l k1 ++ [k_p k1]), []. auto.
  - assert (Hs : adds s2 = true \/ exists t, s2 = STrunc t /\ ss2 = []).
    { cbn [derives] in D. destruct D as (_ & _ & F & P & D). destruct s; try discriminate Ca; cbn [after] in F; destruct s2; try discriminate F; auto; right; exists t0; (split; [reflexivity|]);
        cbn [after] in D; (destruct ss2 as [|s3 ?]; [reflexivity|]); destruct D as (D & _); destruct s3; discriminate D. }
    destruct Hs as [Ha|(t & -> & ->)].
    + destruct (start_at a' x _ _ (k_js k1 ++ [0 + length (yield ss1)]) (k_js k1 ++ [0 + length (yield ss1)]) s2 ss2 (0 + length (yield ss1) + length (tokens_of s)) (0 + length (yield ss1) + length (tokens_of s')) Ha Lx eq_refl N1) as (A & B0 & E1 & E2 & E3 & N).
      exists A, (B0 ++ [k_p (effs G (0 + length (yield ss1) + length (tokens_of s)) (s2 :: ss2) (mkK (k_l k1 ++ [k_p k1]) x (k_js k1 ++ [0 + length (yield ss1)])))]).
      rewrite E1, E2, <- E3, <- !app_assoc. auto.
    + cbn [effs eff1 k_l k_p]. exists (k_l k1 ++ [k_p k1]), []. auto.
Qed.
Lemma derived_at a' x l l' : one_at a' x l l' -> derived l = derived l'.
Proof. intros (A & B & -> & ->). apply derived_rules. rewrite !map_app. reflexivity. Qed.
Lemma replaced depth' ss1 s a s' a' ss2 g (st0 : st) : derives XStart (ss1 ++ s :: ss2) -> derives XStart (ss1 ++ s' :: ss2) -> by_text (yield (ss1 ++ s :: ss2)) -> by_text [a'] ->
  both (fold_left after ss1 XStart) = true -> connector s = Some a -> connector s' = Some a' ->
  s_ers st0 = mkErs (result_of G (ss1 ++ s :: ss2)) [] (derived (result_of G (ss1 ++ s :: ss2))) ->
  element_texts g = map t_text (yield (ss1 ++ s' :: ss2)) -> 3 * n_tokens g <= depth' + 1 ->
  exists st', parse_field15 G depth' g = Ok true st' /\ one_replaced (t_text a) (t_base a) (t_text a') (t_base a') (s_ers st0) (s_ers st').
Proof.
  intros D D' B Ba Hc Ca Ca' Es Eg Hd. rewrite yield_app, yield_cons in B.
  assert (B1 : by_text (yield ss1)) by (apply by_text_app_inv in B; tauto).
  assert (B' : by_text (yield (ss1 ++ s' :: ss2))).
  { rewrite yield_app, yield_cons. intros t Ht. apply in_app_or in Ht as [Ht|Ht]; [now apply B1|]. apply in_app_or in Ht as [Ht|Ht].
    - apply Ba. destruct s'; try discriminate Ca'; injection Ca' as <-; exact Ht.
    - apply B. apply in_or_app. right. apply in_or_app. now right. }
  destruct (parse_steps G depth' _ g D' B' Eg Hd) as (st' & Hp & E1 & E2 & E3). exists st'. split; [exact Hp|].
  destruct (connector_effect ss1 s a s' a' ss2 D D' B1 Hc Ca Ca') as (x & O & X1 & X2). rewrite <- (derived_at _ _ _ _ O) in E3. destruct O as (A & V & O1 & O2).
  rewrite O2, map_app in E1. cbn [map] in E1. apply map_split in E1 as (U' & y & V' & E4 & EU & Ey & EV). apply er_same in Ey.
  exists A, x, V, U', y, V'. rewrite Es, O1, E4. cbn [e_recs e_errs e_rules]. split; [reflexivity|]. split; [reflexivity|].
  split; [apply er_same_list; now symmetry|]. split; [apply er_same_list; now symmetry|]. unfold same_but_place in Ey. cbn [as_token r_name r_base r_alt r_alt_si r_speed r_speed_si r_break r_rules r_err r_stay r_cto r_cto_si r_lat r_lon r_brg r_dist r_llv] in Ey.
  decompose [and] Ey. unfold same_but_element. rewrite <- O1, E3. repeat split; congruence.
Qed.
Definition typed_token (w : pstr) : token := mkToken w 0 0 (fst (classify w)) (snd (classify w)).
Lemma route_step s c r a t b : proper c s r -> rstep s = a ++ (t, ROut) :: b -> t_base t = F15_ROUTE -> s = SRoute t /\ a = [] /\ b = [].
Proof.
  intros P E B. destruct s; cbn [rstep tokens_of map] in E;
    try (apply text_role in E; discriminate E);
    (destruct a as [|x [|y [|z a]]]; cbn [app] in E; try discriminate E; injection E; intros; subst; cbn [proper] in P; try (destruct a; discriminate);
     try (exfalso; decompose [and or] P; congruence); auto).
Qed.

Theorem route_to_dct depth depth' f s pre r rest g : parse_field15 G depth f = Ok true s ->
  field_roles f = pre ++ (r, ROut) :: rest -> t_base r = F15_ROUTE -> ~ after_sid pre ->
  element_texts g = wordsof pre ++ $"DCT" :: wordsof rest -> 3 * n_tokens g <= depth' + 1 ->
  exists s', parse_field15 G depth' g = Ok true s' /\ one_replaced (t_text r) F15_ROUTE ($"DCT") F15_DCT (s_ers s) (s_ers s').
Proof.
  intros H W Br Ns Eg Hd. destruct (roles_steps G f depth s H) as (ss & D & Y & R & B & Es). rewrite R in W.
  destruct (locate ss XStart _ _ _ D W) as (c & st & ss1 & ss2 & a & b & Ess & Er & Ep & Et & F & P & D2 & Ec). subst ss.
  destruct (route_step _ _ _ _ _ _ P Er Br) as (-> & -> & ->). rewrite app_nil_r in Ep. cbn [app] in Et. subst pre rest.
  assert (Hc : both c = true).
  { destruct c as [| | | | | | | | |[]|[]| | |]; try discriminate F; try reflexivity. exfalso. apply Ns.
    destruct (snoc_ind_ctx ss1) as [->|(ss0 & s1 & ->)]; [discriminate|]. destruct (derives_last _ _ _ _ D) as (F0 & P0). rewrite fold_left_app in Ec. cbn [fold_left] in Ec.
    pose proof (last_is _ _ F0) as Li. rewrite <- Ec in Li. destruct Li as (t & ->). exists (ryield ss0), (t, ROut). rewrite ryield_app. split; [reflexivity|].
    cbn [proper] in P0. cbn [fst In]. destruct P0 as [-> | ->]; auto. }
  assert (Dd : t_base dct_token = F15_DCT) by (vm_compute; reflexivity).
  assert (D' : derives XStart (ss1 ++ SDct dct_token :: ss2)).
  { apply (exchange ss1 XStart _ _ D); rewrite <- ?Ec.
    - cbn [derives after]. split; [destruct c; try discriminate Hc; reflexivity|]. split; [exact Dd|]. cbn [after] in D2. destruct ss2 as [|s2 ss2]; [reflexivity|].
      cbn [derives] in *. destruct D2 as (F2 & P2 & D2). destruct s2; try discriminate F2; (split; [reflexivity|]); split; assumption.
    - left. destruct c; try discriminate Hc; reflexivity.
    - intros _. rewrite yield_cons. cbn [tokens_of app no_slash]. rewrite Dd. discriminate.
    - left. rewrite yield_cons. discriminate.
    - destruct c; try discriminate Hc; discriminate. }
  rewrite <- Br. change ($"DCT") with (t_text dct_token). rewrite <- Dd. rewrite Ec in Hc.
  apply (replaced depth' ss1 (SRoute r) r (SDct dct_token) dct_token ss2); try assumption; try reflexivity.
  - intros t [<-|[]]. reflexivity.
  - rewrite Eg. rewrite <- words_ryield, ryield_app, ryield_cons. unfold wordsof. rewrite !map_app. reflexivity.
Qed.

Lemma computed_ctx ss1 : forall ss2, derives XStart (ss1 ++ ss2) -> 
  match fold_left after ss1 XStart with
  | XPoint true | XThenSpeed true => after_computed (ryield ss1)
  | XClimb true => exists pre0 x, ryield ss1 = pre0 ++ [x] /\ is_computed x
  | _ => True
  end.
Proof.
  induction ss1 as [|s ss0 IH] using rev_ind; intros ss2 D; [exact I|]. destruct (derives_last _ _ _ _ D) as (F & P). rewrite <- app_assoc in D. specialize (IH _ D).
  rewrite fold_left_app. cbn [fold_left]. rewrite ryield_app. set (c := fold_left after ss0 XStart) in *. clearbody c.
  assert (Mod : forall sl t, t_base sl = F15_SLASH -> In (t_base t) [F15_SPEED_ALTITUDE; F15_SPEED_ALTITUDE_ALTITUDE; F15_SPEED_ALTITUDE_PLUS] ->
     after_computed (ryield ss0) -> after_computed (ryield ss0 ++ [(sl, ROut); (t, ROut)])).
  { intros sl t B1 B2 (p0 & x & m & -> & Cm & Cx). exists p0, x, (m ++ [(sl, ROut); (t, ROut)]). rewrite <- app_assoc. split; [reflexivity|]. split; [now constructor|exact Cx]. }
  unfold ryield at 2 4 6. cbn [flat_map].
  destruct s; cbn [after]; try exact I; cbn [rstep tokens_of map app]; cbn [proper] in P.
  - destruct P as (P & _). assert (K : computed_point (t_sub t) = true -> after_computed (ryield ss0 ++ [(t, ROut)])).
    { intro K. exists (ryield ss0), (t, ROut), []. split; [reflexivity|]. split; [constructor|]. split; [right; split; [reflexivity|exact P]|exact K]. }
    destruct c as [| | | | | | | | |[]|[]| | |]; try discriminate F; destruct (computed_point (t_sub t)); auto.
  - destruct P as (P1 & P2 & _). destruct c as [| | | | | | |[]| |[]|[]|[]| |]; try discriminate F; auto; apply Mod; rewrite ?P2; cbn; auto.
  - destruct (begins (t_sub t)); exact I.
  - destruct c; try discriminate F; exact I.
  - destruct (computed_point (t_sub t)) eqn:K; [|exact I]. exists (ryield ss0 ++ [(c0, ROut); (sl, ROut)]), (t, RClimb). rewrite <- app_assoc. split; [reflexivity|]. split; [left; reflexivity|exact K].
  - destruct P as (P1 & P2 & _). destruct c as [| | | | | | | |[]|[]|[]| | |]; try discriminate F; auto. destruct IH as (p0 & x & -> & Cx). exists p0, x, [(sl, ROut); (t, ROut)]. rewrite <- app_assoc. split; [reflexivity|].
    split; [|exact Cx]. apply (ch_cons []); [constructor|exact P1|]. cbn [In]. destruct P2 as [-> | ->]; auto.
Qed.
Theorem dct_to_route depth depth' f s pre d rest w g : parse_field15 G depth f = Ok true s ->
  field_roles f = pre ++ (d, ROut) :: rest -> t_base d = F15_DCT -> 2 <= length pre -> ~ after_computed pre -> ~ before_computed rest ->
  fst (classify w) = F15_ROUTE ->
  element_texts g = wordsof pre ++ w :: wordsof rest -> 3 * n_tokens g <= depth' + 1 ->
  exists s', parse_field15 G depth' g = Ok true s' /\ one_replaced (t_text d) F15_DCT w F15_ROUTE (s_ers s) (s_ers s').
Proof.
  intros H W Bd Lp Na Nb Cw Eg Hd. destruct (roles_steps G f depth s H) as (ss & D & Y & R & B & Es). rewrite R in W.
  destruct (locate ss XStart _ _ _ D W) as (c & st & ss1 & ss2 & a & b & Ess & Er & Ep & Et & F & P & D2 & Ec). subst ss.
  destruct (dct_step _ _ _ _ _ _ P Er Bd) as (-> & -> & ->). rewrite app_nil_r in Ep. cbn [app] in Et. subst pre rest.
  pose proof (computed_ctx ss1 _ D) as Cc. rewrite <- Ec in Cc.
  assert (Hc : both c = true /\ follows c (SRoute (typed_token w)) = true).
  { destruct c as [| | | | | | |[]| |[]|[]| | |]; try discriminate F; auto; try contradiction. exfalso. symmetry in Ec. destruct (adep_only _ _ D Ec) as (t & ->). cbn in Lp. lia. }
  destruct Hc as (Hc & Hf).
  assert (D' : derives XStart (ss1 ++ SRoute (typed_token w) :: ss2)).
  { apply (exchange ss1 XStart _ _ D); rewrite <- ?Ec.
    - cbn [derives after]. split; [exact Hf|]. split; [exact Cw|]. cbn [after] in D2. destruct ss2 as [|s2 ss2]; [reflexivity|].
      cbn [derives] in *. destruct D2 as (F2 & P2 & D2). destruct s2; try discriminate F2; try ((split; [reflexivity|]); split; assumption).
      split; [|split; assumption]. cbn [follows]. destruct (computed_point (t_sub t)) eqn:K; [|reflexivity]. exfalso. apply Nb. exists t, (ryield ss2). split; [reflexivity|]. split; [apply P2|exact K].
    - left. destruct c; try discriminate Hc; reflexivity.
    - intros _. rewrite yield_cons. cbn [tokens_of app no_slash]. change (fst (classify w) <> F15_SLASH). rewrite Cw. discriminate.
    - left. rewrite yield_cons. discriminate.
    - destruct c; try discriminate Hc; discriminate. }
  rewrite <- Bd. change w with (t_text (typed_token w)) at 1. replace F15_ROUTE with (t_base (typed_token w)) by exact Cw. rewrite Ec in Hc.
  apply (replaced depth' ss1 (SDct d) d (SRoute (typed_token w)) (typed_token w) ss2); try assumption; try reflexivity.
  - intros t [<-|[]]. cbn [t_base t_sub t_text typed_token]. now rewrite <- surjective_pairing.
  - rewrite Eg. rewrite <- words_ryield, ryield_app, ryield_cons. unfold wordsof. rewrite !map_app. reflexivity.
Qed.
End G.
