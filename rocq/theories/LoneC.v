(** * LoneC: a C that is not followed by a slash, and a named point in its place. *)
From Coq Require Import ZArith NArith List Bool String Lia.
From Coq Require Import Floats.SpecFloat.
From Coq Require Import ZifyBool ZifyNat ZifyN.
From Verif Require Import PyBase PyFloat Enums ErrorTable Regex SyntaxTable Syntax Tokenizer Ers Utils Parser.
From Verif Require Import SpecTokenizer TokenizerProofs SpecNum ParserPrims PerfEq PointEq SyntaxProofs Trace ParseTrace ParserFacts SpecParser SpecGrammar GrammarSem Grammar SpecAccept Accept Describe AcceptFacts SpecLayout Layout SpecViable Viable Unambiguous SpecRemoval Removal SpecConnector Connector SpecLoneC.
Import List ListNotations.
Local Open Scope list_scope.
Local Open Scope nat_scope.

Section G.
Variable G : geodesic.
(** The steps that store a point without coordinates. *)
Definition single (s : step) : option token :=
  match s with SC t => Some t | SPoint t => if computed_point (t_sub t) then None else Some t | _ => None end.
Lemma single_eff s t j k : single s = Some t -> r_rules (k_p k) = RULE_I ->
  eff1 G j s k = mkK (k_l k ++ [k_p k]) (set_r_rules RULE_I (carry (k_p k) (tok_rec t))) (k_js k ++ [j]).
Proof.
  intros C R. destruct s; try discriminate C; cbn [single] in C.
  - destruct (computed_point (t_sub t0)) eqn:K; [discriminate|]. injection C as ->. cbn [eff1]. unfold pt_k, rule_k, add_k, k_with. cbn [k_l k_p k_js].
    unfold pt_prev, pt_rec. destruct (t_sub t); try discriminate K; reflexivity.
  - injection C as ->. cbn [eff1]. unfold add_k. f_equal. unfold carry. rewrite R. reflexivity.
Qed.
Lemma single_tokens s t : single s = Some t -> tokens_of s = [t].
Proof. destruct s; try discriminate; cbn [single tokens_of]; [destruct (computed_point (t_sub t0)); [discriminate|]|]; congruence. Qed.
(** After it, its record is the last one of the list, or takes a stay first. *)
Definition tailed (a' : token) (x : rrec) (k k' : core) : Prop :=
  exists x' A B, (r_name x' = r_name x /\ r_base x' = r_base x) /\ k_l k ++ [k_p k] = A ++ x' :: B /\ k_l k' ++ [k_p k'] = A ++ as_token a' x' :: B /\ A <> [].
Definition stores (s : step) : bool :=
  match s with SPoint _ | SC _ | SClimb _ _ _ | SDct _ | SRoute _ | SBreak _ | SStar _ => true | _ => false end.
Lemma stored_at a' x l js js' s2 ss2 j j' : stores s2 = true -> r_llv x = false -> l <> [] ->
  Sw a' x (effs G j (s2 :: ss2) (mkK l x js)) (effs G j' (s2 :: ss2) (mkK l (as_token a' x) js')).
Proof.
  intros Ha L N. cbn [effs]. apply Sw_steps; [exact L|].
  assert (Ad : forall i i' t, Sw a' x (add_k i t (mkK l x js)) (add_k i' t (mkK l (as_token a' x) js'))) by (intros i i' t; exists l, []; auto).
  assert (Ru : forall r y z, Sw a' x y z -> Sw a' x (rule_k r y) (rule_k r z)).
  { intros r y z K. unfold rule_k. assert (k_p y = k_p z) as -> by (destruct K as (? & ? & _ & _ & E & _); exact E). now apply Sw_with. }
  destruct s2; try discriminate Ha; cbn [eff1]; auto using Sw_pt. cbv zeta. apply Sw_with. apply Ad.
Qed.
Lemma tail_at a' : forall ss2 c x l js js' j j', c = XC \/ c = XStay -> derives c ss2 -> r_llv x = false -> l <> [] ->
  tailed a' x (effs G j ss2 (mkK l x js)) (effs G j' ss2 (mkK l (as_token a' x) js')).
Proof.
  induction ss2 as [|s2 ss2 IH]; intros c x l js js' j j' Hc D Lx N.
  - exists x, l, []. cbn [effs k_l k_p]. auto.
  - cbn [derives] in D. destruct D as (F & P & D). destruct (stores s2) eqn:Ha.
    + destruct (stored_at a' x l js js' s2 ss2 j j' Ha Lx N) as (A & B0 & E1 & E2 & E3 & NA).
      exists x, A, (B0 ++ [k_p (effs G j (s2 :: ss2) (mkK l x js))]). rewrite E1, E2, <- E3, <- !app_assoc. auto.
    + destruct Hc as [-> | ->]; destruct s2; try discriminate F; try discriminate Ha; cbn [after] in D.
      * assert (ss2 = []) as -> by (destruct ss2 as [|s3 ?]; [reflexivity|]; destruct D as (D & _); destruct s3; discriminate D). exists x, l, []. cbn [effs eff1 k_l k_p]. auto.
      * cbn [effs eff1]. unfold k_with. cbn [k_l k_p k_js].
        change (set_r_stay (stay_min (t_text tm)) (as_token a' x)) with (as_token a' (set_r_stay (stay_min (t_text tm)) x)).
        apply (IH XStay (set_r_stay (stay_min (t_text tm)) x)); auto.
      * assert (ss2 = []) as -> by (destruct ss2 as [|s3 ?]; [reflexivity|]; destruct D as (D & _); destruct s3; discriminate D). exists x, l, []. cbn [effs eff1 k_l k_p]. auto.
Qed.
Lemma single_effect ss1 s a s' a' ss2 : derives XStart (ss1 ++ s :: ss2) -> derives XC ss2 -> by_text (yield ss1) ->
  keeps (fold_left after ss1 XStart) = true -> single s = Some a -> single s' = Some a' ->
  exists x, one_at a' x (result_of G (ss1 ++ s :: ss2)) (result_of G (ss1 ++ s' :: ss2)) /\ r_name x = t_text a /\ r_base x = t_base a.
Proof.
  intros D Dc B Hc Ca Ca'. assert (Ne : ss1 <> []) by (intros ->; discriminate Hc).
  assert (Ny : yield ss1 <> []).
  { destruct ss1 as [|s0 r]; [congruence|]. cbn [app derives] in D. destruct D as (_ & P & _). apply step_tokens in P. rewrite yield_cons. destruct (tokens_of s0); [congruence|discriminate]. }
  assert (R : r_rules (k_p (effs G 0 ss1 core0)) = RULE_I).
  { apply (rules_run G ss1 XStart (s :: ss2)); [exact D|now apply wt_by_text|discriminate|exact Hc]. }
  unfold result_of. rewrite (vfr_first_same ss1 (s :: ss2) (s' :: ss2) Ny). rewrite !effs_app. set (k1 := effs G 0 ss1 core0) in *. cbn [effs].
  rewrite (single_eff s a _ k1 Ca R), (single_eff s' a' _ k1 Ca' R). clearbody k1.
  set (x := set_r_rules RULE_I (carry (k_p k1) (tok_rec a))). change (set_r_rules RULE_I (carry (k_p k1) (tok_rec a'))) with (as_token a' x).
  assert (N1 : k_l k1 ++ [k_p k1] <> []) by (destruct (k_l k1); discriminate).
  destruct (tail_at a' ss2 XC x (k_l k1 ++ [k_p k1]) (k_js k1 ++ [0 + length (yield ss1)]) (k_js k1 ++ [0 + length (yield ss1)])
     (0 + length (yield ss1) + length (tokens_of s)) (0 + length (yield ss1) + length (tokens_of s')) (or_introl eq_refl) Dc eq_refl N1) as (x' & A & B0 & (X1 & X2) & E1 & E2 & NA).
  exists x'. split; [|split; [rewrite X1|rewrite X2]; reflexivity]. apply final_at. exists A, B0. auto.
Qed.
Lemma single_replaced depth' ss1 s a s' a' ss2 g (st0 : st) : derives XStart (ss1 ++ s :: ss2) -> derives XStart (ss1 ++ s' :: ss2) -> derives XC ss2 -> by_text (yield (ss1 ++ s :: ss2)) -> by_text [a'] ->
  keeps (fold_left after ss1 XStart) = true -> single s = Some a -> single s' = Some a' ->
  s_ers st0 = mkErs (result_of G (ss1 ++ s :: ss2)) [] (derived (result_of G (ss1 ++ s :: ss2))) ->
  element_texts g = map t_text (yield (ss1 ++ s' :: ss2)) -> 3 * n_tokens g <= depth' + 1 ->
  exists st', parse_field15 G depth' g = Ok true st' /\ one_replaced (t_text a) (t_base a) (t_text a') (t_base a') (s_ers st0) (s_ers st').
Proof.
  intros D D' Dc B Ba Hc Ca Ca' Es Eg Hd. rewrite yield_app, yield_cons in B.
  assert (B1 : by_text (yield ss1)) by (apply by_text_app_inv in B; tauto).
  assert (B' : by_text (yield (ss1 ++ s' :: ss2))).
  { rewrite yield_app, yield_cons, (single_tokens _ _ Ca'). intros t Ht. apply in_app_or in Ht as [Ht|Ht]; [now apply B1|]. apply in_app_or in Ht as [Ht|Ht]; [now apply Ba|].
    apply B. apply in_or_app. right. apply in_or_app. now right. }
  destruct (parse_steps G depth' _ g D' B' Eg Hd) as (st' & Hp & E1 & E2 & E3). exists st'. split; [exact Hp|].
  destruct (single_effect ss1 s a s' a' ss2 D Dc B1 Hc Ca Ca') as (x & O & X1 & X2). rewrite <- (derived_at _ _ _ _ O) in E3. destruct O as (A & V & O1 & O2).
  rewrite O2, map_app in E1. cbn [map] in E1. apply map_split in E1 as (U' & y & V' & E4 & EU & Ey & EV). apply er_same in Ey.
  exists A, x, V, U', y, V'. rewrite Es, O1, E4. cbn [e_recs e_errs e_rules]. split; [reflexivity|]. split; [reflexivity|].
  split; [apply er_same_list; now symmetry|]. split; [apply er_same_list; now symmetry|]. unfold same_but_place in Ey. cbn [as_token r_name r_base r_alt r_alt_si r_speed r_speed_si r_break r_rules r_err r_stay r_cto r_cto_si r_lat r_lon r_brg r_dist r_llv] in Ey.
  decompose [and] Ey. unfold same_but_element. rewrite <- O1, E3. repeat split; congruence.
Qed.

Lemma c_step s c r a t b : proper c s r -> rstep s = a ++ (t, ROut) :: b -> t_base t = F15_C ->
  (s = SC t /\ a = [] /\ b = []) \/ exists sl b', b = (sl, ROut) :: b' /\ t_base sl = F15_SLASH.
Proof.
  intros P E B. destruct s; cbn [rstep tokens_of map] in E;
    try (apply text_role in E; discriminate E);
    (destruct a as [|x [|y [|z a]]]; cbn [app] in E; try discriminate E; injection E; intros; subst; cbn [proper] in P; try (destruct a; discriminate);
     try (exfalso; decompose [and or] P; congruence); auto).
  right. exists sl, [(t0, RClimb)]. tauto.
Qed.
Lemma point_step s c r a t b : proper c s r -> rstep s = a ++ (t, ROut) :: b -> t_base t = F15_POINT -> (s = SPoint t \/ s = SRejoin t) /\ a = [] /\ b = [].
Proof.
  intros P E B. destruct s; cbn [rstep tokens_of map] in E;
    try (apply text_role in E; discriminate E);
    (destruct a as [|x [|y [|z a]]]; cbn [app] in E; try discriminate E; injection E; intros; subst; cbn [proper] in P; try (destruct a; discriminate);
     try (exfalso; decompose [and or] P; congruence); auto).
Qed.

Theorem c_to_point depth depth' f s pre c rest w g : parse_field15 G depth f = Ok true s ->
  field_roles f = pre ++ (c, ROut) :: rest -> t_base c = F15_C -> ~ before_slash rest -> plain_name w ->
  element_texts g = wordsof pre ++ w :: wordsof rest -> 3 * n_tokens g <= depth' + 1 ->
  exists s', parse_field15 G depth' g = Ok true s' /\ one_replaced (t_text c) F15_C w F15_POINT (s_ers s) (s_ers s').
Proof.
  intros H W Bc Ns (Cw & Kw) Eg Hd. destruct (roles_steps G f depth s H) as (ss & D & Y & R & B & Es). rewrite R in W.
  destruct (locate ss XStart _ _ _ D W) as (k & st & ss1 & ss2 & a & b & Ess & Er & Ep & Et & F & P & D2 & Ec). subst ss.
  destruct (c_step _ _ _ _ _ _ P Er Bc) as [(-> & -> & ->)|(sl & b' & -> & Bs)]; [|exfalso; apply Ns; rewrite Et; exists (sl, ROut), (b' ++ ryield ss2); split; [reflexivity|exact Bs]].
  rewrite app_nil_r in Ep. cbn [app] in Et. subst pre rest. cbn [after] in D2.
  assert (Hk : keeps k = true /\ halfway k = false /\ k <> XEnd /\ follows k (SPoint (typed_token w)) = true /\ after k (SPoint (typed_token w)) = XPoint false).
  { cbn [after typed_token t_sub]. rewrite Kw. destruct k as [| | | | | | |[]| |[]|[]| | |]; try discriminate F; repeat split; try discriminate; try reflexivity.
    cbn [follows typed_token t_sub]. now rewrite Kw. }
  destruct Hk as (Hk & Hh & He & Hf & Ha).
  assert (D' : derives XStart (ss1 ++ SPoint (typed_token w) :: ss2)).
  { apply (exchange ss1 XStart _ _ D); rewrite <- ?Ec.
    - cbn [derives]. rewrite Ha. split; [exact Hf|]. split.
      + split; [exact Cw|]. unfold angles_ok. cbn [typed_token t_sub]. destruct (snd (classify w)); try discriminate Kw; try exact Logic.I; auto.
      + destruct ss2 as [|s2 ss2]; [reflexivity|]. cbn [derives] in *. destruct D2 as (F2 & P2 & D2). destruct s2; try discriminate F2; (split; [reflexivity|]);
          (split; [|exact D2]); cbn [proper] in *; intuition discriminate.
    - left. exact Hh.
    - intros _. rewrite yield_cons. cbn [tokens_of app no_slash]. change (fst (classify w) <> F15_SLASH). rewrite Cw. discriminate.
    - left. rewrite yield_cons. discriminate.
    - exact He. }
  rewrite <- Bc. change w with (t_text (typed_token w)) at 1. replace F15_POINT with (t_base (typed_token w)) by exact Cw. rewrite Ec in Hk.
  apply (single_replaced depth' ss1 (SC c) c (SPoint (typed_token w)) (typed_token w) ss2); try assumption; try reflexivity.
  - intros t [<-|[]]. cbn [t_base t_sub t_text typed_token]. now rewrite <- surjective_pairing.
  - cbn [single typed_token t_sub]. now rewrite Kw.
  - rewrite Eg. rewrite <- words_ryield, ryield_app, ryield_cons. unfold wordsof. rewrite !map_app. reflexivity.
Qed.
Definition c_token : token := mkToken ($"C") 0 0 (fst (classify ($"C"))) (snd (classify ($"C"))).
Theorem point_to_c depth depth' f s pre q rest g : parse_field15 G depth f = Ok true s ->
  field_roles f = pre ++ (q, ROut) :: rest -> t_base q = F15_POINT -> computed_point (t_sub q) = false -> ~ before_slash rest ->
  2 <= length pre -> ~ after_sid pre -> ~ after_section pre ->
  element_texts g = wordsof pre ++ $"C" :: wordsof rest -> 3 * n_tokens g <= depth' + 1 ->
  exists s', parse_field15 G depth' g = Ok true s' /\ one_replaced (t_text q) F15_POINT ($"C") F15_C (s_ers s) (s_ers s').
Proof.
  intros H W Bq Kq Ns Lp Nd Nt Eg Hd. destruct (roles_steps G f depth s H) as (ss & D & Y & R & B & Es). rewrite R in W.
  destruct (locate ss XStart _ _ _ D W) as (k & st & ss1 & ss2 & a & b & Ess & Er & Ep & Et & F & P & D2 & Ec). subst ss.
  destruct (point_step _ _ _ _ _ _ P Er Bq) as (Hs & -> & ->). rewrite app_nil_r in Ep. cbn [app] in Et. subst pre rest.
  assert (Li : match k with XAdep | XSid | XBreak _ => False | _ => True end).
  { destruct k; auto.
    - symmetry in Ec. destruct (adep_only _ _ D Ec) as (t & ->). cbn in Lp. lia.
    - apply Nd. destruct (snoc_ind_ctx ss1) as [->|(ss0 & s1 & ->)]; [discriminate|]. destruct (derives_last _ _ _ _ D) as (F0 & P0). rewrite fold_left_app in Ec. cbn [fold_left] in Ec.
      pose proof (last_is _ _ F0) as Li. rewrite <- Ec in Li. destruct Li as (t & ->). exists (ryield ss0), (t, ROut). rewrite ryield_app. split; [reflexivity|].
      cbn [proper] in P0. cbn [fst In]. destruct P0 as [-> | ->]; auto.
    - apply Nt. destruct (snoc_ind_ctx ss1) as [->|(ss0 & s1 & ->)]; [discriminate|]. destruct (derives_last _ _ _ _ D) as (F0 & P0). rewrite fold_left_app in Ec. cbn [fold_left] in Ec.
      pose proof (last_is _ _ F0) as Li. rewrite <- Ec in Li. destruct Li as (txt & ->). cbn [proper] in P0. destruct P0 as (Nn & _).
      destruct (exists_last Nn) as (t0 & tl & ->). exists (ryield ss0 ++ map (fun t => (t, RText)) t0), (tl, RText). rewrite ryield_app, <- app_assoc. split; [|reflexivity].
      unfold ryield at 2. cbn [flat_map rstep]. rewrite app_nil_r, map_app. reflexivity. }
  destruct Hs as [-> | ->]; [|destruct k as [| | | | | | |[]| |[]|[]| | |]; try discriminate F; contradiction].
  assert (Hk : keeps k = true /\ halfway k = false /\ k <> XEnd /\ follows k (SC c_token) = true /\ after k (SPoint q) = XPoint false).
  { cbn [after]. rewrite Kq. destruct k as [| | | | | | |[]| |[]|[]| | |]; try discriminate F; try contradiction; repeat split; try discriminate; reflexivity. }
  destruct Hk as (Hk & Hh & He & Hf & Ha). rewrite Ha in D2.
  assert (Dd : t_base c_token = F15_C) by (vm_compute; reflexivity).
  assert (Sl : no_slash (yield ss2)).
  { assert (Ey : map fst (ryield ss2) = yield ss2) by (clear; unfold ryield, yield; induction ss2 as [|s2 r IH]; [reflexivity|]; cbn [flat_map]; now rewrite map_app, IH, rstep_fst). rewrite <- Ey. clear Ey. destruct (ryield ss2) as [|[t r] l]; [exact Logic.I|]. cbn [map fst no_slash]. intro K. apply Ns. exists (t, r), l. auto. }
  assert (Dc : derives XC ss2).
  { destruct ss2 as [|s2 ss2]; [reflexivity|]. cbn [derives] in *. destruct D2 as (F2 & P2 & D2). rewrite yield_cons in Sl. destruct s2; try discriminate F2; cbn [tokens_of app no_slash] in Sl;
      try (exfalso; cbn [proper] in P2; tauto); (split; [reflexivity|]); (split; [|exact D2]); cbn [proper] in *; intuition discriminate. }
  assert (D' : derives XStart (ss1 ++ SC c_token :: ss2)).
  { apply (exchange ss1 XStart _ _ D); rewrite <- ?Ec.
    - cbn [derives after]. split; [exact Hf|]. split; [|exact Dc]. split; [exact Dd|exact Sl].
    - left. exact Hh.
    - intros _. rewrite yield_cons. cbn [tokens_of app no_slash]. rewrite Dd. discriminate.
    - left. rewrite yield_cons. discriminate.
    - exact He. }
  rewrite <- Bq. change ($"C") with (t_text c_token). rewrite <- Dd. rewrite Ec in Hk.
  apply (single_replaced depth' ss1 (SPoint q) q (SC c_token) c_token ss2); try assumption; try reflexivity.
  - intros t [<-|[]]. reflexivity.
  - cbn [single]. now rewrite Kq.
  - rewrite Eg. rewrite <- words_ryield, ryield_app, ryield_cons. unfold wordsof. rewrite !map_app. reflexivity.
Qed.
End G.
