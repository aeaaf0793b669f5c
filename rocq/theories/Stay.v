(** * Stay: a field with and without a stay. *)
From Coq Require Import ZArith NArith List Bool String Lia.
From Coq Require Import Floats.SpecFloat.
From Coq Require Import ZifyBool ZifyNat ZifyN.
From Verif Require Import PyBase PyFloat Enums ErrorTable Regex SyntaxTable Syntax Tokenizer Ers Utils Parser.
From Verif Require Import SpecTokenizer TokenizerProofs SpecNum ParserPrims PerfEq PointEq SyntaxProofs Trace ParseTrace ParserFacts SpecParser SpecGrammar GrammarSem Grammar SpecAccept Accept Describe AcceptFacts SpecLayout Layout SpecViable Viable Unambiguous SpecRemoval Removal SpecConnector Connector Join SpecStay.
Import List ListNotations.
Local Open Scope list_scope.
Local Open Scope nat_scope.

Section G.
Variable G : geodesic.
Section V.
Variable v : Z.
Variable z : token.
Notation h := (set_r_stay v).
Definition named (r : rrec) : Prop := r_name r = t_text z /\ r_start r = t_start z /\ r_end r = t_end z /\ r_stay r = 0%Z.
Lemma azi_stay A x B p : named x -> exists A' x' B', azi G (A ++ x :: B) p = A' ++ x' :: B' /\ azi G (A ++ h x :: B) p = A' ++ h x' :: B' /\ length A' = length A /\ named x'.
Proof.
  intro Nx. unfold azi. destruct (r_llv p); [|now exists A, x, B].
  rewrite !rev_app_distr. cbn [rev]. destruct (rev B) as [|b1 [|b2 m]] eqn:EB; cbn [app].
  - change (r_llv (h x)) with (r_llv x). apply (f_equal (@rev _)) in EB. rewrite rev_involutive in EB. cbn [rev] in EB. subst B. destruct (r_llv x).
    + destruct (rev A) as [|a m] eqn:EA; apply (f_equal (@rev _)) in EA; rewrite rev_involutive in EA; cbn [rev] in EA; subst A.
      * exists [], (set_bd G x p), []. cbn [rev app]. repeat split; try reflexivity; apply Nx.
      * exists (rev m ++ [a]), (set_bd G x p), []. cbn [rev]. repeat split; try reflexivity; apply Nx.
    + destruct (rev A) as [|a m] eqn:EA; [now exists A, x, []|]. apply (f_equal (@rev _)) in EA. rewrite rev_involutive in EA. cbn [rev] in *. subst A.
      destruct (r_llv a); [|now exists (rev m ++ [a]), x, []]. exists (rev m ++ [set_bd G a p]), x, []. rewrite <- !app_assoc. cbn [app]. rewrite !app_length. auto.
  - apply (f_equal (@rev _)) in EB. rewrite rev_involutive in EB. cbn [rev app] in EB. subst B. destruct (r_llv b1).
    + exists A, x, [set_bd G b1 p]. cbn [rev]. rewrite !rev_involutive, <- !app_assoc. cbn [app]. auto.
    + change (r_llv (h x)) with (r_llv x). destruct (r_llv x); [|now exists A, x, [b1]]. exists A, (set_bd G x p), [b1]. rewrite !rev_involutive. repeat split; try reflexivity; apply Nx.
  - apply (f_equal (@rev _)) in EB. rewrite rev_involutive in EB. cbn [rev app] in EB. subst B. destruct (r_llv b1).
    + exists A, x, (rev m ++ [b2; set_bd G b1 p]). cbn [rev]. rewrite !rev_app_distr. cbn [rev app]. rewrite !rev_involutive, <- !app_assoc. cbn [app]. auto.
    + destruct (r_llv b2).
      * exists A, x, (rev m ++ [set_bd G b2 p; b1]). rewrite !rev_app_distr. cbn [rev app]. rewrite !rev_involutive, <- !app_assoc. cbn [app]. auto.
      * exists A, x, ((rev m ++ [b2]) ++ [b1]). auto.
Qed.
Lemma prev_stay t A x B p : named x -> exists A' x' B', pt_prev G t (A ++ x :: B) p = A' ++ x' :: B' /\ pt_prev G t (A ++ h x :: B) p = A' ++ h x' :: B' /\ length A' = length A /\ named x'.
Proof.
  intro Lx. unfold pt_prev. destruct (t_sub t); try (now exists A, x, B); try now apply azi_stay.
  - destruct (azi_stay A x B (set_coords (coords_deg (t_text t)) p) Lx) as (A1 & x1 & B1 & -> & -> & L1 & N1). destruct (azi_stay A1 x1 B1 (pt_rec G t p) N1) as (A2 & x2 & B2 & E1 & E2 & L2 & N2). exists A2, x2, B2. rewrite E1, E2, L2, L1. auto.
  - destruct (azi_stay A x B (set_coords (coords_min (t_text t)) p) Lx) as (A1 & x1 & B1 & -> & -> & L1 & N1). destruct (azi_stay A1 x1 B1 (pt_rec G t p) N1) as (A2 & x2 & B2 & E1 & E2 & L2 & N2). exists A2, x2, B2. rewrite E1, E2, L2, L1. auto.
Qed.
Definition St (k k' : core) : Prop := exists A x B, k_l k = A ++ x :: B /\ k_l k' = A ++ h x :: B /\ k_p k = k_p k' /\ A <> [] /\ named x.
Lemma St_pt t k k' : St k k' -> St (pt_k G t k) (pt_k G t k').
Proof.
  intros (A & x & B & E1 & E2 & E3 & N & Nx). unfold pt_k. rewrite E1, E2, E3. destruct (prev_stay t A x B (k_p k') Nx) as (A' & x' & B' & F1 & F2 & F3 & F4).
  exists A', x', B'. cbn [k_l k_p]. repeat split; auto; try apply F4. now apply (len_ne A).
Qed.
Lemma St_with k k' p : St k k' -> St (k_with k p) (k_with k' p).
Proof. intros (A & x & B & E1 & E2 & _ & N). exists A, x, B. auto. Qed.
Lemma St_push k k' q p js js' : St k k' -> St (mkK (k_l k ++ [q]) p js) (mkK (k_l k' ++ [q]) p js').
Proof. intros (A & x & B & E1 & E2 & _ & N). exists A, x, (B ++ [q]). cbn [k_l k_p]. rewrite E1, E2, <- !app_assoc. auto. Qed.
Lemma St_p k k' : St k k' -> k_p k = k_p k'.
Proof. intros (? & ? & ? & _ & _ & E & _). exact E. Qed.
Lemma St_rule r k k' : St k k' -> St (rule_k r k) (rule_k r k').
Proof. intro K. unfold rule_k. rewrite (St_p _ _ K). now apply St_with. Qed.
Lemma St_step s j j' k k' : St k k' -> St (eff1 G j s k) (eff1 G j' s k').
Proof.
  intros H. pose proof (St_p _ _ H) as Ep.
  assert (Ad : forall i i' t, St (add_k i t k) (add_k i' t k')) by (intros i i' t; unfold add_k; rewrite Ep; now apply St_push).
  destruct s; cbn [eff1]; rewrite ?Ep; try (now apply St_with); auto using St_rule, St_pt.
  - unfold vfr_k. rewrite Ep. now apply St_push.
  - cbv zeta. change (k_p (add_k j t k)) with (carry (k_p k) (tok_rec t)). change (k_p (add_k j' t k')) with (carry (k_p k') (tok_rec t)). rewrite Ep. apply St_with, Ad.
  - cbv zeta. change (k_p (add_k j t k)) with (carry (k_p k) (tok_rec t)). change (k_p (add_k j' t k')) with (carry (k_p k') (tok_rec t)). rewrite Ep. apply St_with, Ad.
  - unfold vfr_k. rewrite Ep. now apply St_push.
Qed.
Lemma St_steps : forall ss j j' k k', St k k' -> St (effs G j ss k) (effs G j' ss k').
Proof. induction ss as [|s ss IH]; intros j j' k k' H; [exact H|]. cbn [effs]. now apply IH, St_step. Qed.
Definition stay_at (l l' : list rrec) : Prop := exists A x B, l = A ++ x :: B /\ l' = A ++ h x :: B /\ named x.
Lemma final_stay w k k' : (exists A x B, k_l k ++ [k_p k] = A ++ x :: B /\ k_l k' ++ [k_p k'] = A ++ h x :: B /\ A <> [] /\ named x) -> stay_at (core_final w k) (core_final w k').
Proof.
  intros (A & x & B & E1 & E2 & N & Nx). unfold core_final. rewrite !core_recs_eq, E1, E2. destruct A as [|a A]; [congruence|]. rewrite !upd_first_app. set (A1 := upd_first w (a :: A)). clearbody A1.
  assert (La : ades_rec (A1 ++ h x :: B) = ades_rec (A1 ++ x :: B)).
  { unfold ades_rec. f_equal. assert (La : forall (y : rrec) B, last (A1 ++ y :: B) adep0 = last (y :: B) adep0).
    { clear. induction A1 as [|b A1 IH]; intros y B; [reflexivity|]. cbn [app]. rewrite <- (IH y B). destruct (A1 ++ y :: B) eqn:E; [destruct A1; discriminate|reflexivity]. }
    rewrite !La. destruct B; reflexivity. }
  rewrite La. exists A1, x, (B ++ [ades_rec (A1 ++ x :: B)]). rewrite <- !app_assoc. auto.
Qed.
Definition pushes (s : step) : bool := match s with SBreak _ | SDct _ | SC _ | SClimb _ _ _ | SPoint _ | SRoute _ | SStar _ => true | _ => false end.
Lemma start_stay k js s2 ss2 j j' : pushes s2 = true -> named (k_p k) -> k_l k <> [] ->
  St (effs G j (s2 :: ss2) k) (effs G j' (s2 :: ss2) (mkK (k_l k) (h (k_p k)) js)).
Proof.
  intros Ha L N. cbn [effs]. apply St_steps.
  assert (Ad : forall i i' t, St (add_k i t k) (add_k i' t (mkK (k_l k) (h (k_p k)) js))) by (intros i i' t; exists (k_l k), (k_p k), []; auto).
  destruct s2; try discriminate Ha; cbn [eff1]; auto using St_pt, St_rule.
  cbv zeta. match goal with |- St (k_with _ ?a) (k_with _ ?b) => change b with a end. apply St_with, Ad.
Qed.
End V.

(** ** Where a stay may stand *)
Definition point_like (x : token * role) : Prop := snd x = RClimb \/ (snd x = ROut /\ t_base (fst x) = F15_POINT).
Lemma azi_len l p : length (azi G l p) = length l.
Proof.
  unfold azi. destruct (r_llv p); [|reflexivity]. rewrite <- (rev_length l). destruct (rev l) as [|a [|b m]] eqn:E; try (destruct (r_llv a)); try (destruct (r_llv b)); cbn [rev length]; rewrite ?app_length, ?rev_length; cbn [length]; try lia;
    rewrite <- (rev_involutive l), E; cbn [rev]; rewrite ?app_length, ?rev_length; cbn [length]; lia.
Qed.
Lemma prev_len t l p : length (pt_prev G t l p) = length l.
Proof. unfold pt_prev. destruct (t_sub t); rewrite ?azi_len; reflexivity. Qed.
Definition placed (ss : list step) (k : core) (shape : token * role -> list (token * role) -> Prop) : Prop :=
  exists pre0 x mods, ryield ss = pre0 ++ x :: mods /\ shape x mods /\ named (fst x) (k_p k) /\ k_l k <> [].
Lemma stands_ctx ss1 : forall ss2, derives XStart (ss1 ++ ss2) -> Forall wt (yield ss1) ->
  match fold_left after ss1 XStart with
  | XPoint _ | XThenSpeed _ => placed ss1 (effs G 0 ss1 core0) (fun x mods => changes mods /\ point_like x)
  | XClimb _ => placed ss1 (effs G 0 ss1 core0) (fun x mods => mods = [] /\ snd x = RClimb)
  | XC => placed ss1 (effs G 0 ss1 core0) (fun x mods => mods = [] /\ snd x = ROut /\ t_base (fst x) = F15_C)
  | _ => True
  end.
Proof.
  induction ss1 as [|s ss0 IH] using rev_ind; intros ss2 D W; [exact I|]. destruct (derives_last _ _ _ _ D) as (F & P). rewrite <- app_assoc in D. rewrite yield_app, Forall_app in W. destruct W as (W & Ws). specialize (IH _ D W).
  rewrite fold_left_app, effs_app. cbn [fold_left effs]. set (c := fold_left after ss0 XStart) in *. set (k := effs G 0 ss0 core0) in *. clearbody c k. set (j := 0 + length (yield ss0)). clearbody j.
  unfold yield in Ws. cbn [flat_map] in Ws. rewrite app_nil_r in Ws.
  assert (Mod : forall c' sl t p', t_base sl = F15_SLASH -> In (t_base t) [F15_SPEED_ALTITUDE; F15_SPEED_ALTITUDE_ALTITUDE; F15_SPEED_ALTITUDE_PLUS] ->
     (forall z, named z (k_p k) -> named z p') -> rstep c' = [(sl, ROut); (t, ROut)] -> forall q : Prop, 
     placed ss0 k (fun x mods => changes mods /\ point_like x) ->
     placed (ss0 ++ [c']) (k_with k p') (fun x mods => changes mods /\ point_like x)).
  { intros c' sl t p' B1 B2 Hp Er q (p0 & x & m & E & (Cm & Cx) & Nx & Nl). exists p0, x, (m ++ [(sl, ROut); (t, ROut)]). rewrite ryield_app, E, <- app_assoc. unfold ryield. cbn [flat_map]. rewrite Er. split; [reflexivity|].
    split; [split; [now constructor|exact Cx]|]. split; [apply Hp, Nx|exact Nl]. }
  assert (One : forall s' x k' (shape : token * role -> list (token * role) -> Prop) a, rstep s' = a ++ [x] -> shape x [] -> named (fst x) (k_p k') -> k_l k' <> [] -> placed (ss0 ++ [s']) k' shape).
  { intros s' x k' shape a Er Sh Nx Nl. exists (ryield ss0 ++ a), x, []. rewrite ryield_app. unfold ryield at 2. cbn [flat_map]. rewrite Er, app_nil_r, <- app_assoc. auto. }
  assert (Pt : forall t i q, named t q -> named t (pt_rec G i q)) by (intros t i q X; unfold pt_rec, move_bd; destruct (t_sub i); exact X).
  assert (Ne : forall t l (q p : rrec), pt_prev G t (l ++ [q]) p <> []).
  { intros t l q p K. apply (f_equal (@length _)) in K. rewrite prev_len, app_length in K. cbn in K. lia. }
  destruct s; cbn [after eff1]; try exact I; cbn [proper] in P.
  - apply Forall_inv in Ws. destruct P as (P & _). assert (K : placed (ss0 ++ [SPoint t]) (pt_k G t (rule_k RULE_I (add_k j t k))) (fun x mods => changes mods /\ point_like x)).
    { apply (One _ (t, ROut) _ _ []); [reflexivity|split; [constructor|right; auto]| |].
      - apply Pt. repeat split.
      - apply Ne. }
    destruct c as [| | | | | | | | |[]|[]| | |]; try discriminate F; exact K.
  - apply (One _ (t, ROut) _ _ []); [reflexivity|cbn; tauto|repeat split|]. cbn [add_k k_l]. destruct (k_l k); discriminate.
  - destruct P as (P1 & P2 & _). apply Forall_inv_tail, Forall_inv in Ws. destruct (sa_perf t (k_p k) Ws P2) as (a & Ea & _).
    destruct c as [| | | | | | | | |[]|[]| | |]; try discriminate F; (apply (Mod _ sl t); [exact P1|rewrite P2; cbn; auto|intros z X; rewrite Ea; exact X|reflexivity|exact True|exact IH]).
  - destruct (begins (t_sub t)); exact I.
  - destruct c; try discriminate F; exact I.
  - apply (One _ (t, RClimb) _ _ [(c0, ROut); (sl, ROut)]); [reflexivity|cbn; tauto| |].
    + apply Pt. repeat split.
    + apply Ne.
  - destruct P as (P1 & P2 & _). apply Forall_inv_tail, Forall_inv in Ws. destruct c as [| | | | | | | | |[]|[]| | |]; try discriminate F; try exact I.
    apply (Mod _ sl t); [exact P1|destruct P2 as [-> | ->]; cbn; auto| |reflexivity|exact True|].
    + intros z X. unfold climb_eff. destruct P2 as [B|B]; rewrite B; [destruct (saa_perf t (k_p k) Ws B) as (a & b' & c' & -> & _)|destruct (sap_perf t (k_p k) Ws B) as (a & b' & -> & _)]; exact X.
    + destruct IH as (p0 & x & m & E & (-> & Cx) & R). exists p0, x, []. split; [exact E|]. split; [split; [constructor|left; exact Cx]|exact R].
Qed.

(** ** With and without *)
Definition stayable (c : ctx) : bool := match c with XC | XPoint _ => true | _ => false end.
Lemma placed_stands ss1 ss2 : derives XStart (ss1 ++ ss2) -> Forall wt (yield ss1) -> stayable (fold_left after ss1 XStart) = true ->
  exists x, stands (ryield ss1) x /\ named (fst x) (k_p (effs G 0 ss1 core0)) /\ k_l (effs G 0 ss1 core0) <> [].
Proof.
  intros D W Hc. pose proof (stands_ctx ss1 ss2 D W) as H. destruct (fold_left after ss1 XStart); try discriminate Hc.
  - destruct H as (p0 & x & m & E & (-> & S1 & S2) & R). exists x. split; [|exact R]. exists p0, []. split; [exact E|]. split; [constructor|]. right. auto.
  - destruct H as (p0 & x & m & E & (Cm & S1) & R). exists x. split; [|exact R]. exists p0, m. split; [exact E|]. split; [exact Cm|]. destruct S1 as [S1|[S1 S2]]; auto.
Qed.
Lemma stay_effect ss1 y sl tm ss2 : derives XStart (ss1 ++ ss2) -> derives XStart (ss1 ++ SStay y sl tm :: ss2) -> by_text (yield ss1) ->
  stayable (fold_left after ss1 XStart) = true ->
  exists x, stands (ryield ss1) x /\ stay_at (stay_min (t_text tm)) (fst x) (result_of G (ss1 ++ ss2)) (result_of G (ss1 ++ SStay y sl tm :: ss2)).
Proof.
  intros D D' B Hc. destruct (placed_stands ss1 _ D (wt_by_text _ B) Hc) as (x & Sx & Nx & Nl). exists x. split; [exact Sx|].
  assert (Ne : ss1 <> []) by (intros ->; discriminate Hc).
  assert (Ny : yield ss1 <> []).
  { destruct ss1 as [|s0 r]; [congruence|]. cbn [app derives] in D. destruct D as (_ & P & _). apply step_tokens in P. rewrite yield_cons. destruct (tokens_of s0); [congruence|discriminate]. }
  unfold result_of. rewrite (vfr_first_same ss1 ss2 (SStay y sl tm :: ss2) Ny), !effs_app. set (k1 := effs G 0 ss1 core0) in *. set (j := 0 + length (yield ss1)). cbn [effs eff1]. clearbody k1.
  apply derives_app in D'. cbn [derives after] in D'. destruct D' as (_ & _ & D').
  apply final_stay. unfold k_with. destruct ss2 as [|s2 ss2].
  - cbn [effs k_l k_p]. exists (k_l k1), (k_p k1), []. auto.
  - assert (Hs : pushes s2 = true \/ exists t, s2 = STrunc t /\ ss2 = []).
    { cbn [derives] in D'. destruct D' as (F & P & D2). destruct s2; try discriminate F; auto. right. exists t. split; [reflexivity|].
      cbn [after] in D2. destruct ss2 as [|s3 ?]; [reflexivity|]. destruct D2 as (D2 & _). destruct s3; discriminate D2. }
    destruct Hs as [Ha|(t & -> & ->)].
    + destruct (start_stay (stay_min (t_text tm)) (fst x) k1 (k_js k1) s2 ss2 j (j + length (tokens_of (SStay y sl tm))) Ha Nx Nl) as (A & x' & B0 & E1 & E2 & E3 & N & Nx').
      exists A, x', (B0 ++ [k_p (effs G j (s2 :: ss2) k1)]). rewrite E1, E2, <- E3, <- !app_assoc. auto.
    + cbn [effs eff1 k_l k_p]. exists (k_l k1), (k_p k1), []. auto.
Qed.
Lemma derived_stay v z l l' : stay_at v z l l' -> derived l = derived l'.
Proof. intros (A & x & B & -> & -> & _). apply derived_rules. rewrite !map_app. reflexivity. Qed.
(** The results of two accepted fields with these steps. *)
Lemma er_stay v r r' : er_rec (set_r_stay v r) = er_rec r' -> same_but_stay r r' /\ r_stay r' = v /\ r_name r = r_name r'.
Proof. unfold er_rec, same_but_stay, set_r_stay. cbn [r_name r_base r_sub r_alt r_alt_si r_speed r_speed_si r_break r_rules r_err r_stay r_cto r_cto_si r_lat r_lon r_brg r_dist r_llv]. intro H. injection H. intros. repeat apply conj; first [assumption | symmetry; assumption]. Qed.
Lemma same_stay_sym r r' : same_but_stay r r' -> same_but_stay r' r.
Proof. unfold same_but_stay. intro H. repeat match goal with H : _ /\ _ |- _ => destruct H end. repeat apply conj; symmetry; assumption. Qed.
Lemma er_stay' v x r : er_rec x = er_rec r -> same_but_stay (set_r_stay v x) r /\ r_stay r = r_stay x /\ r_name r = r_name x.
Proof. unfold er_rec, same_but_stay, set_r_stay. cbn [r_name r_base r_sub r_alt r_alt_si r_speed r_speed_si r_break r_rules r_err r_stay r_cto r_cto_si r_lat r_lon r_brg r_dist r_llv]. intro H. injection H. intros. repeat apply conj; first [assumption | symmetry; assumption]. Qed.

Lemma stay_step s c r a t b : proper c s r -> rstep s = a ++ (t, ROut) :: b -> t_base t = F15_STAY -> exists sl tm, s = SStay t sl tm /\ a = [] /\ b = [(sl, ROut); (tm, ROut)].
Proof.
  intros P E B. destruct s; cbn [rstep tokens_of map] in E; try (apply text_role in E; discriminate); one_of E; cbn [proper] in P; try discriminate; eauto;
    repeat match goal with H : _ /\ _ |- _ => destruct H | H : _ \/ _ |- _ => destruct H end; try congruence; try (destruct a; discriminate).
Qed.
Lemma no_slash_stay c ss2 : follows c (SStay (typed_token []) (typed_token []) (typed_token [])) = true -> derives XStay ss2 -> no_slash (yield ss2).
Proof.
  intros _ D. destruct ss2 as [|s2 ss2]; [exact I|]. cbn [derives] in D. destruct D as (F & P & _). rewrite yield_cons. destruct s2; try discriminate F; cbn [tokens_of app no_slash proper] in *;
    repeat match goal with H : _ /\ _ |- _ => destruct H | H : _ \/ _ |- _ => destruct H end; congruence.
Qed.
Lemma two_steps ss1 ss2 : derives XStart (ss1 ++ ss2) -> stayable (fold_left after ss1 XStart) = true -> 2 <= length ss1.
Proof.
  destruct ss1 as [|a [|b ss1]]; cbn [length fold_left app]; intros D H; try lia; [discriminate|]. exfalso. cbn [derives] in D. destruct D as (F & _). destruct a; try discriminate F; discriminate H.
Qed.

Theorem stay_dropped depth depth' f s pre y sl tm rest g : parse_field15 G depth f = Ok true s ->
  field_roles f = pre ++ (y, ROut) :: (sl, ROut) :: (tm, ROut) :: rest -> t_base y = F15_STAY ->
  ~ (after_computed pre /\ begins_with F15_ROUTE rest) ->
  element_texts g = wordsof (pre ++ rest) -> 3 * n_tokens g <= depth' + 1 ->
  exists s' x, parse_field15 G depth' g = Ok true s' /\ stands pre x /\ one_stay (t_text (fst x)) (minutes (t_text tm)) (s_ers s) (s_ers s').
Proof.
  intros H W By Nr Eg Hd. destruct (roles_steps G f depth s H) as (ss & D & Y & R & B & Es). rewrite R in W.
  destruct (locate ss XStart _ _ _ D W) as (c & st & ss1 & ss2 & a & b & Ess & Er & Ep & Et & F & P & D2 & Ec). subst ss.
  destruct (stay_step _ _ _ _ _ _ P Er By) as (sl' & tm' & -> & -> & ->). rewrite app_nil_r in Ep. cbn [app] in Et. injection Et as <- <- Et. subst pre rest.
  assert (Hc : stayable c = true) by (destruct c; try discriminate F; try (match goal with k : kind |- _ => destruct k; discriminate F end); reflexivity). cbn [after] in D2.
  pose proof (computed_ctx ss1 _ D) as Cc. rewrite <- Ec in Cc.
  assert (Db : derives c ss2).
  { destruct ss2 as [|s2 ss2]; [destruct c; try discriminate Hc; reflexivity|]. cbn [derives] in D2 |- *. destruct D2 as (F2 & P2 & D2).
    assert (F3 : follows c s2 = true).
    { destruct c as [| | | | | | |[]| | | | | |]; try discriminate Hc; destruct s2; try discriminate F2; try reflexivity. exfalso. apply Nr. split; [exact Cc|]. exists t, (ryield ss2). split; [reflexivity|exact P2]. }
    assert (E3 : after c s2 = after XStay s2) by (destruct s2; try discriminate F2; destruct c; try discriminate Hc; reflexivity). rewrite E3. split; [exact F3|]. split; [|exact D2].
    destruct s2; try discriminate F2; try exact P2. cbn [proper] in P2 |- *. destruct P2 as (P2 & P3). split; [|exact P3]. destruct P2 as [P2|(P2 & _)]; [now left|right]. split; [exact P2|]. destruct c; try discriminate Hc; discriminate. }
  assert (Hc' : stayable (fold_left after ss1 XStart) = true) by (rewrite <- Ec; exact Hc).
  assert (D' : derives XStart (ss1 ++ ss2)).
  { apply (exchange ss1 XStart _ _ D); rewrite <- ?Ec; [exact Db| | | |].
    - left. destruct c; try discriminate Hc; reflexivity.
    - intros _. apply (no_slash_stay XC); [reflexivity|exact D2].
    - right. right. apply (two_steps _ _ D Hc').
    - destruct c; try discriminate Hc; discriminate. }
  pose proof B as B0. rewrite yield_app, yield_cons in B0. assert (B1 : by_text (yield ss1)) by (apply by_text_app_inv in B0; tauto).
  assert (B' : by_text (yield (ss1 ++ ss2))).
  { rewrite yield_app. intros t Ht. apply in_app_or in Ht as [Ht|Ht]; [now apply B1|]. apply B0. apply in_or_app. right. apply in_or_app. now right. }
  assert (Tm : stay_min (t_text tm) = minutes (t_text tm)).
  { cbn [proper] in P. apply stay_minutes; [|apply P]. apply (proj1 (Forall_forall _ _) (wt_by_text _ B)). rewrite yield_app, yield_cons. apply in_or_app. right. right. right. now left. }
  destruct (parse_steps G depth' _ g D' B') as (s' & Hp & E1 & E2 & E3); [|exact Hd|].
  { rewrite Eg, <- words_ryield, ryield_app. reflexivity. }
  destruct (stay_effect ss1 y sl tm ss2 D' D B1 Hc') as (x & Sx & O). exists s', x. split; [exact Hp|]. split; [exact Sx|].
  rewrite (derived_stay _ _ _ _ O) in E3. destruct O as (A & r & V & O1 & O2 & Nr0). rewrite O1, map_app in E1. cbn [map] in E1. apply map_split in E1 as (U' & r' & V' & E4 & EU & Ey & EV).
  exists A, (set_r_stay (stay_min (t_text tm)) r), V, U', r', V'. rewrite Es, O2, E4. cbn [e_recs e_errs e_rules]. split; [reflexivity|]. split; [reflexivity|].
  split; [apply er_same_list; now symmetry|]. split; [apply er_same_list; now symmetry|]. symmetry in Ey. destruct (er_stay' (stay_min (t_text tm)) _ _ Ey) as (Q1 & Q2 & Q3). destruct Nr0 as (N1 & N2 & N3 & N4).
  split; [exact Q1|]. split; [exact N1|]. split; [exact Tm|]. split; [congruence|]. rewrite E3, O2. auto.
Qed.

(** ** Putting one in *)
Lemma stands_unique pre x y : stands pre x -> stands pre y -> x = y.
Proof.
  intros (p & m & E & Cm & Sx) (q & n & E' & Cn & Sy). rewrite E in E'. clear E pre. revert p q n Cn Sy E'.
  induction Cm as [|l sl t Cl IH Bs Bt]; intros p q n Cn Sy E'.
  - inversion Cn as [|l' sl' t' Cl' Bs' Bt']; subst.
    + apply app_inj_tail in E' as (_ & E'). exact E'.
    + exfalso. change (p ++ [x] = q ++ (y :: l') ++ [(sl', ROut); (t', ROut)]) in E'. change [(sl', ROut); (t', ROut)] with ([(sl', ROut)] ++ [(t', ROut)]) in E'. rewrite !app_assoc in E'. apply app_inj_tail in E' as (_ & ->).
      cbn [fst snd] in Sx. cbn [In] in Bt'. destruct Sx as [Sx|(_ & [Sx|(Sx & _)])]; [discriminate| |]; rewrite Sx in Bt'; intuition discriminate.
  - inversion Cn as [|l' sl' t' Cl' Bs' Bt']; subst.
    + exfalso. change (p ++ (x :: l) ++ [(sl, ROut); (t, ROut)] = q ++ [y]) in E'. change [(sl, ROut); (t, ROut)] with ([(sl, ROut)] ++ [(t, ROut)]) in E'. rewrite !app_assoc in E'. apply app_inj_tail in E' as (_ & <-).
      cbn [fst snd] in Sy. cbn [In] in Bt. destruct Sy as [Sy|(_ & [Sy|(Sy & _)])]; [discriminate| |]; rewrite Sy in Bt; intuition discriminate.
    + change (p ++ (x :: l) ++ [(sl, ROut); (t, ROut)] = q ++ (y :: l') ++ [(sl', ROut); (t', ROut)]) in E'. rewrite !app_assoc in E'.
      assert (E2 : p ++ x :: l = q ++ y :: l').
      { revert E'. generalize (p ++ x :: l) (q ++ y :: l'). intros u w E'. apply (f_equal (@rev _)) in E'. rewrite !rev_app_distr in E'. cbn [rev app] in E'. injection E' as _ _ E'. rewrite <- (rev_involutive u), E'. apply rev_involutive. }
      apply (IH) with (p := p) (q := q) (n := l'); auto.
      * destruct Sx as [Sx|(Sx & [Sx'|(_ & Sx')])]; auto. destruct l; discriminate.
      * destruct Sy as [Sy|(Sy & [Sy'|(_ & Sy')])]; auto. destruct l'; discriminate.
Qed.
Lemma ends_here pre x : stands pre x -> exists pre1 z, pre = pre1 ++ [z] /\ (snd z = RClimb \/ (snd z = ROut /\ In (t_base (fst z)) [F15_POINT; F15_C; F15_SPEED_ALTITUDE; F15_SPEED_ALTITUDE_ALTITUDE; F15_SPEED_ALTITUDE_PLUS])) /\
  (t_base (fst z) = F15_SPEED_ALTITUDE -> snd z = ROut -> pre1 <> []).
Proof.
  intros (p & m & -> & Cm & Sx). inversion Cm as [|l sl t Cl Bs Bt]; subst.
  - exists p, x. split; [reflexivity|]. split; [destruct Sx as [Sx|(Sx & [Sx'|(Sx' & _)])]; [now left| |]; right; rewrite Sx'; cbn; auto|]. intros K K'. destruct Sx as [Sx|(Sx & [Sx'|(Sx' & _)])]; congruence.
  - exists (p ++ x :: l ++ [(sl, ROut)]), (t, ROut). split; [rewrite <- app_assoc; cbn [app]; rewrite <- app_assoc; reflexivity|]. split; [right; split; [reflexivity|]; cbn [In fst] in *; tauto|]. intros _ _. destruct p; discriminate.
Qed.
Lemma split_here ss pre x rest : derives XStart ss -> ryield ss = pre ++ rest -> stands pre x -> ~ begins_with F15_SLASH rest ->
  exists ss1 ss2, ss = ss1 ++ ss2 /\ ryield ss1 = pre /\ ryield ss2 = rest /\ stayable (fold_left after ss1 XStart) = true.
Proof.
  intros D E Sx Ns. destruct (ends_here pre x Sx) as (p1 & z & -> & Hz & Hf). rewrite <- app_assoc in E. cbn [app] in E.
  destruct (locate ss XStart _ _ _ D E) as (c & st & ss1 & ss2 & a & b & Ess & Er & Ep & Et & F & P & D2 & Ec). subst ss.
  assert (Fi : c = XStart -> ryield ss1 = []).
  { intros ->. destruct (snoc_ind_ctx ss1) as [->|(ss0 & s1 & ->)]; [reflexivity|exfalso]. destruct (derives_last _ _ _ _ D) as (F1 & _). rewrite fold_left_app in Ec. cbn [fold_left] in Ec. revert F1 Ec. generalize (fold_left after ss0 XStart). clear. intros c F1 Ec.
    destruct s1; cbn [after] in Ec; try discriminate Ec; destruct c as [| | | | | | | | | | | | |]; try discriminate Ec; try discriminate F1;
      repeat match goal with H : context [match ?x with _ => _ end] |- _ => destruct x; try discriminate Ec; try discriminate F1 end. }
  assert (Hb : b = [] /\ stayable (after c st) = true).
  { destruct z as (z & rz). cbn [fst snd] in *.
    assert (Nt : forall s, st <> SText s) by (intros s ->; cbn [rstep] in Er; apply text_role in Er; subst rz; destruct Hz as [Hz|(Hz & _)]; discriminate).
    assert (NoSl : forall t, rz = ROut -> t_base t = F15_SLASH -> z = t -> False).
    { intros t Hr Bt ->. destruct Hz as [Hz|(_ & Hz)]; [congruence|]. rewrite Bt in Hz. cbn [In] in Hz. intuition discriminate. }
    assert (Bs : forall t b', b = (t, ROut) :: b' -> t_base t = F15_SLASH -> False) by (intros t b' -> Bt; apply Ns; exists t, (b' ++ ryield ss2); split; [exact Et|exact Bt]).
    assert (Sl : forall c2, c2 = after c st -> (exists b0, c2 = XThenSpeed b0 \/ c2 = XClimb b0 \/ c2 = XThenVfr) -> b = [] -> False).
    { intros c2 -> (b0 & Hc2) ->. cbn [app] in Et. destruct ss2 as [|s2 ss2]; [cbn [derives] in D2; destruct Hc2 as [Hc2|[Hc2|Hc2]]; rewrite Hc2 in D2; discriminate D2|].
      cbn [derives] in D2. destruct D2 as (F2 & P2 & _). rewrite ryield_cons in Et.
      destruct Hc2 as [Hc2|[Hc2|Hc2]]; rewrite Hc2 in F2; destruct s2; try discriminate F2; cbn [rstep tokens_of map app proper] in *; apply Ns; eexists _, _; split; try exact Et; apply P2. }
    clear Ns Ec. destruct st; cbn [rstep tokens_of map] in Er; try (exfalso; eapply Nt; reflexivity); one_of Er; cbn [proper] in P; cbn [after] in *;
      try (exfalso; destruct a; discriminate);
      try (exfalso; apply (NoSl sl eq_refl); [apply P|reflexivity]);
      try (exfalso; eapply Bs; [reflexivity|apply P]);
      try (exfalso; destruct Hz as [Hz|(_ & Hz)]; [discriminate|]; cbn [In] in Hz; repeat match goal with H : _ /\ _ |- _ => destruct H | H : _ \/ _ |- _ => destruct H end; congruence).
    - exfalso. apply Hf; [apply P|reflexivity|]. rewrite app_nil_r. apply Fi. destruct c; try discriminate F; try (match goal with k : kind |- _ => destruct k; discriminate F end). reflexivity.
    - split; [reflexivity|]. destruct c; try reflexivity. match goal with k : kind |- _ => destruct k; try reflexivity end. exfalso. eapply Sl; [reflexivity| |reflexivity]. eauto.
    - split; reflexivity.
    - split; [reflexivity|]. destruct c; try discriminate F; try (match goal with k : kind |- _ => destruct k; discriminate F end); reflexivity.
    - exfalso. eapply Sl; [reflexivity| |reflexivity]. exists true. auto.
    - exfalso. eapply Sl; [reflexivity| |reflexivity]. eauto.
    - split; [reflexivity|]. destruct c; try discriminate F; try (match goal with k : kind |- _ => destruct k; discriminate F end); reflexivity. }
  destruct Hb as (-> & Hc). exists (ss1 ++ [st]), ss2. rewrite <- app_assoc. split; [reflexivity|]. rewrite ryield_app. unfold ryield at 2. cbn [flat_map]. rewrite app_nil_r, Er, Ep, <- app_assoc. split; [reflexivity|]. split; [now symmetry|].
  rewrite fold_left_app. cbn [fold_left]. rewrite <- Ec. exact Hc.
Qed.
Theorem stay_inserted depth depth' f s pre x rest y w g : parse_field15 G depth f = Ok true s ->
  field_roles f = pre ++ rest -> stands pre x -> ~ begins_with F15_SLASH rest -> ~ begins_with F15_STAY rest ->
  fst (classify y) = F15_STAY -> fst (classify w) = F15_STAY_TIME ->
  element_texts g = wordsof pre ++ y :: $"/" :: w :: wordsof rest -> 3 * n_tokens g <= depth' + 1 ->
  exists s', parse_field15 G depth' g = Ok true s' /\ one_stay (t_text (fst x)) (minutes w) (s_ers s') (s_ers s).
Proof.
  intros H W Sx Nsl Nst Cy Cw Eg Hd. destruct (roles_steps G f depth s H) as (ss & D & Y & R & B & Es). rewrite R in W.
  destruct (split_here ss pre x rest D W Sx Nsl) as (ss1 & ss2 & -> & <- & <- & Hc).
  set (st := SStay (typed_token y) (typed_token ($"/")) (typed_token w)).
  pose proof (derives_app _ _ _ D) as D2. set (c := fold_left after ss1 XStart) in *.
  assert (Cs : t_base (typed_token ($"/")) = F15_SLASH) by (vm_compute; reflexivity).
  assert (Ds : derives XStay ss2).
  { destruct ss2 as [|s2 ss2]; [reflexivity|]. cbn [derives] in D2 |- *. destruct D2 as (F2 & P2 & D3).
    assert (F3 : follows XStay s2 = true).
    { destruct c as [| | | | | | |[]| | | | | |]; try discriminate Hc; destruct s2; try discriminate F2; try reflexivity; exfalso;
        first [apply Nst; eexists _, _; split; [reflexivity|apply P2]|apply Nsl; eexists _, _; split; [reflexivity|apply P2]]. }
    assert (E3 : after c s2 = after XStay s2) by (destruct s2; try discriminate F3; destruct c; try discriminate Hc; reflexivity). rewrite <- E3. split; [exact F3|]. split; [|exact D3].
    destruct s2; try discriminate F3; try exact P2. cbn [proper] in P2 |- *. destruct P2 as (P2 & P3). split; [|exact P3]. destruct P2 as [P2|(P2 & _)]; [now left|right]. split; [exact P2|discriminate]. }
  assert (D' : derives XStart (ss1 ++ st :: ss2)).
  { apply (exchange ss1 XStart _ _ D); fold c.
    - cbn [derives]. split; [destruct c; try discriminate Hc; reflexivity|]. split; [|exact Ds]. split; [exact Cy|]. split; [exact Cs|exact Cw].
    - left. destruct c; try discriminate Hc; reflexivity.
    - intros _. rewrite yield_cons. cbn [st tokens_of app no_slash]. change (fst (classify y) <> F15_SLASH). rewrite Cy. discriminate.
    - left. rewrite yield_cons. discriminate.
    - destruct c; try discriminate Hc; discriminate. }
  assert (B1 : by_text (yield ss1)) by (rewrite yield_app in B; apply by_text_app_inv in B; tauto).
  assert (Ty : forall u, (t_base (typed_token u), t_sub (typed_token u)) = classify (t_text (typed_token u))) by (intro u; cbn [t_base t_sub t_text typed_token]; now rewrite <- surjective_pairing).
  assert (B' : by_text (yield (ss1 ++ st :: ss2))).
  { rewrite yield_app, yield_cons. intros t Ht. apply in_app_or in Ht as [Ht|Ht]; [now apply B1|]. apply in_app_or in Ht as [Ht|Ht].
    - cbn [st tokens_of In] in Ht. destruct Ht as [<-|[<-|[<-|[]]]]; apply Ty.
    - apply B. rewrite yield_app. apply in_or_app. now right. }
  assert (Tm : stay_min w = minutes w).
  { change w with (t_text (typed_token w)). apply stay_minutes; [|exact Cw]. apply (proj1 (Forall_forall _ _) (wt_by_text _ B')). rewrite yield_app, yield_cons. apply in_or_app. right. right. right. now left. }
  destruct (parse_steps G depth' _ g D' B') as (s' & Hp & E1 & E2 & E3); [|exact Hd|].
  { rewrite Eg, <- words_ryield, ryield_app, ryield_cons. unfold wordsof. rewrite !map_app. reflexivity. }
  exists s'. split; [exact Hp|]. destruct (stay_effect ss1 _ _ _ ss2 D D' B1 Hc) as (x' & Sx' & O). rewrite (stands_unique _ _ _ Sx Sx'). fold st in O.
  rewrite <- (derived_stay _ _ _ _ O) in E3. destruct O as (A & r & V & O1 & O2 & Nr0). cbn [t_text typed_token] in O2. rewrite O2, map_app in E1. cbn [map] in E1. apply map_split in E1 as (U' & r' & V' & E4 & EU & Ey & EV).
  exists U', r', V', A, r, V. rewrite Es, E4. cbn [e_recs e_errs e_rules]. split; [reflexivity|]. split; [exact O1|].
  split; [apply er_same_list; exact EU|]. split; [apply er_same_list; exact EV|]. symmetry in Ey. destruct (er_stay _ _ _ Ey) as (Q1 & Q2 & Q3). destruct Nr0 as (N1 & N2 & N3 & N4).
  split; [now apply same_stay_sym|]. split; [congruence|]. split; [congruence|]. split; [exact N4|]. rewrite E3. auto.
Qed.
End G.
