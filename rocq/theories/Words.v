(** * Words: a section with other words. *)
From Coq Require Import ZArith NArith List Bool String Lia.
From Coq Require Import Floats.SpecFloat.
From Coq Require Import ZifyBool ZifyNat ZifyN.
From Verif Require Import PyBase PyFloat Enums ErrorTable Regex SyntaxTable Syntax Tokenizer Ers Utils Parser.
From Verif Require Import SpecTokenizer TokenizerProofs SpecNum ParserPrims PerfEq PointEq SyntaxProofs Trace ParseTrace ParserFacts SpecParser SpecGrammar GrammarSem Grammar SpecAccept Accept Describe AcceptFacts SpecLayout Layout SpecViable Viable Unambiguous SpecRemoval Removal SpecConnector Connector Join SpecWords.
Import List ListNotations.
Local Open Scope list_scope.
Local Open Scope nat_scope.

(** ** Sections *)
Definition idle_token (t : token) : Prop := idle (t_base t, t_sub t).
Lemma idle_ends k t : idle_token t -> ends k (t_sub t) = false.
Proof. intros (_ & H). cbn [fst snd In] in H. destruct k, (t_sub t); try reflexivity; exfalso; apply H; tauto. Qed.
Lemma idle_long t : idle_token t -> t_base t <> F15_TOO_LONG.
Proof. intros (H & _) E. apply H. cbn [fst]. rewrite E. cbn. tauto. Qed.
Lemma section_idle k v b rest : Forall idle_token v -> (v = [] \/ True) -> (section k (v ++ b) rest <-> section k b rest).
Proof.
  intros F _. induction F as [|t v H F IH]; [reflexivity|]. cbn [app section]. rewrite (idle_ends k t H). pose proof (idle_long t H). tauto.
Qed.
Lemma resume_idle k a t u r r' : idle_token t -> idle_token u -> resume k (a ++ t :: r) = Inside -> resume k (a ++ u :: r') = Inside.
Proof.
  intros (Ht & _) (Hu & _). cbn [fst In] in Ht, Hu. destruct a as [|p [|q [|z a]]]; cbn [app resume].
  - intros _. destruct (t_base u); try reflexivity. exfalso. apply Hu. tauto.
  - destruct (t_base p); try (intros; reflexivity). destruct k; try (intros; discriminate). intros _. destruct (t_base u); try reflexivity. exfalso. apply Hu. tauto.
  - destruct (t_base p); try (intros; reflexivity). destruct k; try (intros; discriminate). destruct (t_base q); try (intros; reflexivity). destruct (t_base t); intros; try discriminate; exfalso; apply Ht; tauto.
  - destruct (t_base p); try (intros; reflexivity). destruct k; try (intros; discriminate). destruct (t_base q); try (intros; reflexivity). destruct (t_base z); intros; discriminate.
Qed.
Lemma section_other k v w b rest : Forall idle_token v -> Forall idle_token w -> v <> [] -> w <> [] ->
  forall a, section k (a ++ v ++ b) rest -> section k (a ++ w ++ b) rest.
Proof.
  intros Fv Fw Nv Nw. induction a as [|t a IH]; cbn [app].
  - intro H. apply section_idle; [exact Fw|now right|]. apply section_idle in H; [exact H|exact Fv|now right].
  - cbn [section]. intros (L & H). split; [exact L|]. destruct (ends k (t_sub t)); [|now apply IH].
    destruct (resume k ((a ++ v ++ b) ++ rest)) eqn:R; [|exfalso; destruct a, v; try discriminate; congruence|destruct H].
    assert (R' : resume k ((a ++ w ++ b) ++ rest) = Inside).
    { destruct v as [|t1 v]; [congruence|]. destruct w as [|u1 w]; [congruence|]. rewrite <- !app_assoc in R |- *. cbn [app] in R |- *. revert R. apply resume_idle; [now inversion Fv|now inversion Fw]. }
    rewrite R'. now apply IH.
Qed.
(** ** Records *)
Section G.
Variable G : geodesic.
Section V.
Variable b0 b1 : pstr.
Variable ru : pstr.
Notation h := (set_r_break b1).
Definition wordy (r : rrec) : Prop := r_break r = b0 /\ r_rules r = ru.
Lemma azi_words A x B p : wordy x -> exists A' x' B', azi G (A ++ x :: B) p = A' ++ x' :: B' /\ azi G (A ++ h x :: B) p = A' ++ h x' :: B' /\ length A' = length A /\ wordy x'.
Proof.
  intro Nx. unfold azi. destruct (r_llv p); [|now exists A, x, B].
  rewrite !rev_app_distr. cbn [rev]. destruct (rev B) as [|y1 [|y2 m]] eqn:EB; cbn [app].
  - change (r_llv (h x)) with (r_llv x). apply (f_equal (@rev _)) in EB. rewrite rev_involutive in EB. cbn [rev] in EB. subst B. destruct (r_llv x).
    + destruct (rev A) as [|a m] eqn:EA; apply (f_equal (@rev _)) in EA; rewrite rev_involutive in EA; cbn [rev] in EA; subst A.
      * exists [], (set_bd G x p), []. cbn [rev app]. repeat split; try reflexivity; apply Nx.
      * exists (rev m ++ [a]), (set_bd G x p), []. cbn [rev]. repeat split; try reflexivity; apply Nx.
    + destruct (rev A) as [|a m] eqn:EA; [now exists A, x, []|]. apply (f_equal (@rev _)) in EA. rewrite rev_involutive in EA. cbn [rev] in *. subst A.
      destruct (r_llv a); [|now exists (rev m ++ [a]), x, []]. exists (rev m ++ [set_bd G a p]), x, []. rewrite <- !app_assoc. cbn [app]. rewrite !app_length. auto.
  - apply (f_equal (@rev _)) in EB. rewrite rev_involutive in EB. cbn [rev app] in EB. subst B. destruct (r_llv y1).
    + exists A, x, [set_bd G y1 p]. cbn [rev]. rewrite !rev_involutive, <- !app_assoc. cbn [app]. auto.
    + change (r_llv (h x)) with (r_llv x). destruct (r_llv x); [|now exists A, x, [y1]]. exists A, (set_bd G x p), [y1]. rewrite !rev_involutive. repeat split; try reflexivity; apply Nx.
  - apply (f_equal (@rev _)) in EB. rewrite rev_involutive in EB. cbn [rev app] in EB. subst B. destruct (r_llv y1).
    + exists A, x, (rev m ++ [y2; set_bd G y1 p]). cbn [rev]. rewrite !rev_app_distr. cbn [rev app]. rewrite !rev_involutive, <- !app_assoc. cbn [app]. auto.
    + destruct (r_llv y2).
      * exists A, x, (rev m ++ [set_bd G y2 p; y1]). rewrite !rev_app_distr. cbn [rev app]. rewrite !rev_involutive, <- !app_assoc. cbn [app]. auto.
      * exists A, x, ((rev m ++ [y2]) ++ [y1]). auto.
Qed.
Lemma prev_words t A x B p : wordy x -> exists A' x' B', pt_prev G t (A ++ x :: B) p = A' ++ x' :: B' /\ pt_prev G t (A ++ h x :: B) p = A' ++ h x' :: B' /\ length A' = length A /\ wordy x'.
Proof.
  intro Lx. unfold pt_prev. destruct (t_sub t); try (now exists A, x, B); try now apply azi_words.
  - destruct (azi_words A x B (set_coords (coords_deg (t_text t)) p) Lx) as (A1 & x1 & B1 & -> & -> & L1 & N1). destruct (azi_words A1 x1 B1 (pt_rec G t p) N1) as (A2 & x2 & B2 & E1 & E2 & L2 & N2). exists A2, x2, B2. rewrite E1, E2, L2, L1. auto.
  - destruct (azi_words A x B (set_coords (coords_min (t_text t)) p) Lx) as (A1 & x1 & B1 & -> & -> & L1 & N1). destruct (azi_words A1 x1 B1 (pt_rec G t p) N1) as (A2 & x2 & B2 & E1 & E2 & L2 & N2). exists A2, x2, B2. rewrite E1, E2, L2, L1. auto.
Qed.
Definition Wo (k k' : core) : Prop := exists A x B, k_l k = A ++ x :: B /\ k_l k' = A ++ h x :: B /\ k_p k = k_p k' /\ A <> [] /\ wordy x.
Lemma Wo_pt t k k' : Wo k k' -> Wo (pt_k G t k) (pt_k G t k').
Proof.
  intros (A & x & B & E1 & E2 & E3 & N & Nx). unfold pt_k. rewrite E1, E2, E3. destruct (prev_words t A x B (k_p k') Nx) as (A' & x' & B' & F1 & F2 & F3 & F4).
  exists A', x', B'. cbn [k_l k_p]. repeat split; auto; try apply F4. now apply (len_ne A).
Qed.
Lemma Wo_with k k' p : Wo k k' -> Wo (k_with k p) (k_with k' p).
Proof. intros (A & x & B & E1 & E2 & _ & N). exists A, x, B. auto. Qed.
Lemma Wo_push k k' q p js js' : Wo k k' -> Wo (mkK (k_l k ++ [q]) p js) (mkK (k_l k' ++ [q]) p js').
Proof. intros (A & x & B & E1 & E2 & _ & N). exists A, x, (B ++ [q]). cbn [k_l k_p]. rewrite E1, E2, <- !app_assoc. auto. Qed.
Lemma Wo_p k k' : Wo k k' -> k_p k = k_p k'.
Proof. intros (? & ? & ? & _ & _ & E & _). exact E. Qed.
Lemma Wo_rule r k k' : Wo k k' -> Wo (rule_k r k) (rule_k r k').
Proof. intro K. unfold rule_k. rewrite (Wo_p _ _ K). now apply Wo_with. Qed.
Lemma Wo_step s j j' k k' : Wo k k' -> Wo (eff1 G j s k) (eff1 G j' s k').
Proof.
  intros H. pose proof (Wo_p _ _ H) as Ep.
  assert (Ad : forall i i' t, Wo (add_k i t k) (add_k i' t k')) by (intros i i' t; unfold add_k; rewrite Ep; now apply Wo_push).
  destruct s; cbn [eff1]; rewrite ?Ep; try (now apply Wo_with); auto using Wo_rule, Wo_pt.
  - unfold vfr_k. rewrite Ep. now apply Wo_push.
  - cbv zeta. change (k_p (add_k j t k)) with (carry (k_p k) (tok_rec t)). change (k_p (add_k j' t k')) with (carry (k_p k') (tok_rec t)). rewrite Ep. apply Wo_with, Ad.
  - cbv zeta. change (k_p (add_k j t k)) with (carry (k_p k) (tok_rec t)). change (k_p (add_k j' t k')) with (carry (k_p k') (tok_rec t)). rewrite Ep. apply Wo_with, Ad.
  - unfold vfr_k. rewrite Ep. now apply Wo_push.
Qed.
Lemma Wo_steps : forall ss j j' k k', Wo k k' -> Wo (effs G j ss k) (effs G j' ss k').
Proof. induction ss as [|s ss IH]; intros j j' k k' H; [exact H|]. cbn [effs]. now apply IH, Wo_step. Qed.
Definition text_at (l l' : list rrec) : Prop := exists A x B, l = A ++ x :: B /\ l' = A ++ h x :: B /\ wordy x.
Lemma final_words w k k' : (exists A x B, k_l k ++ [k_p k] = A ++ x :: B /\ k_l k' ++ [k_p k'] = A ++ h x :: B /\ A <> [] /\ wordy x) -> text_at (core_final w k) (core_final w k').
Proof.
  intros (A & x & B & E1 & E2 & N & Nx). unfold core_final. rewrite !core_recs_eq, E1, E2. destruct A as [|a A]; [congruence|]. rewrite !upd_first_app. set (A1 := upd_first w (a :: A)). clearbody A1.
  assert (La : ades_rec (A1 ++ h x :: B) = ades_rec (A1 ++ x :: B)).
  { unfold ades_rec. f_equal. assert (La : forall (y : rrec) B, last (A1 ++ y :: B) adep0 = last (y :: B) adep0).
    { clear. induction A1 as [|b A1 IH]; intros y B; [reflexivity|]. cbn [app]. rewrite <- (IH y B). destruct (A1 ++ y :: B) eqn:E; [destruct A1; discriminate|reflexivity]. }
    rewrite !La. destruct B; reflexivity. }
  rewrite La. exists A1, x, (B ++ [ades_rec (A1 ++ x :: B)]). rewrite <- !app_assoc. auto.
Qed.
(** After the text of a section comes a point, if anything. *)
Lemma start_words k k' s2 ss2 j j' kd : follows (XBreak kd) s2 = true -> wordy (k_p k) -> k_l k <> [] -> k_l k' = k_l k -> k_p k' = h (k_p k) ->
  Wo (effs G j (s2 :: ss2) k) (effs G j' (s2 :: ss2) k').
Proof.
  intros F L N E1 E2. cbn [effs]. apply Wo_steps.
  assert (Ad : forall i i' t, Wo (add_k i t k) (add_k i' t k')).
  { intros i i' t. exists (k_l k), (k_p k), []. unfold add_k. cbn [k_l k_p]. rewrite E1, E2. repeat split; auto; apply L. }
  destruct kd, s2; try discriminate F; cbn [eff1]; auto using Wo_pt, Wo_rule.
Qed.
End V.
Definition opening (kd : kind) : pstr := match kd with KVfr => $"VFR" | KOat => $"OAT" | KIfpstop => $"IFPS" end.
Lemma text_ctx ss1 ss2 kd : derives XStart (ss1 ++ ss2) -> Forall wt (yield ss1) -> fold_left after ss1 XStart = XText kd ->
  let k := effs G 0 ss1 core0 in k_l k <> [] /\ r_break (k_p k) = [] /\ r_rules (k_p k) = opening kd.
Proof.
  intros D W E. destruct (snoc_ind_ctx ss1) as [->|(ss0 & s & ->)]; [discriminate|]. destruct (derives_last _ _ _ _ D) as (F & P).
  rewrite fold_left_app in E. cbn [fold_left] in E. cbv zeta. rewrite effs_app. cbn [effs]. set (k1 := effs G 0 ss0 core0). clearbody k1. set (j1 := 0 + _). clearbody j1.
  rewrite yield_app, Forall_app in W. destruct W as [_ W]. unfold yield in W. cbn [flat_map] in W. rewrite app_nil_r in W. set (c := fold_left after ss0 XStart) in *. clearbody c.
  assert (Ne : forall (l : list rrec) x, l ++ [x] <> []) by (intros [|] ?; discriminate).
  destruct s; cbn [after] in E; try discriminate E; cbn [eff1].
  - injection E as <-. cbn [proper] in P. apply Forall_inv in W. destruct (vfr_perf t (k_p k1) W P) as (a & Ea & _). unfold vfr_k. cbn [k_l k_p]. rewrite Ea. split; [apply Ne|split; reflexivity].
  - destruct c; try discriminate E; try (match goal with k : kind |- _ => destruct k; discriminate E end).
  - destruct c; try discriminate E; try discriminate F.
  - injection E as <-. cbn [proper] in P. destruct P as (_ & P). cbn [tokens_of] in W. apply Forall_inv_tail, Forall_inv in W. destruct (vfr_perf t (k_p k1) W P) as (a & Ea & _). unfold vfr_k. cbn [k_l k_p]. rewrite Ea. split; [apply Ne|split; reflexivity].
  - unfold break_rule. destruct (begins (t_sub t)) as [b|]; [|discriminate]. injection E as ->. cbn [rule_k add_k k_with k_l k_p]. split; [apply Ne|]. split; [reflexivity|]. destruct kd; reflexivity.
  - destruct c; discriminate.
  - destruct c; discriminate.
Qed.
Lemma texts_set txt : forall p, texts txt p = set_r_break (r_break (texts txt p)) p.
Proof.
  induction txt as [|t txt IH]; intro p; [destruct p; reflexivity|]. change (texts (t :: txt) p) with (texts txt (append_break_text (t_text t) p)). rewrite (IH (append_break_text (t_text t) p)) at 1.
  unfold append_break_text at 2. destruct (pstr_eqb (r_break p) []); reflexivity.
Qed.
Lemma words_effect ss1 txt txt' ss2 kd : derives XStart (ss1 ++ SText txt :: ss2) -> by_text (yield ss1) -> fold_left after ss1 XStart = XText kd ->
  Forall (fun s => s <> []) (map t_text txt) -> Forall (fun s => s <> []) (map t_text txt') ->
  text_at (joined (map t_text txt)) (joined (map t_text txt')) (opening kd) (result_of G (ss1 ++ SText txt :: ss2)) (result_of G (ss1 ++ SText txt' :: ss2)).
Proof.
  intros D B Hc N1 N2. destruct (text_ctx ss1 _ kd D (wt_by_text _ B) Hc) as (Nl & Br & Ru).
  assert (Ny : yield ss1 <> []).
  { destruct ss1 as [|s0 r]; [discriminate|]. cbn [app derives] in D. destruct D as (_ & P & _). apply step_tokens in P. rewrite yield_cons. destruct (tokens_of s0); [congruence|discriminate]. }
  unfold result_of. rewrite (vfr_first_same ss1 (SText txt' :: ss2) (SText txt :: ss2) Ny), !effs_app. set (k1 := effs G 0 ss1 core0) in *. set (j := 0 + length (yield ss1)). cbn [effs eff1]. clearbody k1.
  apply derives_app in D. rewrite Hc in D. cbn [derives after] in D. destruct D as (_ & _ & D).
  pose proof (texts_break txt (k_p k1) [] (Forall_nil _) N1 Br) as T1. pose proof (texts_break txt' (k_p k1) [] (Forall_nil _) N2 Br) as T2. cbn [app] in T1, T2.
  assert (Wy : wordy (joined (map t_text txt)) (opening kd) (texts txt (k_p k1))) by (split; [exact T1|rewrite texts_set; exact Ru]).
  assert (Eh : texts txt' (k_p k1) = set_r_break (joined (map t_text txt')) (texts txt (k_p k1))) by (rewrite (texts_set txt'), T2, (texts_set txt (k_p k1)); reflexivity).
  apply final_words. destruct ss2 as [|s2 ss2].
  - cbn [effs k_l k_p k_with]. exists (k_l k1), (texts txt (k_p k1)), []. rewrite Eh. auto.
  - cbn [derives] in D. destruct D as (F & _).
    destruct (start_words (joined (map t_text txt)) (joined (map t_text txt')) (opening kd) (k_with k1 (texts txt (k_p k1))) (k_with k1 (texts txt' (k_p k1))) s2 ss2 (j + length (tokens_of (SText txt))) (j + length (tokens_of (SText txt'))) kd F Wy Nl eq_refl Eh) as (A & x & B0 & E1 & E2 & E3 & N & Nx).
    eexists A, x, (B0 ++ [_]). rewrite E1, E2, <- E3, <- !app_assoc. cbn [app]. auto.
Qed.
Lemma derived_text b0 b1 ru l l' : text_at b0 b1 ru l l' -> derived l = derived l'.
Proof. intros (A & x & B & -> & -> & _). apply derived_rules. rewrite !map_app. reflexivity. Qed.
Lemma er_text v r r' : er_rec (set_r_break v r) = er_rec r' -> same_but_text r r' /\ r_break r' = v.
Proof. unfold er_rec, same_but_text, set_r_break. cbn [r_name r_base r_sub r_alt r_alt_si r_speed r_speed_si r_break r_rules r_err r_stay r_cto r_cto_si r_lat r_lon r_brg r_dist r_llv]. intro H. injection H. intros. repeat apply conj; first [assumption | symmetry; assumption]. Qed.

Lemma run_inside v : forall txt (x : list (token * role)) post, map (fun t => (t, RText)) v ++ post = map (fun t => (t, RText)) txt ++ x -> (match x with (_, RText) :: _ => False | _ => True end) ->
  exists b, txt = v ++ b /\ post = map (fun t => (t, RText)) b ++ x.
Proof.
  induction v as [|t v IH]; intros txt x post E Hx; [exists txt; auto|]. cbn [map app] in E. destruct txt as [|u txt]; cbn [map app] in E.
  - subst x. destruct Hx.
  - injection E as <- E. destruct (IH _ _ _ E Hx) as (b & -> & ->). exists b. auto.
Qed.
Theorem other_words depth depth' f s pre v post w g : parse_field15 G depth f = Ok true s ->
  field_roles f = pre ++ map (fun t => (t, RText)) v ++ post -> v <> [] -> Forall (fun t => idle (t_base t, t_sub t)) v ->
  w <> [] -> Forall (fun x => idle (classify x)) w ->
  element_texts g = wordsof pre ++ w ++ wordsof post -> 3 * n_tokens g <= depth' + 1 ->
  exists s', parse_field15 G depth' g = Ok true s' /\ one_text (map t_text v) w (s_ers s) (s_ers s').
Proof.
  intros H W Nv Fv Nw Fw Eg Hd. destruct (roles_steps G f depth s H) as (ss & D & Y & R & B & Es). rewrite R in W.
  destruct v as [|v0 v1]; [congruence|]. cbn [map app] in W.
  destruct (locate ss XStart _ _ _ D W) as (c & st & ss1 & ss2 & a & b & Ess & Er & Ep & Et & F & P & D2 & Ec). subst ss.
  assert (Ht : exists txt, st = SText txt).
  { destruct st; cbn [rstep tokens_of map] in Er; eauto; exfalso; assert (K : In (v0, RText) (a ++ (v0, RText) :: b)) by (apply in_or_app; right; now left); rewrite <- Er in K; cbn [In] in K; intuition discriminate. }
  destruct Ht as (txt & ->). cbn [rstep] in Er. cbn [follows] in F. destruct c as [| | | | | | | | |kd|kd'| | |]; try discriminate F; try (destruct kd'; discriminate F). cbn [after] in D2.
  assert (Ha : exists a0 b0, txt = a0 ++ v0 :: b0 /\ a = map (fun t => (t, RText)) a0 /\ b = map (fun t => (t, RText)) b0).
  { apply map_split in Er as (a0 & x & b0 & -> & <- & Ex & <-). injection Ex as ->. eauto. }
  destruct Ha as (a0 & b1 & -> & -> & ->).
  destruct (run_inside v1 b1 (ryield ss2) post Et) as (b0 & -> & ->).
  { destruct ss2 as [|s2 ss2]; [exact I|]. cbn [derives] in D2. destruct D2 as (F2 & _). rewrite ryield_cons. destruct kd, s2; try discriminate F2; exact I. }
  change (v0 :: v1 ++ b0) with ((v0 :: v1) ++ b0) in *. set (v := v0 :: v1) in *. set (w' := map typed_token w). set (txt' := a0 ++ w' ++ b0).
  assert (Fw' : Forall idle_token w').
  { apply Forall_forall. intros t Ht. apply in_map_iff in Ht as (x & <- & Hx). rewrite Forall_forall in Fw. specialize (Fw x Hx). unfold idle_token. cbn [typed_token t_base t_sub]. now rewrite <- surjective_pairing. }
  assert (Nw' : w' <> []) by (unfold w'; destruct w; [congruence|discriminate]).
  cbn [proper] in P. destruct P as (Pn & Ps).
  assert (D' : derives XStart (ss1 ++ SText txt' :: ss2)).
  { apply (exchange ss1 XStart _ _ D); rewrite <- ?Ec; try discriminate.
    - cbn [derives after follows proper]. split; [reflexivity|]. split; [|exact D2]. split; [unfold txt'; destruct a0; [destruct w'; [congruence|]|]; discriminate|]. now apply (section_other kd v w' b0 (yield ss2) Fv Fw').
    - left. reflexivity.
    - left. rewrite yield_cons. cbn [tokens_of]. unfold txt'. destruct a0; [destruct w'; [congruence|]|]; discriminate. }
  pose proof B as B0. rewrite yield_app, yield_cons in B0. cbn [tokens_of] in B0. assert (B1 : by_text (yield ss1)) by (apply by_text_app_inv in B0; tauto).
  assert (Ty : forall u, (t_base (typed_token u), t_sub (typed_token u)) = classify (t_text (typed_token u))) by (intro u; cbn [t_base t_sub t_text typed_token]; now rewrite <- surjective_pairing).
  assert (B' : by_text (yield (ss1 ++ SText txt' :: ss2))).
  { rewrite yield_app, yield_cons. cbn [tokens_of]. intros t Ht. apply in_app_or in Ht as [Ht|Ht]; [now apply B1|]. apply in_app_or in Ht as [Ht|Ht].
    - unfold txt' in Ht. apply in_app_or in Ht as [Ht|Ht]; [apply B0; rewrite !in_app_iff; tauto|]. apply in_app_or in Ht as [Ht|Ht]; [apply in_map_iff in Ht as (x & <- & _); apply Ty|apply B0; rewrite !in_app_iff; tauto].
    - apply B0. rewrite !in_app_iff. tauto. }
  assert (Tw : map t_text w' = w) by (unfold w'; rewrite map_map; cbn [t_text typed_token]; apply map_id).
  assert (Eg' : element_texts g = map t_text (yield (ss1 ++ SText txt' :: ss2))).
  { rewrite Eg, Ep, yield_app, yield_cons. cbn [tokens_of]. unfold txt'. rewrite !map_app, Tw, <- !words_ryield. unfold wordsof. rewrite !map_app, !map_map, <- !app_assoc. reflexivity. }
  destruct (parse_steps G depth' _ g D' B' Eg' Hd) as (s' & Hp & E1 & E2 & E3).
  assert (Ne : forall fld x, In x (element_texts fld) -> x <> []) by (intros fld x Hx; exact (proj1 (texts_in _ _ _ Hx))).
  assert (N2 : Forall (fun x => x <> []) (map t_text txt')).
  { apply Forall_forall. intros x Hx. apply (Ne g). rewrite Eg', yield_app, yield_cons, !map_app. cbn [tokens_of]. rewrite !in_app_iff. tauto. }
  assert (N1 : Forall (fun x => x <> []) (map t_text (a0 ++ v ++ b0))).
  { apply Forall_forall. intros x Hx. apply (Ne f). rewrite et_map, <- Y, yield_app, yield_cons, !map_app. cbn [tokens_of]. rewrite !in_app_iff, map_app, in_app_iff, map_app, in_app_iff in *. tauto. }
  pose proof (words_effect ss1 _ txt' ss2 kd D B1 (eq_sym Ec) N1 N2) as O. exists s'. split; [exact Hp|].
  rewrite <- (derived_text _ _ _ _ _ O) in E3. destruct O as (A & r & V & O1 & O2 & Or & Ou). rewrite O2, map_app in E1. cbn [map] in E1. apply map_split in E1 as (U' & r' & V' & E4 & EU & Ey & EV).
  symmetry in Ey. apply er_text in Ey as (Q1 & Q2).
  exists A, r, V, U', r', V', (map t_text a0), (map t_text b0). rewrite Es, E4. cbn [e_recs e_errs e_rules].
  split; [exact O1|]. split; [reflexivity|]. split; [apply er_same_list; now symmetry|]. split; [apply er_same_list; now symmetry|]. split; [exact Q1|].
  split; [rewrite Or, !map_app; reflexivity|]. split; [rewrite Q2; unfold txt'; rewrite !map_app, Tw; reflexivity|]. split; [rewrite Ou; destruct kd; cbn; tauto|]. rewrite E3. auto.
Qed.
End G.
