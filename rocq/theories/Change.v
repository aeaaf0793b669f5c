(** * Change: how far a change of speed and level reaches (lemmas behind PropsChange). *)
From Coq Require Import ZArith NArith List Bool String Lia.
From Coq Require Import Floats.SpecFloat.
From Coq Require Import ZifyBool ZifyNat ZifyN.
From Verif Require Import PyBase PyFloat Enums ErrorTable Regex SyntaxTable Syntax Tokenizer Ers Utils Parser.
From Verif Require Import SpecTokenizer TokenizerProofs SpecNum ParserPrims PerfEq PointEq SyntaxProofs Trace ParseTrace ParserFacts SpecParser SpecGrammar GrammarSem Grammar SpecAccept Accept Describe AcceptFacts SpecLayout Layout SpecViable Viable Unambiguous SpecRemoval Removal SpecConnector Connector Join SpecChange.
From Verif Require Stay.
Import List ListNotations.
Local Open Scope list_scope.
Local Open Scope nat_scope.

Lemma section_last k : forall u x rest, section k (u ++ [x]) rest -> rest <> [] -> ends k (t_sub x) = true.
Proof.
  induction u as [|t u IH]; intros x rest H N; cbn [app section] in H; destruct H as (_ & H).
  - destruct (ends k (t_sub x)); [reflexivity|]. contradiction.
  - destruct (ends k (t_sub t)); [|exact (IH _ _ H N)]. destruct (resume k _); [exact (IH _ _ H N)|destruct u; discriminate H|contradiction].
Qed.
Lemma ifr_before ss0 st ss2 p : derives XStart (ss0 ++ st :: ss2) -> fold_left after ss0 XStart = XBreak KVfr -> rstep st = [(p, ROut)] -> just_ifr (ryield (ss0 ++ [st])).
Proof.
  intros D Ec Rs. destruct (snoc_ind_ctx ss0) as [->|(ss3 & s & ->)]; [discriminate|]. destruct (derives_last _ _ _ _ D) as (F1 & P1). pose proof (last_is _ _ F1) as K.
  rewrite fold_left_app in Ec. cbn [fold_left] in Ec. rewrite Ec in K. destruct K as (txt & ->). cbn [proper] in P1. destruct P1 as (Nt & P1). destruct (exists_last Nt) as (u & x & ->).
  cbn [after] in Ec. destruct (fold_left after ss3 XStart) as [| | | | | | | | |kk|[]| | |]; try contradiction. injection Ec as ->.
  exists (ryield ss3 ++ map (fun t => (t, RText)) u), x, p. split.
  - rewrite !ryield_app. unfold ryield at 2 3. cbn [flat_map]. rewrite Rs. cbn [rstep app]. rewrite app_nil_r, map_app, <- !app_assoc. reflexivity.
  - assert (N : yield (st :: ss2) <> []).
    { rewrite yield_cons. assert (Y : tokens_of st = [p]) by (rewrite <- rstep_fst, Rs; reflexivity). rewrite Y. discriminate. }
    pose proof (section_last _ _ _ _ P1 N) as Q. destruct (t_sub x); try discriminate Q; reflexivity.
Qed.
Lemma then_speed_ifr ss1 ss2 b : derives XStart (ss1 ++ ss2) -> fold_left after ss1 XStart = XThenSpeed b -> just_ifr (ryield ss1).
Proof.
  intros D E. destruct (snoc_ind_ctx ss1) as [->|(ss0 & s & ->)]; [discriminate|]. destruct (derives_last _ _ _ _ D) as (F & P). rewrite fold_left_app in E. cbn [fold_left] in E.
  destruct (fold_left after ss0 XStart) as [| | | | | | | | |[]|[]| | |] eqn:Ec; destruct s; try discriminate F; cbn [after] in E; try discriminate E; try (destruct (begins (t_sub t)); discriminate E).
  rewrite <- app_assoc in D. exact (ifr_before _ _ _ t D Ec eq_refl).
Qed.
Section G.
Variable G : geodesic.
Section V.
Variables (sp al : pstr) (sps als : pynum).
Definition h (r : rrec) : rrec := set_r_alt_si als (set_r_alt al (set_r_speed_si sps (set_r_speed sp r))).
Definition hb (b : bool) (r : rrec) : rrec := if b then h r else r.
Fixpoint zap (fl : list bool) (l : list rrec) : list rrec := match fl, l with b :: f, r :: m => hb b r :: zap f m | _, _ => [] end.
Lemma zap_app f : forall l f2 l2, length f = length l -> zap (f ++ f2) (l ++ l2) = zap f l ++ zap f2 l2.
Proof. induction f as [|b f IH]; intros [|r l] f2 l2 E; try discriminate E; [reflexivity|]. cbn [app zap]. rewrite IH by (injection E; auto). reflexivity. Qed.
Lemma zap_snoc f l b x : length f = length l -> zap (f ++ [b]) (l ++ [x]) = zap f l ++ [hb b x].
Proof. intro E. now rewrite zap_app. Qed.
Lemma zap_len f : forall l, length f = length l -> length (zap f l) = length l.
Proof. induction f as [|b f IH]; intros [|r l] E; try discriminate E; [reflexivity|]. cbn [zap length]. rewrite IH by (injection E; auto). reflexivity. Qed.
Lemma hb_llv b r : r_llv (hb b r) = r_llv r. Proof. destruct b; reflexivity. Qed.
Lemma hb_bd b c q p : set_bd G (hb b q) (hb c p) = hb b (set_bd G q p). Proof. destruct b, c; reflexivity. Qed.
Lemma snoc_both (f : list bool) (l : list rrec) : length f = length l -> (f = [] /\ l = []) \/ exists f0 b l0 x, f = f0 ++ [b] /\ l = l0 ++ [x] /\ length f0 = length l0.
Proof.
  intro E. destruct f as [|b0 f0] eqn:Ef; [destruct l; [now left|discriminate E]|]. rewrite <- Ef in *. right.
  assert (Nf : f <> []) by congruence. assert (Nl : l <> []) by (intros ->; rewrite Ef in E; discriminate E).
  destruct (exists_last Nf) as (f1 & b & ->). destruct (exists_last Nl) as (l1 & x & ->). exists f1, b, l1, x. split; [reflexivity|]. split; [reflexivity|]. rewrite !app_length in E. cbn [length] in E. lia.
Qed.
Lemma azi_zap f l c p : length f = length l -> azi G (zap f l) (hb c p) = zap f (azi G l p).
Proof.
  intro E. unfold azi. rewrite hb_llv. destruct (r_llv p); [|reflexivity].
  destruct (snoc_both f l E) as [(-> & ->)|(f1 & b & l1 & q & -> & -> & E1)]; [reflexivity|]. rewrite (zap_snoc f1 l1 b q E1), !rev_app_distr. cbn [rev app]. rewrite hb_llv.
  destruct (r_llv q); [rewrite !rev_involutive, zap_snoc, hb_bd by exact E1; reflexivity|].
  destruct (snoc_both f1 l1 E1) as [(-> & ->)|(f2 & b2 & l2 & q2 & -> & -> & E2)]; [reflexivity|]. rewrite (zap_snoc f2 l2 b2 q2 E2), !rev_app_distr. cbn [rev app]. rewrite hb_llv.
  destruct (r_llv q2).
  - rewrite !rev_involutive, hb_bd. rewrite <- app_assoc. rewrite zap_app by exact E2. reflexivity.
  - rewrite zap_snoc by (rewrite !app_length; cbn [length]; lia). rewrite zap_snoc by exact E2. reflexivity.
Qed.
Lemma ptrec_hb t c p : pt_rec G t (hb c p) = hb c (pt_rec G t p).
Proof. destruct c; [|reflexivity]. unfold pt_rec, move_bd. destruct (t_sub t); reflexivity. Qed.
Lemma coords_hb x c p : set_coords x (hb c p) = hb c (set_coords x p).
Proof. destruct c; [|reflexivity]. reflexivity. Qed.
Lemma azi_len l p : length (azi G l p) = length l.
Proof. rewrite <- (map_length er_brg), azi_brg. apply map_length. Qed.
Lemma prev_zap t f l c p : length f = length l -> pt_prev G t (zap f l) (hb c p) = zap f (pt_prev G t l p).
Proof.
  intro E. unfold pt_prev. rewrite ptrec_hb, ?coords_hb. destruct (t_sub t); try reflexivity; rewrite ?azi_zap; rewrite ?azi_len; auto.
Qed.
(** [b]: the change is still in force. *)
Definition Zp (b : bool) (f : list bool) (k k' : core) : Prop := length f = length (k_l k) /\ k_l k' = zap f (k_l k) /\ k_p k' = hb b (k_p k).
Lemma Zp_pt t b f k k' : Zp b f k k' -> Zp b f (pt_k G t k) (pt_k G t k').
Proof. intros (E1 & E2 & E3). unfold pt_k, Zp. cbn [k_l k_p]. rewrite Stay.prev_len, E2, E3, prev_zap, ptrec_hb by exact E1. auto. Qed.
Lemma Zp_add t b f i i' k k' : Zp b f k k' -> Zp b (f ++ [b]) (add_k i t k) (add_k i' t k').
Proof.
  intros (E1 & E2 & E3). unfold add_k, Zp. cbn [k_l k_p]. rewrite !app_length, E2, E3, zap_snoc by exact E1. cbn [length]. split; [lia|]. split; [reflexivity|]. destruct b; reflexivity.
Qed.
Lemma Zp_with g b f k k' : (forall p, g (hb b p) = hb b (g p)) -> Zp b f k k' -> Zp b f (k_with k (g (k_p k))) (k_with k' (g (k_p k'))).
Proof. intros Hg (E1 & E2 & E3). unfold k_with, Zp. cbn [k_l k_p]. rewrite E3, Hg. auto. Qed.
Lemma Zp_rule r b f k k' : Zp b f k k' -> Zp b f (rule_k r k) (rule_k r k').
Proof. apply (Zp_with (set_r_rules r)). intro p. destruct b; reflexivity. Qed.
Lemma Zp_over g b f k k' : (forall p, g (h p) = g p) -> Zp b f k k' -> Zp false f (k_with k (g (k_p k))) (k_with k' (g (k_p k'))).
Proof. intros Hg (E1 & E2 & E3). unfold k_with, Zp. cbn [k_l k_p]. rewrite E3. destruct b; cbn [hb]; rewrite ?Hg; auto. Qed.
Lemma texts_hb b : forall txt p, Grammar.texts txt (hb b p) = hb b (Grammar.texts txt p).
Proof.
  destruct b; [|reflexivity]. induction txt as [|t txt IH]; intro p; [reflexivity|]. change (Grammar.texts (t :: txt) (hb true p)) with (Grammar.texts txt (append_break_text (t_text t) (hb true p))).
  change (Grammar.texts (t :: txt) p) with (Grammar.texts txt (append_break_text (t_text t) p)). rewrite <- IH. f_equal. unfold append_break_text. change (r_break (hb true p)) with (r_break p). destruct (pstr_eqb _ _); reflexivity.
Qed.
Lemma sa_over t p : wt t -> t_base t = F15_SPEED_ALTITUDE -> sa_eff t (h p) = sa_eff t p.
Proof. intros W B. unfold sa_eff. destruct (sa_fields t W B) as (a & -> & _). reflexivity. Qed.
Lemma climb_over t p : wt t -> t_base t = F15_SPEED_ALTITUDE_ALTITUDE \/ t_base t = F15_SPEED_ALTITUDE_PLUS -> climb_eff t (h p) = climb_eff t p.
Proof.
  intros W [B|B]; unfold climb_eff; rewrite B.
  - unfold saa_eff. destruct (all_rows_spec F15_SPEED_ALTITUDE_ALTITUDE _ t ltac:(discriminate) ltac:(discriminate) W B saa_cuts_all) as (sh & Hs & K). unfold saa_cuts in K. destruct (saa_cut (t_sub t)) as [[[a b] c]|]; [|discriminate]. reflexivity.
  - unfold sap_eff. destruct (all_rows_spec F15_SPEED_ALTITUDE_PLUS _ t ltac:(discriminate) ltac:(discriminate) W B sap_cuts_all) as (sh & Hs & K). unfold sap_cuts in K. destruct (sap_cut (t_sub t)) as [[a b]|]; [|discriminate]. reflexivity.
Qed.
Lemma vfr_over t p : wt t -> t_base t = F15_SPEED_VFR -> vfr_eff t (h p) = vfr_eff t p.
Proof.
  intros W B. unfold vfr_eff. destruct (all_rows_spec F15_SPEED_VFR _ t ltac:(discriminate) ltac:(discriminate) W B vfr_cuts_all) as (sh & _ & K). unfold vfr_cuts in K. destruct (vfr_cut (t_sub t)); [|discriminate]. reflexivity.
Qed.
Lemma Zp_vfr t b f i i' k k' : wt t -> t_base t = F15_SPEED_VFR -> Zp b f k k' -> Zp false (f ++ [false]) (vfr_k i t k) (vfr_k i' t k').
Proof.
  intros W B (E1 & E2 & E3). unfold vfr_k, Zp. cbn [k_l k_p]. rewrite !app_length, E2, E3, zap_snoc by exact E1. cbn [length]. split; [lia|].
  destruct b; cbn [hb]; [|auto]. rewrite (vfr_over t _ W B). split; reflexivity.
Qed.
(** The number of new records. *)
Definition adding (s : step) : nat := length (rec_js 0 s).
Definition is_mod (s : step) : bool := match s with SFirst _ | SFirstVfr _ | SSpeed _ _ | SVfr _ _ | SClimbTo _ _ => true | _ => false end.
Lemma Zp_step c s r b f j j' k k' : follows c s = true -> proper c s r -> Forall wt (tokens_of s) -> Zp b f k k' ->
  Zp (b && negb (is_mod s)) (f ++ repeat (b && negb (is_mod s)) (adding s)) (eff1 G j s k) (eff1 G j' s k').
Proof.
  intros F P W H. cbn [tokens_of] in W.
  destruct s; cbn [is_mod negb adding rec_js length repeat eff1 proper tokens_of] in *; rewrite ?andb_true_r, ?andb_false_r, ?app_nil_r; cbn [repeat].
  - apply (Zp_over (sa_eff t) b); [|exact H]. intro p. apply sa_over; [now apply Forall_inv in W|tauto].
  - apply (Zp_vfr t b); [now apply Forall_inv in W|tauto|exact H].
  - now apply Zp_add.
  - now apply Zp_rule, Zp_add.
  - now apply Zp_pt, Zp_rule, Zp_add.
  - now apply Zp_add.
  - cbv zeta. apply (Zp_with (retype F15_SID (sid_sub t))); [intro p; destruct b; reflexivity|]. now apply Zp_add.
  - cbv zeta. apply (Zp_with (retype F15_STAR (star_sub t))); [intro p; destruct b; reflexivity|]. now apply Zp_add.
  - exact H.
  - apply (Zp_over (sa_eff t) b); [|exact H]. intro p. apply sa_over; [now apply Forall_inv_tail, Forall_inv in W|tauto].
  - apply (Zp_vfr t b); [now apply Forall_inv_tail, Forall_inv in W|tauto|exact H].
  - now apply Zp_rule, Zp_add.
  - apply (Zp_with (Grammar.texts txt)); [intro p; apply texts_hb|exact H].
  - now apply Zp_rule, Zp_add.
  - now apply Zp_pt, Zp_add.
  - apply (Zp_over (climb_eff t) b); [|exact H]. intro p. apply climb_over; [now apply Forall_inv_tail, Forall_inv in W|tauto].
  - apply (Zp_with (set_r_stay (stay_min (t_text tm)))); [intro p; destruct b; reflexivity|exact H].
Qed.
Lemma repeat_add {A} (x : A) n m : repeat x n ++ repeat x m = repeat x (n + m).
Proof. symmetry. apply repeat_app. Qed.
Lemma Zp_past : forall ss c f j j' k k', derives c ss -> Forall wt (yield ss) -> Zp false f k k' -> exists m, Zp false (f ++ repeat false m) (effs G j ss k) (effs G j' ss k').
Proof.
  induction ss as [|s ss IH]; intros c f j j' k k' D W H; [exists 0; now rewrite app_nil_r|]. cbn [derives effs] in *. destruct D as (F & P & D). rewrite yield_cons, Forall_app in W.
  pose proof (Zp_step c s _ false f j j' k k' F P (proj1 W) H) as K. cbn [andb] in K. destruct (IH _ _ (j + length (tokens_of s)) (j' + length (tokens_of s)) _ _ D (proj2 W) K) as (m & Q). exists (adding s + m). rewrite <- repeat_add, app_assoc. exact Q.
Qed.
Lemma reach_texts txt : forall n w, reach n (map (fun t => (t, RText)) txt ++ w) = reach n w.
Proof. induction txt as [|t txt IH]; intros n w; [reflexivity|]. cbn [map app reach modifier snd recorded]. apply IH. Qed.
Lemma reach_step c s r n : follows c s = true -> proper c s (yield r) ->
  reach n (rstep s ++ ryield r) = if is_mod s then n - 1 else reach (n + adding s) (ryield r).
Proof.
  intros F P. destruct s; cbn [proper] in P; cbn [rstep tokens_of map app is_mod adding rec_js length]; rewrite ?reach_texts; cbn [reach]; unfold recorded, modifier; cbn [snd fst];
    repeat match goal with H : _ /\ _ |- _ => destruct H | H : _ \/ _ |- _ => destruct H end;
    repeat match goal with H : t_base _ = _ |- _ => rewrite H end; cbn [hd_error is_slash fst base_eqb base_code Z.eqb Pos.eqb negb];
    repeat match goal with H : t_base _ = _ |- _ => rewrite H end; cbn [base_eqb base_code Z.eqb Pos.eqb negb];
    rewrite ?Nat.add_1_r, ?Nat.add_0_r; try reflexivity.
  rewrite (hd_ryield r) by assumption. reflexivity.
Qed.
Lemma Zp_run : forall ss c a n j j' k k', derives c ss -> Forall wt (yield ss) -> Zp true (repeat false a ++ repeat true n) k k' ->
  exists m, let q := reach (S n) (ryield ss) in
    (Zp true (repeat false a ++ repeat true (q - 1)) (effs G j ss k) (effs G j' ss k') /\ 1 <= q) \/ Zp false (repeat false a ++ repeat true q ++ repeat false m) (effs G j ss k) (effs G j' ss k').
Proof.
  induction ss as [|s ss IH]; intros c a n j j' k k' D W H.
  - exists 0. left. cbn [effs ryield flat_map reach]. replace (S n - 1) with n by lia. split; [exact H|lia].
  - cbn [derives effs] in *. destruct D as (F & P & D). rewrite yield_cons, Forall_app in W. rewrite ryield_cons, (reach_step c) by assumption.
    pose proof (Zp_step c s _ true _ j j' k k' F P (proj1 W) H) as K. cbn [andb] in K. destruct (is_mod s); cbn [negb] in K.
    + destruct (Zp_past _ _ _ (j + length (tokens_of s)) (j' + length (tokens_of s)) _ _ D (proj2 W) K) as (m & Q). exists (adding s + m). right. replace (S n - 1) with n by lia. rewrite <- repeat_add. rewrite <- !app_assoc in Q. exact Q.
    + rewrite <- app_assoc, repeat_add in K. exact (IH _ _ _ _ _ _ _ D (proj2 W) K).
Qed.
Lemma zap_none a : forall l, length l = a -> zap (repeat false a) l = l.
Proof. induction a as [|a IH]; intros [|r l] E; try discriminate E; [reflexivity|]. cbn [repeat zap hb]. now rewrite IH by (injection E; auto). Qed.
Lemma zap_all a : forall l, length l = a -> zap (repeat true a) l = map h l.
Proof. induction a as [|a IH]; intros [|r l] E; try discriminate E; [reflexivity|]. cbn [repeat zap hb map]. now rewrite IH by (injection E; auto). Qed.
Lemma split3 {A} a b : forall l : list A, a + b <= length l -> exists U M V, l = U ++ M ++ V /\ length U = a /\ length M = b.
Proof.
  intros l H. exists (firstn a l), (firstn b (skipn a l)), (skipn b (skipn a l)). rewrite !firstn_skipn. split; [reflexivity|]. rewrite !firstn_length, skipn_length. lia.
Qed.
Lemma last_h A1 : forall B C, r_rules (last (A1 ++ map h B ++ C) adep0) = r_rules (last (A1 ++ B ++ C) adep0).
Proof.
  intros B C. induction C as [|c C _] using rev_ind.
  - rewrite !app_nil_r. induction B as [|b B _] using rev_ind; [reflexivity|]. rewrite map_app, !app_assoc. cbn [map]. rewrite !last_last. reflexivity.
  - rewrite !app_assoc, !last_last. reflexivity.
Qed.
Lemma Zp_final v ss c a j j' k k' : derives c ss -> Forall wt (yield ss) -> 1 <= a \/ v = false -> length (k_l k) = a -> k_l k' = k_l k -> k_p k' = h (k_p k) ->
  exists U M V, core_final v (effs G j ss k) = U ++ M ++ V /\ core_final v (effs G j' ss k') = U ++ map h M ++ V /\ length U = a /\ length M = reach 1 (ryield ss).
Proof.
  intros D W Ha E1 E2 E3. assert (Z0 : Zp true (repeat false a ++ repeat true 0) k k').
  { cbn [repeat]. rewrite app_nil_r. split; [now rewrite repeat_length|]. split; [rewrite zap_none by assumption; exact E2|exact E3]. }
  destruct (Zp_run ss c a 0 j j' k k' D W Z0) as (m & K). cbv zeta in K. set (q := reach 1 (ryield ss)) in *.
  set (K1 := effs G j ss k) in *. set (K2 := effs G j' ss k') in *. clearbody K1 K2 q.
  assert (Q : exists U M V, k_l K1 ++ [k_p K1] = U ++ M ++ V /\ k_l K2 ++ [k_p K2] = U ++ map h M ++ V /\ length U = a /\ length M = q).
  { assert (Gen : forall m0, length (repeat false a ++ repeat true q ++ repeat false m0) = length (k_l K1 ++ [k_p K1]) -> k_l K2 ++ [k_p K2] = zap (repeat false a ++ repeat true q ++ repeat false m0) (k_l K1 ++ [k_p K1]) ->
      exists U M V, k_l K1 ++ [k_p K1] = U ++ M ++ V /\ k_l K2 ++ [k_p K2] = U ++ map h M ++ V /\ length U = a /\ length M = q).
    { intros m0 El Ez. rewrite Ez. clear Ez. set (l := k_l K1 ++ [k_p K1]) in *. clearbody l. rewrite !app_length, !repeat_length in El. destruct (split3 a q l ltac:(lia)) as (U & M & V & -> & LU & LM).
      rewrite !app_length in El. exists U, M, V. split; [reflexivity|]. split; [|auto]. rewrite zap_app by (rewrite repeat_length; lia). rewrite zap_app by (rewrite repeat_length; lia). rewrite !zap_none, zap_all by lia. reflexivity. }
    destruct K as [((L1 & L2 & L3) & Hq)|(L1 & L2 & L3)].
    - apply (Gen 0).
      + rewrite !app_length in *. rewrite !repeat_length in *. cbn [length]. lia.
      + cbn [repeat]. rewrite app_nil_r. replace q with ((q - 1) + 1) at 1 by lia. rewrite <- repeat_add, app_assoc. cbn [repeat]. rewrite zap_snoc by exact L1. rewrite <- L2, L3. reflexivity.
    - apply (Gen (m + 1)).
      + rewrite !app_length in *. rewrite !repeat_length in *. cbn [length]. lia.
      + replace (repeat false a ++ repeat true q ++ repeat false (m + 1)) with ((repeat false a ++ repeat true q ++ repeat false m) ++ [false]) by (rewrite <- repeat_add, <- !app_assoc; reflexivity).
        rewrite zap_snoc by exact L1. rewrite <- L2, L3. reflexivity. }
  destruct Q as (U & M & V & Q1 & Q2 & Q3 & Q4). unfold core_final. rewrite !core_recs_eq, Q1, Q2.
  assert (Hu : exists A1, (forall l, upd_first v (U ++ l) = A1 ++ l) /\ length A1 = a).
  { destruct Ha as [Ha| ->]; [|exists U; auto]. destruct U as [|u U]; [cbn in Q3; lia|]. exists (upd_first v (u :: U)). split; [intro l; apply upd_first_app|destruct v; exact Q3]. }
  destruct Hu as (A1 & Hu & LA). rewrite !Hu. exists A1, M, (V ++ [ades_rec (A1 ++ M ++ V)]). split; [now rewrite <- !app_assoc|]. split; [|auto].
  rewrite <- !app_assoc. do 4 f_equal. unfold ades_rec. now rewrite last_h.
Qed.
End V.

Lemma eff_adds j s k : length (k_l (eff1 G j s k)) = length (k_l k) + adding s.
Proof. destruct s; cbn [eff1 k_l k_with add_k rule_k pt_k vfr_k adding rec_js length]; rewrite ?Stay.prev_len; rewrite ?app_length; cbn [length]; lia. Qed.
Lemma effs_adds : forall ss j k, length (k_l (effs G j ss k)) + length (k_js k) = length (k_l k) + length (k_js (effs G j ss k)).
Proof.
  induction ss as [|s ss IH]; intros j k; [reflexivity|]. cbn [effs]. pose proof (IH (j + length (tokens_of s)) (eff1 G j s k)) as K. rewrite eff_adds, (eff_js G j s k), app_length in K.
  assert (L : length (rec_js j s) = adding s) by (destruct s; reflexivity). lia.
Qed.
Lemma sa_h t p : wt t -> t_base t = F15_SPEED_ALTITUDE -> r_rules p = RULE_I ->
  sa_eff t p = h (speed_part (t_text t)) (first_level (t_text t)) (PyInt (spd_si (speed_part (t_text t)) (lvl_si (first_level (t_text t))))) (PyInt (lvl_si (first_level (t_text t)))) p.
Proof.
  intros W B Hr. destruct (sa_perf t p W B) as (a & -> & E1 & E2). rewrite E1, E2. unfold sa_rec, set_alt, set_spd, h. destruct p as [n b1 e1 b2 sb al als sp sps br ru er0 sy ct cts la lo bg di lv]. cbn [r_rules] in Hr. subst ru. reflexivity.
Qed.
Lemma two_at_point ss1 ss2 b : derives XStart (ss1 ++ ss2) -> fold_left after ss1 XStart = XPoint b -> 2 <= length ss1.
Proof. destruct ss1 as [|a [|c ss1]]; cbn [length fold_left app]; intros D H; try lia; [discriminate|]. exfalso. cbn [derives] in D. destruct D as (F & _). destruct a; try discriminate F; discriminate H. Qed.
Lemma app_split {A} (a b a' b' : list A) : a ++ b = a' ++ b' -> length a = length a' -> a = a' /\ b = b'.
Proof. revert a'. induction a as [|x a IH]; intros [|y a'] E L; try discriminate L; [auto|]. cbn [app] in E. injection E as <- E. destruct (IH a' E) as (<- & <-); [injection L; auto|]. auto. Qed.
Lemma change_effect ss1 sl t ss2 b : derives XStart (ss1 ++ ss2) -> by_text (yield (ss1 ++ SSpeed sl t :: ss2)) -> fold_left after ss1 XStart = XPoint b -> t_base t = F15_SPEED_ALTITUDE ->
  exists U M V sps als, let hh := h (speed_part (t_text t)) (first_level (t_text t)) sps als in
    result_of G (ss1 ++ ss2) = U ++ M ++ V /\ result_of G (ss1 ++ SSpeed sl t :: ss2) = U ++ map hh M ++ V /\
    length U = length (recorded_at 0 (ryield ss1)) /\ length M = reach 1 (ryield ss2) /\ Forall (fun r => in_force (ryield ss1) = Some (r_speed r, r_alt r)) M.
Proof.
  intros D B Ec Bt. pose proof (wt_by_text _ B) as W. rewrite yield_app, yield_cons, !Forall_app in W. destruct W as (W1 & Wt & W2). cbn [tokens_of] in Wt. apply Forall_inv_tail, Forall_inv in Wt.
  pose proof (two_at_point _ _ _ D Ec) as L2.
  assert (N1 : yield ss1 <> []).
  { destruct ss1 as [|s0 r]; cbn [length] in L2; [lia|]. cbn [app derives] in D. destruct D as (_ & P & _). apply step_tokens in P. rewrite yield_cons. destruct (tokens_of s0); [congruence|discriminate]. }
  assert (D1 : derives XStart (ss1 ++ [])).
  { apply (exchange ss1 XStart _ _ D); rewrite ?Ec; [reflexivity|now left|discriminate|right; right; exact L2|discriminate]. }
  rewrite app_nil_r in D1.
  pose proof (rules_point G ss1 _ b core0 0 D W1 Ec) as Rp. pose proof (perf_run G ss1 XStart _ 0 core0 None D W1 eq_refl) as Pf.
  assert (Lk : length (k_l (effs G 0 ss1 core0)) = length (recorded_at 0 (ryield ss1))).
  { pose proof (effs_adds ss1 0 core0) as K. rewrite (effs_js G ss1 XStart 0 core0 D1) in K. change (k_js core0) with (@nil nat) in K. change (k_l core0) with (@nil rrec) in K. cbn [app length] in K. lia. }
  rewrite Ec in Pf. fold (in_force (ryield ss1)) in Pf. destruct (in_force (ryield ss1)) as [m|] eqn:Em; [|discriminate Pf]. cbn [perf0] in Pf. destruct Pf as (P1 & P2 & P3 & P4).
  pose proof D as D2. apply derives_app in D2. rewrite Ec in D2.
  assert (Na : 1 <= length (recorded_at 0 (ryield ss1))).
  { rewrite <- Lk. clear -D Ec. destruct (snoc_ind_ctx ss1) as [->|(ss0 & s & ->)]; [discriminate|]. clear D.
    assert (K : forall ss k j c, (exists s, In s ss /\ adding s = 1) -> 1 <= length (k_l (effs G j ss k)) \/ c = 0).
    { clear. intros ss k j c (s & Hs & Hn). left. revert k j. induction ss as [|x ss IH]; intros k j; [destruct Hs|]. cbn [effs]. destruct Hs as [->|Hs]; [|now apply IH].
      pose proof (effs_len G ss (j + length (tokens_of s)) (eff1 G j s k)) as Q. rewrite eff_adds, Hn in Q. lia. }
    destruct (K (ss0 ++ [s]) core0 0 1) as [Q|Q]; [|exact Q|discriminate Q].
    clear K. revert Ec. generalize (ss0 ++ [s]). clear. intros ss. assert (Gn : forall zz c, fold_left after zz c = XPoint b -> match c with XPoint _ | XClimb _ | XThenSpeed _ => True | _ => exists s, In s zz /\ adding s = 1 end).
    { induction zz as [|s r IH]; intros c E; cbn [fold_left] in E; [rewrite E; exact Logic.I|]. pose proof (IH _ E) as Q.
      destruct c as [| | | | | | |bb| |kk|kk| | |]; try exact Logic.I;
        (destruct s; try (exists (SDct t); split; [now left|reflexivity]); try (exists (SRoute t); split; [now left|reflexivity]); try (exists (SPoint t); split; [now left|reflexivity]);
         try (exists (SC t); split; [now left|reflexivity]); try (exists (SSid t); split; [now left|reflexivity]); try (exists (SStar t); split; [now left|reflexivity]); try (exists (SVfr sl t); split; [now left|reflexivity]);
         try (exists (SFirstVfr t); split; [now left|reflexivity]); try (exists (SBreak t); split; [now left|reflexivity]); try (exists (SRejoin t); split; [now left|reflexivity]); try (exists (SClimb c sl t); split; [now left|reflexivity]);
         cbn [after] in Q; destruct Q as (s & Hs & Hn); exists s; (split; [now right|exact Hn])). }
    intro E. exact (Gn ss XStart E). }
  set (k := effs G 0 ss1 core0) in *. set (k' := k_with k (sa_eff t (k_p k))).
  set (v := is_vfr_first (yield (ss1 ++ ss2))).
  pose proof (sa_h t (k_p k) Wt Bt Rp) as Hh.
  destruct (Zp_final _ _ _ _ v ss2 (XPoint b) _ (0 + length (yield ss1)) (0 + length (yield ss1) + 2) k k' D2 W2 (or_introl Na) Lk eq_refl Hh) as (U & M & V & Q1 & Q2 & Q3 & Q4).
  assert (Hs : k_p k = h (fst m) (snd m) (PyInt (spd_si (fst m) (lvl_si (snd m)))) (PyInt (lvl_si (snd m))) (k_p k)).
  { rewrite <- P3, <- P4. rewrite <- P1, <- P2 at 1. destruct (k_p k). reflexivity. }
  destruct (Zp_final _ _ _ _ v ss2 (XPoint b) _ (0 + length (yield ss1)) (0 + length (yield ss1)) k k D2 W2 (or_introl Na) Lk eq_refl Hs) as (U0 & M0 & V0 & R1 & R2 & R3 & R4).
  do 5 eexists. cbv zeta. split; [unfold result_of; rewrite effs_app; exact Q1|]. split.
  { unfold result_of. rewrite (vfr_first_same ss1 _ ss2 N1), effs_app. cbn [effs eff1 tokens_of length]. exact Q2. }
  split; [exact Q3|]. split; [exact Q4|]. rewrite R1 in R2, Q1. apply app_split in Q1 as (-> & Q1); [|congruence]. apply app_split in Q1 as (-> & ->); [|congruence].
  apply app_inv_head in R2. apply app_inv_tail in R2. clear -R2. destruct m as (x & y). cbn [fst snd] in R2. induction M as [|r M IH]; constructor; cbn [map] in R2; injection R2 as A B; [|now apply IH]. rewrite A. reflexivity.
Qed.
Lemma er_speed sp al sps als x r r' : er_rec x = er_rec r -> er_rec (h sp al sps als x) = er_rec r' -> same_but_speed r r' /\ r_speed r' = sp /\ r_alt r' = al /\ r_speed r = r_speed x /\ r_alt r = r_alt x.
Proof.
  unfold er_rec, same_but_speed, h, set_r_alt_si, set_r_alt, set_r_speed_si, set_r_speed. cbn [r_name r_base r_sub r_alt r_alt_si r_speed r_speed_si r_break r_rules r_err r_stay r_cto r_cto_si r_lat r_lon r_brg r_dist r_llv]. intros H H'. injection H. injection H'. clear H H'. intros.
  repeat apply conj; first [assumption | symmetry; assumption | etransitivity; [symmetry; eassumption | eassumption]].
Qed.
Lemma map3 {X Y} (g : X -> Y) l A B C : map g l = map g (A ++ B ++ C) -> forall (L : list X), L = A ++ B ++ C -> exists A' B' C', l = A' ++ B' ++ C' /\ map g A' = map g A /\ map g B' = map g B /\ map g C' = map g C.
Proof.
  intros E _ _. rewrite !map_app in E. apply map_eq_app in E as (A' & l1 & -> & EA & E). apply map_eq_app in E as (B' & C' & -> & EB & EC). exists A', B', C'. auto.
Qed.
Lemma change_outcome pre rest sp al sps als U M V x x' : map er_rec (e_recs x) = map er_rec (U ++ M ++ V) -> map er_rec (e_recs x') = map er_rec (U ++ map (h sp al sps als) M ++ V) ->
  length U = length (recorded_at 0 pre) -> length M = reach 1 rest -> Forall (fun r => in_force pre = Some (r_speed r, r_alt r)) M -> e_errs x = [] -> e_errs x' = [] ->
  e_rules x = derived (U ++ M ++ V) -> e_rules x' = derived (U ++ map (h sp al sps als) M ++ V) -> changed_from pre rest sp al x x'.
Proof.
  intros E E' LU LM FM N N' R R'. destruct (map3 _ _ _ _ _ E _ eq_refl) as (U1 & M1 & V1 & E1 & A1 & A2 & A3). destruct (map3 _ _ _ _ _ E' _ eq_refl) as (U2 & M2 & V2 & E2 & B1 & B2 & B3).
  exists U1, M1, V1, U2, M2, V2. split; [exact E1|]. split; [exact E2|].
  split; [apply (f_equal (@length _)) in A1; rewrite !map_length in A1; congruence|]. split; [apply (f_equal (@length _)) in A2; rewrite !map_length in A2; congruence|].
  split; [apply er_same_list; congruence|].
  assert (K : Forall2 same_but_speed M1 M2 /\ Forall (fun r => in_force pre = Some (r_speed r, r_alt r)) M1 /\ Forall (fun r => r_speed r = sp /\ r_alt r = al) M2).
  { clear -A2 B2 FM. revert M1 M2 A2 B2. induction FM as [|r M Hr _ IH]; intros [|r1 M1] [|r2 M2] A B; try discriminate A; try discriminate B; [auto|].
    assert (Q : forall (a b : rrec) l m, map er_rec (a :: l) = map er_rec (b :: m) -> er_rec b = er_rec a /\ map er_rec l = map er_rec m).
    { intros a b l m X. split; [symmetry; exact (f_equal (hd (er_rec a)) X)|exact (f_equal (@tl _) X)]. }
    apply Q in A as (A & A'). cbn [map] in B. change (map er_rec (r2 :: M2) = map er_rec (h sp al sps als r :: map (h sp al sps als) M)) in B. apply Q in B as (B & B').
    destruct (er_speed _ _ _ _ _ _ _ A B) as (C1 & C2 & C3 & C4 & C5). destruct (IH _ _ A' B') as (I1 & I2 & I3). split; [now constructor|]. split; [constructor; [now rewrite C4, C5|exact I2]|constructor; auto]. }
  destruct K as (K1 & K2 & K3). split; [exact K1|]. split; [apply er_same_list; congruence|]. split; [exact K2|]. split; [exact K3|]. split; [exact N|]. split; [exact N'|].
  rewrite R, R'. apply derived_rules. rewrite !map_app. f_equal. f_equal. rewrite map_map. reflexivity.
Qed.
Theorem change_left_out depth depth' f s pre sl t rest g : parse_field15 G depth f = Ok true s ->
  field_roles f = pre ++ (sl, ROut) :: (t, ROut) :: rest -> t_base t = F15_SPEED_ALTITUDE -> ~ just_ifr pre ->
  element_texts g = wordsof (pre ++ rest) -> 3 * n_tokens g <= depth' + 1 ->
  exists s', parse_field15 G depth' g = Ok true s' /\ changed_from pre rest (speed_part (t_text t)) (first_level (t_text t)) (s_ers s') (s_ers s).
Proof.
  intros H W Bt Nj Eg Hd. destruct (roles_steps G f depth s H) as (ss & D & Y & R & B & Es). rewrite R in W.
  change (pre ++ (sl, ROut) :: (t, ROut) :: rest) with (pre ++ [(sl, ROut)] ++ (t, ROut) :: rest) in W. rewrite app_assoc in W.
  destruct (locate ss XStart _ _ _ D W) as (c & st & ss1 & ss2 & a & b & Ess & Er & Ep & Et & F & P & D2 & Ec). rewrite Ess in D.
  destruct (speed_step _ _ _ _ _ _ P Er Bt) as [(-> & -> & ->)|(sl0 & -> & -> & ->)].
  { exfalso. destruct c as [| | | | | | | | |[]|[]| | |]; try discriminate F. symmetry in Ec. rewrite (start_only _ _ D Ec) in Ep. destruct pre; discriminate. }
  apply app_inj_tail in Ep as (-> & Esl). injection Esl as <-. cbn [app] in Et. subst rest.
  assert (Hc : exists b, c = XPoint b).
  { destruct c as [| | | | | | | | |[]|[]| | |]; try discriminate F; eauto. exfalso. apply Nj. symmetry in Ec. exact (then_speed_ifr _ _ _ D Ec). }
  destruct Hc as (b & ->). symmetry in Ec.
  assert (D' : derives XStart (ss1 ++ ss2)).
  { apply (exchange ss1 XStart _ _ D); rewrite ?Ec; [exact D2|now left|discriminate|right; right; exact (two_at_point _ _ _ D Ec)|discriminate]. }
  rewrite Ess in B. pose proof B as B0. assert (B1 : by_text (yield (ss1 ++ ss2))).
  { rewrite yield_app, !yield_cons in B0. rewrite yield_app. intros x Hx. apply B0. apply in_app_or in Hx as [Hx|Hx]; apply in_or_app; [now left|right]. apply in_or_app. now right. }
  destruct (parse_steps G depth' _ g D' B1) as (s' & Hp & E1 & E2 & E3); [|exact Hd|].
  { rewrite Eg, <- words_ryield, ryield_app. reflexivity. }
  exists s'. split; [exact Hp|]. destruct (change_effect ss1 sl t ss2 b D' B Ec Bt) as (U & M & V & sps & als & Q1 & Q2 & Q3 & Q4 & Q5). cbv zeta in Q2. rewrite Ess in Es.
  rewrite Q1 in E1, E3. rewrite Q2 in Es. apply (change_outcome _ _ _ _ sps als U M V); auto; rewrite Es; reflexivity.
Qed.
Theorem change_put_in depth depth' f s pre p rest w g : parse_field15 G depth f = Ok true s ->
  field_roles f = (pre ++ [(p, ROut)]) ++ rest -> t_base p = F15_POINT -> ~ just_ifr (pre ++ [(p, ROut)]) ->
  fst (classify w) = F15_SPEED_ALTITUDE -> fl_ok (first_level w) ->
  element_texts g = wordsof (pre ++ [(p, ROut)]) ++ $"/" :: w :: wordsof rest -> 3 * n_tokens g <= depth' + 1 ->
  exists s', parse_field15 G depth' g = Ok true s' /\ changed_from (pre ++ [(p, ROut)]) rest (speed_part w) (first_level w) (s_ers s) (s_ers s').
Proof.
  intros H W Bp Nj Cw Lw Eg Hd. destruct (roles_steps G f depth s H) as (ss & D & Y & R & B & Es). rewrite R, <- app_assoc in W. cbn [app] in W.
  destruct (locate ss XStart _ _ _ D W) as (c & st & ss1 & ss2 & a & b & Ess & Er & Ep & Et & F & P & D2 & Ec). rewrite Ess in D, B, Es.
  destruct (point_step _ _ _ _ _ _ P Er Bp) as (St & -> & ->). rewrite app_nil_r in Ep. cbn [app] in Et. subst pre rest.
  assert (Rs : rstep st = [(p, ROut)]) by (destruct St as [->| ->]; reflexivity).
  assert (E0 : ryield (ss1 ++ [st]) = ryield ss1 ++ [(p, ROut)]) by (rewrite ryield_app; unfold ryield at 2; cbn [flat_map]; now rewrite app_nil_r, Rs).
  rewrite <- E0 in *. assert (A0 : ss1 ++ st :: ss2 = (ss1 ++ [st]) ++ ss2) by (rewrite <- app_assoc; reflexivity). rewrite A0 in *. clear A0.
  assert (Ec' : fold_left after (ss1 ++ [st]) XStart = after c st) by (rewrite fold_left_app, Ec; reflexivity).
  assert (Hx : exists b, after c st = XPoint b).
  { destruct St as [->| ->].
    - cbn [after] in Ec' |- *. destruct c as [| | | | | | | | |[]|[]| | |]; eauto. exfalso. apply Nj. exact (then_speed_ifr _ _ _ D Ec').
    - exfalso. apply Nj. clear -D Ec F. destruct c as [| | | | | | | | | |[]| | |]; try discriminate F. symmetry in Ec. rewrite <- app_assoc in D. exact (ifr_before _ _ _ p D Ec eq_refl). }
  destruct Hx as (b & Hx). rewrite Hx in Ec', D2. set (w' := typed_token w). set (sv := typed_token ($"/")).
  assert (D' : derives XStart ((ss1 ++ [st]) ++ SSpeed sv w' :: ss2)).
  { apply (exchange (ss1 ++ [st]) XStart _ _ D); rewrite ?Ec'.
    - cbn [derives proper after]. split; [reflexivity|]. split; [|exact D2]. split; [vm_compute; reflexivity|]. split; [exact Cw|]. unfold levels_ok. change (t_base w') with (fst (classify w)). rewrite Cw. exact Lw.
    - now left.
    - discriminate.
    - left. rewrite yield_cons. discriminate.
    - discriminate. }
  assert (Tt : forall u, (t_base (typed_token u), t_sub (typed_token u)) = classify (t_text (typed_token u))) by (intro u; cbn [t_base t_sub t_text typed_token]; now rewrite <- surjective_pairing).
  assert (B' : by_text (yield ((ss1 ++ [st]) ++ SSpeed sv w' :: ss2))).
  { pose proof B as B0. rewrite yield_app in B0. rewrite yield_app, yield_cons. intros u Hu. cbn [tokens_of app] in Hu. apply in_app_or in Hu as [Hu|[<-|[<-|Hu]]]; try apply Tt; apply B0, in_or_app; [now left|now right]. }
  destruct (parse_steps G depth' _ g D' B') as (s' & Hp & E1 & E2 & E3); [|exact Hd|].
  { rewrite Eg, <- words_ryield, (ryield_app (ss1 ++ [st])), ryield_cons. unfold wordsof. rewrite !map_app. reflexivity. }
  exists s'. split; [exact Hp|]. destruct (change_effect (ss1 ++ [st]) sv w' ss2 b D B' Ec' Cw) as (U & M & V & sps & als & Q1 & Q2 & Q3 & Q4 & Q5). cbv zeta in Q2.
  rewrite Q1 in Es. rewrite Q2 in E1, E3. apply (change_outcome _ _ _ _ sps als U M V); auto; rewrite Es; reflexivity.
Qed.
(** ** The first element *)
Theorem first_changed depth depth' f s t rest w g : parse_field15 G depth f = Ok true s ->
  field_roles f = (t, ROut) :: rest -> t_base t = F15_SPEED_ALTITUDE -> fst (classify w) = F15_SPEED_ALTITUDE -> fl_ok (first_level w) ->
  element_texts g = w :: wordsof rest -> 3 * n_tokens g <= depth' + 1 ->
  exists s', parse_field15 G depth' g = Ok true s' /\ changed_first t rest (speed_part w) (first_level w) (s_ers s) (s_ers s').
Proof.
  intros H W Bt Cw Lw Eg Hd. destruct (roles_steps G f depth s H) as (ss & D & Y & R & B & Es). rewrite R in W.
  destruct ss as [|s0 ss2]; [discriminate W|]. cbn [derives] in D. destruct D as (F & P & D2). destruct s0; try discriminate F.
  2:{ exfalso. rewrite ryield_cons in W. cbn [rstep tokens_of map app proper] in W, P. injection W as -> _. congruence. }
  rewrite ryield_cons in W. cbn [rstep tokens_of map app] in W. injection W as -> <-. cbn [proper] in P. destruct P as (_ & _ & Ny). set (w' := typed_token w). cbn [after] in D2.
  assert (D' : derives XStart (SFirst w' :: ss2)).
  { cbn [derives proper after follows]. split; [reflexivity|]. split; [|exact D2]. split; [exact Cw|]. split; [|exact Ny]. unfold levels_ok. change (t_base w') with (fst (classify w)). rewrite Cw. exact Lw. }
  assert (B' : by_text (yield (SFirst w' :: ss2))).
  { rewrite yield_cons in *. cbn [tokens_of app] in *. intros u [<-|Hu]; [|apply B; now right]. cbn [t_base t_sub t_text w' typed_token]. now rewrite <- surjective_pairing. }
  destruct (parse_steps G depth' _ g D' B') as (s' & Hp & E1 & E2 & E3); [|exact Hd|].
  { rewrite Eg, <- words_ryield, ryield_cons. reflexivity. }
  exists s'. split; [exact Hp|].
  pose proof (wt_by_text _ B) as W1. pose proof (wt_by_text _ B') as W2. rewrite yield_cons in W1, W2. cbn [tokens_of app] in W1, W2. pose proof (Forall_inv W1) as Wt. pose proof (Forall_inv W2) as Ww. apply Forall_inv_tail in W1.
  assert (V0 : forall u, t_base u = F15_SPEED_ALTITUDE -> is_vfr_first (yield (SFirst u :: ss2)) = false) by (intros u Bu; unfold is_vfr_first; rewrite yield_cons; cbn [tokens_of app]; rewrite Bu; reflexivity).
  set (k := k_with core0 (sa_eff t adep0)).
  destruct (perf_sa t adep0 Wt Bt) as (P1 & P2 & P3 & P4). cbn [fst snd] in P1, P2, P3, P4.
  assert (Rk : r_rules (k_p k) = RULE_I) by (unfold k, k_with; cbn [k_p]; destruct (sa_perf t adep0 Wt Bt) as (a & -> & _); reflexivity).
  assert (Hk : sa_eff w' adep0 = sa_eff w' (k_p k)) by (symmetry; apply sa_twice; assumption).
  pose proof (sa_h w' (k_p k) Ww Cw Rk) as Hh. rewrite <- Hk in Hh.
  destruct (Zp_final _ _ _ _ false ss2 XAdep 0 1 1 k (k_with core0 (sa_eff w' adep0)) D2 W1 (or_intror eq_refl) eq_refl eq_refl Hh) as (U & M & V & Q1 & Q2 & Q3 & Q4).
  assert (Hs : k_p k = h (speed_part (t_text t)) (first_level (t_text t)) (PyInt (spd_si (speed_part (t_text t)) (lvl_si (first_level (t_text t))))) (PyInt (lvl_si (first_level (t_text t)))) (k_p k)).
  { unfold k, k_with. cbn [k_p]. rewrite <- P3, <- P4. rewrite <- P1, <- P2 at 1. destruct (sa_eff t adep0). reflexivity. }
  destruct (Zp_final _ _ _ _ false ss2 XAdep 0 1 1 k k D2 W1 (or_intror eq_refl) eq_refl eq_refl Hs) as (U0 & M0 & V0' & R1 & R2 & R3 & R4).
  destruct U; [|discriminate Q3]. destruct U0; [|discriminate R3]. cbn [app] in Q1, Q2, R1, R2.
  assert (FM : Forall (fun r => in_force [(t, ROut)] = Some (r_speed r, r_alt r)) M).
  { rewrite R1 in Q1, R2. apply app_split in Q1 as (-> & ->); [|congruence]. apply app_inv_tail in R2. clear -R2 Bt. unfold in_force. cbn [last_some]. rewrite mod_out, Bt.
    induction M as [|r M IH]; constructor; cbn [map] in R2; injection R2 as A B; [|now apply IH]. rewrite A. reflexivity. }
  assert (S1 : result_of G (SFirst t :: ss2) = [] ++ M ++ V) by (unfold result_of; rewrite (V0 t Bt); exact Q1).
  assert (S2 : result_of G (SFirst w' :: ss2) = [] ++ map (h (speed_part w) (first_level w) (PyInt (spd_si (speed_part w) (lvl_si (first_level w)))) (PyInt (lvl_si (first_level w)))) M ++ V) by (unfold result_of; rewrite (V0 w' Cw); exact Q2).
  rewrite S1 in Es. rewrite S2 in E1, E3.
  destruct (change_outcome [(t, ROut)] (ryield ss2) _ _ _ _ _ _ _ (s_ers s) (s_ers s') ltac:(rewrite Es; reflexivity) E1) as (U1 & M1 & V1 & U2 & M2 & V2 & X1 & X2 & X3 & X4 & X5 & X6 & X7 & X8 & X9 & X10 & X11 & X12); auto; try (rewrite Es; reflexivity).
  { cbn [recorded_at recorded snd fst]. rewrite Bt. reflexivity. }
  cbn [recorded_at recorded snd fst] in X3. rewrite Bt in X3. destruct U1; [|discriminate X3]. inversion X5; subst. exists M1, V1, M2, V2. unfold in_force in X8. cbn [last_some] in X8. rewrite mod_out, Bt in X8.
  cbn [app] in X1, X2. repeat (split; [assumption|]). split; [|auto]. eapply Forall_impl; [|exact X8]. cbv beta. intros r K. injection K. auto.
Qed.
End G.
