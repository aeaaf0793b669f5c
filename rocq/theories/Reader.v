(** * Reader: every run of the parser methods is a run of the machine of SpecReader. *)
From Coq Require Import ZArith NArith List Bool String Lia.
From Coq Require Import ZifyBool ZifyNat ZifyN.
From Verif Require Import PyBase PyFloat Enums ErrorTable Regex SyntaxTable Syntax Tokenizer Ers Utils Parser.
From Verif Require Import TokenizerProofs RegexProofs SyntaxProofs SpecNum NumTables NumProofs ParserPrims PerfEq PointEq Trace SpecParser ParserInv SpecGrammar GrammarSem Grammar SpecAccept Describe SpecDiagnosis Diagnosis SpecReader.
Import List ListNotations.
Local Open Scope list_scope.
Local Open Scope nat_scope.

(** ** Faulty values *)
Lemma flag_if (t : token) (b : bool) m : (if b then [] else [err t m]) = map (err t) (if negb b then [m] else []).
Proof. destruct b; reflexivity. Qed.
Lemma brg_eq t : wt t -> In (t_sub t) [F15_SB_PRP_BD; F15_SB_LLBD_DEG; F15_SB_LLBD_MIN] -> errs_brg t = map (err t) (brg_faults (t_text t)).
Proof.
  intros H Hs. pose proof (brg_part t H Hs) as B. unfold errs_brg in *. unfold brg_faults, over. unfold deg_ok in B.
  destruct (decimal (brg_text (t_text t)) <=? 360)%Z; destruct (360 <? decimal (bearing_part (t_text t)))%Z eqn:E; cbn [map]; try reflexivity.
  - exfalso. assert (K : (decimal (bearing_part (t_text t)) <= 360)%Z) by now apply B. lia.
  - exfalso. assert (K : [err t 46] = []) by (apply B; lia). discriminate.
Qed.
Lemma deg_eq t r : deg_text (t_text t) r -> errs_deg t = map (err t) (deg_faults (t_text t)).
Proof.
  intros (d1 & d2 & h & g1 & g2 & g3 & e & E & _). unfold errs_deg, deg_faults. rewrite E. unfold sub_str. cbn [skipn firstn]. rewrite !over_neg, map_app.
  f_equal; apply flag_if.
Qed.
Lemma min_eq t r : min_text (t_text t) r -> errs_min t = map (err t) (min_faults (t_text t)).
Proof.
  intros (d1 & d2 & m1 & m2 & h & g1 & g2 & g3 & n1 & n2 & e & E & D & _). unfold errs_min, min_faults. rewrite E. unfold sub_str. cbn [skipn firstn].
  cbn [forallb] in D. repeat (apply andb_true_iff in D; let X := fresh "X" in destruct D as [X D]).
  assert (P1 : (0 <= decimal [m1; m2])%Z) by (apply decimal_bound; cbn [forallb]; now rewrite X1, X2).
  assert (P2 : (0 <= decimal [n1; n2])%Z) by (apply decimal_bound; cbn [forallb]; now rewrite X6, X7).
  assert (Ov : forall d m mx, (0 <= decimal m)%Z -> over_min d m mx = negb (dm_ok (decimal d) (decimal m) mx)) by (intros; unfold over_min, dm_ok; lia).
  rewrite !Ov, map_app by assumption. f_equal; apply flag_if.
Qed.
Lemma angles_eq t : wt t -> pt_errs t = map (err t) (angle_faults t).
Proof.
  intro H. unfold pt_errs, angle_faults. cbv zeta. destruct (t_sub t) eqn:Es; try reflexivity.
  - apply (brg_eq t H). rewrite Es. cbn. tauto.
  - apply (deg_eq t []). now apply ll_deg_text.
  - apply (min_eq t []). now apply ll_min_text.
  - destruct (llbd_deg_text t H Es) as (r & Hr & _). rewrite map_app, (deg_eq t r Hr), (brg_eq t H); [reflexivity|]. rewrite Es. cbn. tauto.
  - destruct (llbd_min_text t H Es) as (r & Hr & _). rewrite map_app, (min_eq t r Hr), (brg_eq t H); [reflexivity|]. rewrite Es. cbn. tauto.
Qed.
Lemma lvl_eq t s : lvl_errs t s = map (err t) (if bad_level s then [40%Z] else []).
Proof. unfold lvl_errs, bad_level. destruct s as [|c ds]; [reflexivity|]. destruct (_ && _); reflexivity. Qed.
Lemma levels_eq1 t s : t_base t <> F15_SPEED_ALTITUDE_ALTITUDE -> first_level (t_text t) = s -> lvl_errs t s = map (err t) (level_faults t).
Proof.
  intros B E. unfold level_faults. rewrite E, lvl_eq.
  destruct (base_eqb (t_base t) F15_SPEED_ALTITUDE_ALTITUDE) eqn:Eb; [apply base_eqb_eq in Eb; contradiction|]. cbn [andb]. now rewrite app_nil_r.
Qed.
Lemma levels_eq2 t a b c : wt t -> t_base t = F15_SPEED_ALTITUDE_ALTITUDE -> saa_cut (t_sub t) = Some (a, b, c) ->
  lvl_errs t (text_mid a b t) ++ lvl_errs t (text_from c t) = map (err t) (level_faults t).
Proof.
  intros H Hb Ha. unfold level_faults. rewrite Hb. change (base_eqb F15_SPEED_ALTITUDE_ALTITUDE F15_SPEED_ALTITUDE_ALTITUDE) with true. cbn [andb].
  destruct (all_rows_spec F15_SPEED_ALTITUDE_ALTITUDE _ t ltac:(discriminate) ltac:(discriminate) H Hb saa_cuts_all) as (sh & Hs & K).
  unfold saa_cuts in K. rewrite Ha in K. apply andb_true_iff in K as [K1 K2]. destruct (saa_cut_pos _ _ _ _ Ha) as (P1 & P2 & P3).
  destruct (cuts_spec _ _ _ _ K1 Hs) as (C1 & C2 & C3 & C4 & C5 & x & r & C6 & C7).
  assert (F1 : first_level (t_text t) = text_mid a b t) by (rewrite (first_level_cut _ _ _ _ K1 Hs); unfold text_mid; now rewrite !of_to by lia).
  rewrite map_app, !lvl_eq, F1. f_equal. f_equal.
  assert (TF : text_from c t = skipn (Z.to_nat c) (t_text t)) by (unfold text_from; rewrite <- (of_to c) at 1 by lia; apply slice_from).
  destruct ((a =? 5)%Z && (b =? 9)%Z)%bool eqn:E.
  - assert (a = 5 /\ b = 9 /\ c = 9)%Z as (-> & -> & ->) by lia.
    assert (T : target_seen (t_text t) = true).
    { apply target_seen_iff. destruct (proj1 C5 eq_refl) as (d & r' & E1 & E2). rewrite <- C1 in E1. apply (target_iff _ _ _ _ _ C6 E1).
      split; [intro X; apply C7 in X; discriminate|exact E2]. }
    rewrite T, TF, (second_cut _ _ _ _ K1 Hs). reflexivity.
  - apply andb_true_iff in K2 as [K2 K3].
    assert (T : target_seen (t_text t) = false).
    { destruct (target_seen (t_text t)) eqn:X; [exfalso|reflexivity]. apply target_seen_iff in X.
      destruct (after_speed (t_text t)) as [|d r'] eqn:Ed; [unfold target_checked in X; rewrite C6 in X; rewrite C6 in Ed; now rewrite Ed in X|].
      apply (target_iff _ _ _ _ _ C6 Ed) in X. destruct X as [X1 X2]. unfold after_speed in Ed. rewrite C1 in Ed. assert (Z.to_nat b - Z.to_nat a = 4) by (apply C5; eauto).
      assert (Z.to_nat a <> 4) by (intro; apply X1, C7; assumption).
      assert (A45 : Z.to_nat a = 4 \/ Z.to_nat a = 5) by (rewrite <- C1; unfold speed_len; rewrite C6; destruct (N.eqb x 77); auto). lia. }
    assert (Fl : bad_level (text_from c t) = false).
    { apply bad_level_iff. rewrite TF. apply (misses_all (skipn (Z.to_nat c) sh)); [exact K3|]. now apply Forall2_skipn. }
    rewrite T, Fl. reflexivity.
Qed.
Lemma too_long_sub t : wt t -> t_base t = F15_TOO_LONG -> t_sub t = F15_SB_UNKNOWN.
Proof.
  intros H B. unfold wt, classify in H. destruct (_ <? _)%Z; [congruence|].
  destruct (typed_in_table (t_text t)) as [E|(x & Hx & Ex & _)]; [congruence|].
  assert (X : forallb (fun x : srow => negb (base_eqb (fst (sr_types x)) F15_TOO_LONG)) shape_table = true) by (vm_compute; reflexivity).
  rewrite forallb_forall in X. specialize (X _ Hx). rewrite Ex, H in X. cbn [fst] in X. rewrite B in X. discriminate.
Qed.
Lemma sid_sub_eq t : (if pstr_eqb (t_text t) ($"SID") then F15_SB_SID_LITERAL else F15_SB_SID) = sid_sub t.
Proof. reflexivity. Qed.

(** ** Several steps of the machine *)
Inductive steps : result -> result -> Prop :=
| steps_refl r : steps r r
| steps_step j k s ts r : steps (step1 (j :: k) s ts) r -> steps (Goes (j :: k) s ts) r.
Lemma steps_trans a b c : steps a b -> steps b c -> steps a c.
Proof. induction 1 as [|j k s ts r _ IH]; [auto|]. intro K. constructor. auto. Qed.
Definition plain (j : job) : bool := match j with JTake _ | JWord _ => false | _ => true end.
Lemma step_read j k s t ts : plain j = true -> step1 (j :: k) s (t :: ts) = read j t k s ts.
Proof. destruct j; try discriminate; reflexivity. Qed.
Lemma step_end j k s : plain j = true -> step1 (j :: k) s [] = Goes k (at_end j s) [].
Proof. destruct j; try discriminate; reflexivity. Qed.

(** ** The simulation relation *)
Definition rel (x : cfg) (s : notes) : Prop :=
  n_before s = map item_of (c_l x) /\ n_last s = item_of (c_p x) /\ c_errs x = map (fun q => err (fst q) (snd q)) (n_reports s).
Lemma item_prev G t l p : map item_of (pt_prev G t l p) = map item_of l.
Proof. apply pt_prev_map. intros []. reflexivity. Qed.
Lemma rel_rec x s j t : rel x s -> rel (recc x j t) (add t s).
Proof.
  intros (H1 & H2 & H3). unfold rel, add, add_as. cbn [recc c_l c_p c_errs n_before n_last n_reports]. rewrite H1, H2, map_app.
  split; [reflexivity|]. split; [|exact H3]. reflexivity.
Qed.
Lemma reports_app t ms l : map (fun q : token * Z => err (fst q) (snd q)) (l ++ map (fun m => (t, m)) ms) = map (fun q => err (fst q) (snd q)) l ++ map (err t) ms.
Proof. rewrite map_app, map_map. reflexivity. Qed.
Lemma rel_err x s t m : rel x s -> rel (errc x t m) (report t [m] s).
Proof.
  intros (H1 & H2 & H3). unfold rel, report. cbn [errc c_l c_p c_errs n_before n_last n_reports]. rewrite reports_app, <- H3. auto.
Qed.
Lemma rel_p x s r f : rel x s -> item_of r = f (item_of (c_p x)) -> rel (with_p x r) (with_last f s).
Proof. intros (H1 & H2 & H3) E. unfold rel, with_last. cbn [with_p c_l c_p c_errs n_before n_last n_reports]. rewrite E, <- H2. auto. Qed.
Lemma rel_rules x s r : rel x s -> rel (with_p x (set_r_rules r (c_p x))) (rules r s).
Proof. intro H. now apply rel_p. Qed.
Lemma rel_text x s t : rel x s -> rel (with_p x (append_break_text t (c_p x))) (texts t s).
Proof.
  intro H. apply rel_p; [exact H|]. unfold append_break_text, item_of. destruct (c_p x) as []. cbn. destruct r_break; [|]; reflexivity.
Qed.
Lemma rel_stay x s m : rel x s -> rel (with_p x (set_r_stay m (c_p x))) (stays m s).
Proof. intro H. now apply rel_p. Qed.
Lemma rel_types x s b sb : rel x s -> rel (with_p x (retype b sb (c_p x))) (types b sb s).
Proof. intro H. now apply rel_p. Qed.
Lemma only_adep_iff x s : rel x s -> only_adep s = match c_l x with [] => true | _ => false end.
Proof. intros (H1 & _). unfold only_adep. rewrite H1. destruct (c_l x); reflexivity. Qed.

Section G.
Variable G : geodesic.
Section L.
Variable L : list token.
Variable ru : pstr.
Hypothesis HL : Forall wt L.

Lemma rel_pt x s t cur us k : wt t -> rel x s -> rel (mkC cur (pt_prev G t (c_l x) (c_p x)) (pt_rec G t (c_p x)) (c_errs x ++ pt_errs t) us k) (report t (angle_faults t) (locates t s)).
Proof.
  intros W (H1 & H2 & H3). unfold rel, report. cbn [c_l c_p c_errs n_before n_last n_reports].
  change (n_reports (locates t s)) with (n_reports s). rewrite reports_app, <- H3, item_prev, (angles_eq t W). cbn [locates with_last n_before n_last n_reports]. split; [exact H1|]. split; [|reflexivity].
  rewrite H2. unfold pt_rec, move_bd, set_coords. destruct (t_sub t); destruct (c_p x); reflexivity.
Qed.

Definition toks (x : cfg) : list token := skipn (S (c_cur x)) L.
(** Run [m] in [x]: unless the recursion limit is hit, the machine in state [r k] gets to [k]. *)
Definition R (m : M unit) (x : cfg) (r : list job -> result) : Prop :=
  match m (st_of L ru x) with
  | Ok _ s' => exists y q, s' = st_of L ru y /\ rel y q /\ forall k, steps (r k) (Goes k q (toks y))
  | Exn RecursionError _ => True
  | Exn e _ => e = ValueError /\ forall k, exists q, steps (r k) (Breaks q)
  end.
Lemma R_ret x s : rel x s -> R (ret tt) x (fun k => Goes k s (toks x)).
Proof. intro H. exists x, s. split; [reflexivity|]. split; [exact H|]. intro k. constructor. Qed.
Lemma R_end m x y s : m (st_of L ru x) = Ok tt (st_of L ru y) -> rel y s -> R m x (fun k => Goes k s (toks y)).
Proof. intros E H. unfold R. rewrite E. exists y, s. split; [reflexivity|]. split; [exact H|]. intro k. constructor. Qed.
Lemma R_pre m x r r' : (forall k, steps (r k) (r' k)) -> R m x r' -> R m x r.
Proof.
  intros Hr H. unfold R in *. destruct (m _) as [a s'|e s'].
  - destruct H as (y & q & E & Hy & K). exists y, q. split; [exact E|]. split; [exact Hy|]. intro k. eapply steps_trans; [apply Hr|apply K].
  - assert (Q : forall P, (P /\ forall k, exists q, steps (r' k) (Breaks q)) -> P /\ forall k, exists q, steps (r k) (Breaks q)).
    { intros P [HP K]. split; [exact HP|]. intro k. destruct (K k) as [q Kq]. exists q. eapply steps_trans; [apply Hr|exact Kq]. }
    destruct e; try exact H; apply Q; exact H.
Qed.
Lemma R_ext m x r r' : (forall k, r k = r' k) -> R m x r' -> R m x r.
Proof. intros Hr. apply R_pre. intro k. rewrite Hr. constructor. Qed.
Lemma R_rw (m m' : M unit) x x' r : m (st_of L ru x) = m' (st_of L ru x') -> R m' x' r -> R m x r.
Proof. intros E H. unfold R in *. now rewrite E. Qed.
Lemma R_step {A} (m : M A) f x a y r : m (st_of L ru x) = Ok a (st_of L ru y) -> R (f a) y r -> R (bind m f) x r.
Proof. intros E H. apply (R_rw _ (f a) _ y); [|exact H]. now apply bind_ok. Qed.
(** Composition: [J] is what is expected below. *)
Lemma R_bind (J : list job) (m : M unit) (f : unit -> M unit) x r1 :
  R m x r1 -> (forall y q, rel y q -> R (f tt) y (fun k => Goes (J ++ k) q (toks y))) -> R (bind m f) x (fun k => r1 (J ++ k)).
Proof.
  intros H K. unfold R in H |- *. unfold bind. destruct (m _) as [[] s'|e s'].
  - destruct H as (y & q & -> & Hy & St). specialize (K y q Hy). unfold R in K. destruct (f tt _) as [b s''|e s''].
    + destruct K as (z & q' & E & Hz & K). exists z, q'. split; [exact E|]. split; [exact Hz|]. intro k. eapply steps_trans; [apply St|apply K].
    + assert (Q : forall P, (P /\ forall k, exists q', steps (Goes (J ++ k) q (toks y)) (Breaks q')) -> P /\ forall k, exists q', steps (r1 (J ++ k)) (Breaks q')).
      { intros P [HP K']. split; [exact HP|]. intro k. destruct (K' k) as [q' Kq]. exists q'. eapply steps_trans; [apply St|exact Kq]. }
      destruct e; try exact K; apply Q; exact K.
  - assert (Q : forall P, (P /\ forall k, exists q, steps (r1 k) (Breaks q)) -> P /\ forall k, exists q, steps (r1 (J ++ k)) (Breaks q)).
    { intros P [HP K']. split; [exact HP|]. intro k. apply K'. }
    destruct e; try exact H; apply Q; exact H.
Qed.

Lemma toks_next x : match nth_error L (S (c_cur x)) with
  | Some t => toks x = t :: toks (nextc x) /\ wt t
  | None => toks x = [] /\ toks (nextc x) = [] end.
Proof.
  unfold toks. cbn [c_cur nextc]. destruct (nth_error L (S (c_cur x))) as [t|] eqn:N.
  - split; [now apply skipn_nth|exact (nth_wt L HL _ _ N)].
  - apply nth_error_None in N. split; apply skipn_all2; lia.
Qed.
Lemma R_next (f : option token -> M unit) x j s : plain j = true ->
  (forall t, toks x = t :: toks (nextc x) -> wt t -> R (f (Some t)) (nextc x) (fun k => read j t k s (toks (nextc x)))) ->
  (toks (nextc x) = [] -> R (f None) (nextc x) (fun k => Goes k (at_end j s) (toks (nextc x)))) ->
  R (bind tok_next f) x (fun k => Goes (j :: k) s (toks x)).
Proof.
  intros Hj H1 H2. eapply R_step; [apply tok_next_st|]. pose proof (toks_next x) as T. destruct (nth_error L (S (c_cur x))) as [t|].
  - destruct T as [T W]. eapply R_pre; [|exact (H1 t T W)]. intro k. rewrite T. constructor. rewrite (step_read _ _ _ _ _ Hj). constructor.
  - destruct T as [T1 T2]. eapply R_pre; [|exact (H2 T2)]. intro k. rewrite T1, T2. constructor. rewrite (step_end _ _ _ Hj). constructor.
Qed.
Lemma R_nor (f : token -> M unit) x j s : plain j = true -> at_end j s = s -> rel x s ->
  (forall t, toks x = t :: toks (nextc x) -> wt t -> R (f t) (nextc x) (fun k => read j t k s (toks (nextc x)))) ->
  R (next_or_return f) x (fun k => Goes (j :: k) s (toks x)).
Proof. intros Hj He Hr H. unfold next_or_return. apply R_next; [exact Hj|exact H|]. intros _. rewrite He. apply R_ret. exact Hr. Qed.
Lemma R_rec (f : option nat -> M unit) x t r : R (f (Some (length (c_l (recc x 0 t))))) (recc x 0 t) r -> R (bind (add_record t) f) x r.
Proof. intro K. eapply (R_step _ _ x _ (recc x 0 t)); [apply add_record_eq|exact K]. Qed.
Lemma R_last (f : option nat -> M unit) x r : R (f (Some (length (c_l x)))) x r -> R (bind last_elem f) x r.
Proof. intro K. eapply (R_step _ _ x _ x); [apply last_elem_eq|exact K]. Qed.
Lemma R_deref {C} (f : C -> M unit) x a r : R (f a) x r -> R (bind (deref (Some a)) f) x r.
Proof. intro K. eapply (R_step _ _ x _ x); [reflexivity|exact K]. Qed.
Lemma R_retb {C} (f : C -> M unit) x a r : R (f a) x r -> R (bind (ret a) f) x r.
Proof. intro K. eapply (R_step _ _ x _ x); [reflexivity|exact K]. Qed.
Lemma R_rdl (f : rrec -> M unit) x i r : i = length (c_l x) -> R (f (c_p x)) x r -> R (bind (rd i) f) x r.
Proof. intros -> K. eapply (R_step _ _ x _ x); [apply rd_last_eq|exact K]. Qed.
Lemma R_updl (f : unit -> M unit) x i g r : i = length (c_l x) -> R (f tt) (with_p x (g (c_p x))) r -> R (bind (upd i g) f) x r.
Proof. intros -> K. eapply (R_step _ _ x _ (with_p x (g (c_p x)))); [apply upd_last_eq|exact K]. Qed.
Lemma R_nel (f : Z -> M unit) x r : R (f (Z.of_nat (length (c_l x)) + 1)%Z) x r -> R (bind n_elems f) x r.
Proof. intro K. eapply (R_step _ _ x _ x); [apply n_elems_eq|exact K]. Qed.
Lemma nth_toks x i : nth_error L (c_cur x + S i) = nth_error (toks x) i.
Proof.
  unfold toks. replace (c_cur x + S i) with (S (c_cur x) + i) by lia. generalize (S (c_cur x)) as n. clear. induction L as [|a l IH]; intros [|n]; cbn; try reflexivity; [destruct i; reflexivity|]. apply IH.
Qed.
Lemma R_peek (f : option token -> M unit) x k r : R (f (nth_error (toks x) k)) x r -> R (bind (tok_peek (Z.of_nat (S k))) f) x r.
Proof. intro K. eapply (R_step _ _ x _ x); [apply tok_peek_st|]. now rewrite nth_toks. Qed.

(** ** What the calls are to the machine *)
Definition conf (c : call) (k : list job) (s : notes) (ts : list token) : result :=
  match c with
  | CErrSync t m => Goes (JSync :: k) (report t [m] s) ts
  | CReSync => Goes (JSync :: k) s ts
  | CSpdAlt t | CSpdAltAlt t | CSpdAltPlus t | CSpdVfr t | CBreakStart t | CDct t | CRoute t | CSid t | CSidStar t | CStar t => start t k s ts
  | CBreakEnd t => leave (end_kind t) k s ts
  | CBreakEndError t => Goes (JSync :: k) (report t [stray_end t] s) ts
  | CBreakText t => read JText t k s ts
  | CCruiseC t => Goes (JC t :: k) s ts
  | CCruisePoint t => Goes (JClimbPt t :: k) (report t (angle_faults t) (locates t (add t s))) ts
  | CSlash t => Goes (JSlash t :: k) s ts
  | CPostAdep t => read JAdep t k s ts
  | CPostPoint t => read JPoint t k s ts
  | CPostSid => Goes (JSid :: k) s ts
  | CPoint t => Goes (JPoint :: k) (point t s) ts
  | CStay t => Goes (JStayTok t :: k) s ts
  | CStayTime t => Goes (JStay :: k) (stays (minutes (t_text t)) s) ts
  | CTruncate => Goes (JTruncate :: k) s ts
  | CVtoI | CVtoItoV => Goes (JJoin :: k) s ts
  end.
Definition pre (c : call) (x : cfg) : Prop :=
  match c with
  | CErrSync _ m => defined_error m = true
  | CSpdAlt t => wt t /\ t_base t = F15_SPEED_ALTITUDE
  | CSpdAltAlt t => wt t /\ t_base t = F15_SPEED_ALTITUDE_ALTITUDE
  | CSpdAltPlus t => wt t /\ t_base t = F15_SPEED_ALTITUDE_PLUS
  | CSpdVfr t => wt t /\ t_base t = F15_SPEED_VFR
  | CBreakEnd t | CBreakEndError t => In (t_sub t) [F15_SB_IFR; F15_SB_GAT; F15_SB_IFPSTART]
  | CBreakStart t => t_base t = F15_BREAK_START
  | CBreakText t | CCruisePoint t | CPostAdep t | CPostPoint t | CPoint t => wt t
  | CDct t => t_base t = F15_DCT
  | CRoute t => t_base t = F15_ROUTE
  | CSid t => t_base t = F15_SID
  | CSidStar t => t_base t = F15_SID_STAR
  | CStar t => t_base t = F15_STAR
  | CStayTime t => wt t /\ t_base t = F15_STAY_TIME
  | CVtoI => exists p sl sp r, toks x = p :: sl :: sp :: r /\ t_base sp = F15_SPEED_ALTITUDE
  | CVtoItoV => exists p sl sp r, toks x = p :: sl :: sp :: r /\ t_base sp = F15_SPEED_VFR
  | CReSync | CCruiseC _ | CSlash _ | CPostSid | CStay _ | CTruncate => True
  end.

(** An error at the end of the field. *)
Lemma R_last_error d t m x s : defined_error m = true -> toks x = [] -> rel x s -> R (run G d (CErrSync t m)) x (fun k => Goes k (report t [m] s) (toks x)).
Proof.
  intros Hm Ht Hr. destruct d as [|d]; [exact I|]. cbn [run]. eapply (R_step _ _ x tt (tickc x)); [apply tick_eq|]. cbn [body]. unfold b_add_error_and_re_sync.
  eapply (R_step _ _ _ tt (errc (tickc x) t m)); [now apply add_err_eq|]. destruct d as [|d]; [exact I|]. cbn [run].
  set (y := errc (tickc x) t m). eapply (R_step _ _ _ tt (tickc y)); [apply tick_eq|]. cbn [body]. unfold b_re_sync, next_or_return.
  eapply R_step; [apply tok_next_st|]. pose proof (toks_next (tickc y)) as T. destruct (nth_error L (S (c_cur (tickc y)))) as [u|].
  - destruct T as [T _]. change (toks (tickc y)) with (toks x) in T. congruence.
  - destruct T as [_ T]. eapply R_ext; [|apply (R_ret _ (report t [m] s)); exact (rel_err (tickc x) s t m Hr)]. intro k. now rewrite Ht, T.
Qed.

Section Step.
Variable d : nat.
Hypothesis IH : forall c x s, pre c x -> rel x s -> R (run G d c) x (fun k => conf c k s (toks x)).

Ltac go_pre Eb W := cbn [pre]; first [ exact I | reflexivity | exact Eb | exact W | split; [exact W|exact Eb] | exact (be_sub _ W Eb) ].
Ltac same Eb := let k := fresh "k" in intro k; cbn [conf]; first [reflexivity | unfold read, wrong, suits, spot, fits, misplaced; rewrite ?Eb; first [reflexivity | unfold start; rewrite Eb; reflexivity]].
Ltac leaf Eb W H := match goal with |- R (run G d ?c) ?y _ => match type of H with rel _ ?s => eapply R_ext; [|refine (IH c y s _ H); go_pre Eb W]; same Eb end end.

Lemma r_errsync t m x s : pre (CErrSync t m) x -> rel x s -> R (b_add_error_and_re_sync (run G d) t m) (tickc x) (fun k => conf (CErrSync t m) k s (toks x)).
Proof.
  intros P H. unfold b_add_error_and_re_sync. eapply (R_step _ _ _ tt (errc (tickc x) t m)); [now apply add_err_eq|].
  exact (IH CReSync (errc (tickc x) t m) _ I (rel_err _ _ _ _ H)).
Qed.
Lemma r_resync x s : rel x s -> R (b_re_sync (run G d)) (tickc x) (fun k => conf CReSync k s (toks x)).
Proof.
  intro H. unfold b_re_sync. cbn [conf]. refine (R_nor _ (tickc x) JSync s eq_refl eq_refl H _). intros t _ W. destruct (t_base t) eqn:Eb; try leaf Eb W H.
  eapply R_ext; [|refine (R_next _ (nextc (tickc x)) (JSyncSl t) s eq_refl _ _)].
  - intro k. unfold read. rewrite Eb. reflexivity.
  - intros nt _ Wn. destruct (t_base nt) eqn:En; leaf En Wn H.
  - intro T. exact (R_last_error d t 25 (nextc (nextc (tickc x))) s eq_refl T H).
Qed.
Lemma r_postadep t x s : wt t -> rel x s -> R (b_post_adep (run G d) t) (tickc x) (fun k => conf (CPostAdep t) k s (toks x)).
Proof. intros W H. unfold b_post_adep. cbn [conf]. destruct (t_base t) eqn:Eb; leaf Eb W H. Qed.
Lemma rel_sub x s : rel x s -> i_sub (n_last s) = r_sub (c_p x).
Proof. intros (_ & H & _). rewrite H. reflexivity. Qed.
Lemma r_postpoint t x s : wt t -> rel x s -> R (b_post_point (run G d) t) (tickc x) (fun k => conf (CPostPoint t) k s (toks x)).
Proof.
  intros W H. unfold b_post_point. cbn [conf]. destruct (t_base t) eqn:Eb; try leaf Eb W H.
  apply R_last, R_deref, R_rdl; [reflexivity|]. cbn [c_p tickc]. rewrite ll_eq, <- (rel_sub x s H). destruct (computed_point (i_sub (n_last s))) eqn:Ec.
  - eapply R_ext; [|refine (IH (CErrSync t 47) (tickc x) s _ H); reflexivity]. intro k. unfold read, wrong, suits, spot, fits, misplaced. rewrite Eb, Ec. reflexivity.
  - eapply R_ext; [|refine (IH (CRoute t) (tickc x) s _ H); exact Eb]. intro k. unfold read, wrong, suits, spot, fits, misplaced. rewrite Eb, Ec. reflexivity.
Qed.
Lemma r_postsid x s : rel x s -> R (b_post_sid (run G d)) (tickc x) (fun k => conf CPostSid k s (toks x)).
Proof. intro H. unfold b_post_sid. cbn [conf]. refine (R_nor _ (tickc x) JSid s eq_refl eq_refl H _). intros t _ W. destruct (t_base t) eqn:Eb; leaf Eb W H. Qed.
Lemma r_truncate x s : rel x s -> R (b_truncate (run G d)) (tickc x) (fun k => conf CTruncate k s (toks x)).
Proof. intro H. unfold b_truncate. cbn [conf]. refine (R_nor _ (tickc x) JTruncate s eq_refl eq_refl H _). intros t _ W. exact (IH (CErrSync t 19) (nextc (tickc x)) s eq_refl H). Qed.
Lemma r_dct t x s : t_base t = F15_DCT -> rel x s -> R (b_dct (run G d) t) (tickc x) (fun k => conf (CDct t) k s (toks x)).
Proof.
  intros B H. unfold b_dct. apply R_rec. pose proof (rel_rec (tickc x) s 0 t H) as H'. cbn [conf]. unfold start. rewrite B.
  refine (R_nor _ (recc (tickc x) 0 t) JDct _ eq_refl eq_refl H' _). intros nt _ W. destruct (t_base nt) eqn:Eb; leaf Eb W H'.
Qed.
Lemma r_stay t x s : rel x s -> R (b_stay (run G d) t) (tickc x) (fun k => conf (CStay t) k s (toks x)).
Proof.
  intro H. unfold b_stay. cbn [conf]. refine (R_next _ (tickc x) (JStayTok t) s eq_refl _ _).
  - intros nt _ W. destruct (base_eqb (t_base nt) F15_SLASH) eqn:Es; cbn [negb].
    + apply base_eqb_eq in Es. eapply R_ext; [|refine (R_next _ (nextc (tickc x)) (JStaySl nt) s eq_refl _ _)].
      * intro k. unfold read, suits, spot, fits. rewrite Es. reflexivity.
      * intros n2 _ W2. destruct (base_eqb (t_base n2) F15_STAY_TIME) eqn:E2; cbn [negb].
        -- apply base_eqb_eq in E2. leaf E2 W2 H.
        -- eapply R_ext; [|refine (IH (CErrSync n2 38) (nextc (nextc (tickc x))) s eq_refl H)]. intro k. unfold read, wrong, suits, spot, fits, misplaced. cbn [conf]. destruct (t_base n2); try reflexivity. discriminate E2.
      * intro T. exact (R_last_error d nt 37 (nextc (nextc (tickc x))) s eq_refl T H).
    + eapply R_ext; [|refine (IH (CErrSync nt 36) (nextc (tickc x)) s eq_refl H)]. intro k. unfold read, wrong, suits, spot, fits, misplaced. cbn [conf]. destruct (t_base nt); try reflexivity. discriminate Es.
  - intro T. exact (R_last_error d t 35 (nextc (tickc x)) s eq_refl T H).
Qed.
Lemma r_staytime t x s : wt t -> t_base t = F15_STAY_TIME -> rel x s -> R (b_stay_time (run G d) t) (tickc x) (fun k => conf (CStayTime t) k s (toks x)).
Proof.
  intros W B H. unfold b_stay_time. apply R_last, R_deref, R_rdl; [reflexivity|]. rewrite (set_stay_eq t _ W B). cbn [lift]. apply R_retb. apply R_updl; [reflexivity|]. cbv beta.
  pose proof (rel_stay (tickc x) s (stay_min (t_text t)) H) as H'. rewrite (stay_minutes t W B) in *. cbn [conf].
  refine (R_nor _ (with_p (tickc x) _) JStay _ eq_refl eq_refl H' _). intros nt _ Wn. destruct (t_base nt) eqn:Eb; leaf Eb Wn H'.
Qed.
Lemma r_slash t x s : rel x s -> R (b_forward_slash (run G d) t) (tickc x) (fun k => conf (CSlash t) k s (toks x)).
Proof.
  intro H. unfold b_forward_slash. cbn [conf]. refine (R_next _ (tickc x) (JSlash t) s eq_refl _ _).
  - intros nt _ W. destruct (t_base nt) eqn:Eb; leaf Eb W H.
  - intro T. exact (R_last_error d t 20 (nextc (tickc x)) s eq_refl T H).
Qed.
Lemma r_point t x s : wt t -> rel x s -> R (b_point G (run G d) t) (tickc x) (fun k => conf (CPoint t) k s (toks x)).
Proof.
  intros W H. unfold b_point. apply R_rec, R_last, R_deref, R_updl; [reflexivity|]. set (x1 := with_p _ _).
  assert (H1 : rel x1 (rules ($"IFR") (add t s))) by (apply rel_rules; exact (rel_rec (tickc x) s 0 t H)).
  eapply (R_step _ _ x1 _ (mkC (c_cur x1) (pt_prev G t (c_l x1) (c_p x1)) (pt_rec G t (c_p x1)) (c_errs x1 ++ pt_errs t) (c_us x1) (c_k x1)));
    [exact (check_sem_eq G L _ t (c_l x1) (c_p x1) (c_errs x1) ru (c_k x1) W)|].
  pose proof (rel_pt x1 _ t (c_cur x1) (c_us x1) (c_k x1) W H1) as H2. cbn [conf]. set (y := mkC _ _ _ _ _ _) in *. change (toks x) with (toks y).
  refine (R_nor _ y JPoint _ eq_refl eq_refl H2 _). intros nt _ Wn. exact (IH (CPostPoint nt) (nextc y) _ Wn H2).
Qed.
Lemma r_route t x s : t_base t = F15_ROUTE -> rel x s -> R (b_route (run G d) t) (tickc x) (fun k => conf (CRoute t) k s (toks x)).
Proof.
  intros B H. unfold b_route. apply R_rec, R_last, R_deref, R_updl; [reflexivity|]. set (x1 := with_p _ _).
  assert (H1 : rel x1 (rules ($"IFR") (add t s))) by (apply rel_rules; exact (rel_rec (tickc x) s 0 t H)).
  cbn [conf]. unfold start. rewrite B. change (toks x) with (toks x1). revert H1. generalize x1 (rules ($"IFR") (add t s)). clear x1. intros x1 s1 H1. refine (R_nor _ x1 JRoute _ eq_refl eq_refl H1 _). intros nt _ W. destruct (t_base nt) eqn:Eb; try leaf Eb W H1.
  rewrite ll_eq. destruct (computed_point (t_sub nt)) eqn:Ec.
  - eapply R_ext; [|refine (R_bind [JTake nt] _ _ _ (fun k => conf (CErrSync nt 48) k s1 (toks (nextc x1))) (IH (CErrSync nt 48) (nextc x1) s1 eq_refl H1) _)].
    + intro k. unfold read, wrong, suits, spot, fits, misplaced. rewrite Eb, Ec. reflexivity.
    + intros y q Hy. eapply R_pre; [|exact (IH (CPoint nt) y q W Hy)]. intro k. constructor. constructor.
  - apply R_retb. eapply R_ext; [|refine (IH (CPoint nt) (nextc x1) s1 W H1)]. intro k. unfold read, wrong, suits, spot, fits, misplaced. rewrite Eb, Ec. cbn [negb orb conf]. unfold start. now rewrite Eb.
Qed.
Lemma len1 (x : cfg) : (Z.of_nat (length (c_l x)) + 1 =? 1)%Z = match c_l x with [] => true | _ => false end.
Proof. destruct (c_l x); cbn [length]; lia. Qed.
Lemma len2 (x : cfg) t : (Z.of_nat (length (c_l (recc x 0 t))) + 1 =? 2)%Z = match c_l x with [] => true | _ => false end.
Proof. cbn [c_l recc]. rewrite app_length. destruct (c_l x); cbn [length]; lia. Qed.
Lemma r_sid t x s : t_base t = F15_SID -> rel x s -> R (b_sid (run G d) t) (tickc x) (fun k => conf (CSid t) k s (toks x)).
Proof.
  intros B H. unfold b_sid. apply R_rec, R_nel. rewrite len2. pose proof (rel_rec (tickc x) s 0 t H) as H1. cbn [conf]. unfold start. rewrite B, (only_adep_iff x s H). cbn [c_l tickc].
  destruct (c_l x) eqn:El.
  - eapply (R_step _ _ _ _ (recc (tickc x) 0 t)); [exact (elem_at_eq L _ (c_l (recc (tickc x) 0 t)) _ _ ru _ 1 ltac:(cbn [c_l recc tickc]; rewrite El; cbn; lia))|].
    apply R_deref. apply R_rdl; [cbn [c_l recc tickc]; now rewrite El|]. apply R_updl; [cbn [c_l recc tickc]; now rewrite El|].
    refine (IH CPostSid (with_p (recc (tickc x) 0 t) _) _ I (rel_types _ _ _ _ H1)).
  - exact (IH (CErrSync t 30) (recc (tickc x) 0 t) _ eq_refl H1).
Qed.
Lemma r_the_last t x s : rel x s -> forall i, i = length (c_l x) -> R (
    pk <- tok_peek 1 ;;
    match pk with
    | None => i <- deref (Some i) ;; upd i (retype F15_STAR (if pstr_eqb (t_text t) ($"STAR") then F15_SB_STAR_LITERAL else F15_SB_STAR))
    | Some nt => run G d (CErrSync nt 34)
    end) x (fun k => the_last t k s (toks x)).
Proof.
  intros H i ->. refine (R_peek _ x 0 _ _). unfold the_last. destruct (toks x) as [|nt r] eqn:Et; cbn [nth_error].
  - apply R_deref. eapply R_ext; [|refine (R_end _ x _ _ _ (rel_types x s F15_STAR (star_sub t) H)); exact (upd_last_eq L (Z.of_nat (c_cur x)) (c_l x) (c_p x) (c_errs x) ru (c_k x) _)].
    intro k. change (toks (with_p x _)) with (toks x). now rewrite Et.
  - rewrite <- Et. exact (IH (CErrSync nt 34) x s eq_refl H).
Qed.
Lemma r_sidstar t x s : t_base t = F15_SID_STAR -> rel x s -> R (b_sid_star (run G d) t) (tickc x) (fun k => conf (CSidStar t) k s (toks x)).
Proof.
  intros B H. unfold b_sid_star. apply R_rec, R_nel. rewrite len2. pose proof (rel_rec (tickc x) s 0 t H) as H1. cbn [conf]. unfold start. rewrite B, (only_adep_iff x s H). cbn [c_l tickc].
  destruct (c_l x) eqn:El.
  - apply R_deref. apply R_updl; [reflexivity|]. exact (IH CPostSid (with_p (recc (tickc x) 0 t) _) _ I (rel_types _ _ _ _ H1)).
  - exact (r_the_last t (recc (tickc x) 0 t) _ H1 _ eq_refl).
Qed.
Lemma r_star t x s : t_base t = F15_STAR -> rel x s -> R (b_star (run G d) t) (tickc x) (fun k => conf (CStar t) k s (toks x)).
Proof.
  intros B H. unfold b_star. apply R_rec. pose proof (rel_rec (tickc x) s 0 t H) as H1. cbn [conf]. unfold start. rewrite B.
  exact (r_the_last t (recc (tickc x) 0 t) _ H1 _ eq_refl).
Qed.
Lemma r_breakstart t x s : t_base t = F15_BREAK_START -> rel x s -> R (b_break_start (run G d) t) (tickc x) (fun k => conf (CBreakStart t) k s (toks x)).
Proof.
  intros B H. unfold b_break_start. apply R_rec, R_last. pose proof (rel_rec (tickc x) s 0 t H) as H1. set (x1 := recc _ _ _) in *.
  set (s2 := match begins (t_sub t) with Some b => rules (kind_rules b) (add t s) | None => add t s end).
  assert (K : exists x2, (match t_sub t with
      | F15_SB_OAT => i <- deref (Some (length (c_l x1))) ;; upd i (set_r_rules RULE_O)
      | F15_SB_VFR => i <- deref (Some (length (c_l x1))) ;; upd i (set_r_rules RULE_V)
      | F15_SB_IFPSTOP => i <- deref (Some (length (c_l x1))) ;; upd i (set_r_rules RULE_S)
      | _ => ret tt end) (st_of L ru x1) = Ok tt (st_of L ru x2) /\ c_cur x2 = c_cur x1 /\ rel x2 s2).
  { assert (U : forall r, exists x2, upd (length (c_l x1)) (set_r_rules r) (st_of L ru x1) = Ok tt (st_of L ru x2) /\ c_cur x2 = c_cur x1 /\ rel x2 (rules r (add t s))).
    { intro r. exists (with_p x1 (set_r_rules r (c_p x1))). split; [apply upd_last_eq|]. split; [reflexivity|]. now apply rel_rules. }
    unfold s2. destruct (t_sub t); cbn [begins]; first [exact (U RULE_V) | exact (U RULE_O) | exact (U RULE_S) | exists x1; split; [reflexivity|split; [reflexivity|exact H1]]]. }
  destruct K as (x2 & E & Ec & H2). eapply R_step; [exact E|]. cbn [conf]. unfold start. rewrite B. fold s2.
  assert (Et : toks x = toks x2) by (unfold toks; rewrite Ec; reflexivity). rewrite Et.
  refine (R_nor _ x2 JBegin s2 eq_refl eq_refl H2 _). intros nt _ W. destruct (base_eqb (t_base nt) F15_TOO_LONG) eqn:El.
  - eapply R_ext; [|refine (IH (CErrSync nt 4) (nextc x2) s2 eq_refl H2)]. intro k. unfold read. rewrite El. reflexivity.
  - eapply R_ext; [|refine (IH (CBreakText nt) (nextc x2) s2 W H2)]. intro k. cbn [conf]. unfold read. rewrite El. reflexivity.
Qed.
Lemma ends_eq x s t : rel x s ->
  (if sub_eqb (t_sub t) F15_SB_IFR && pstr_eqb (r_rules (c_p x)) RULE_V then run G d (CBreakEnd t)
   else if sub_eqb (t_sub t) F15_SB_GAT && pstr_eqb (r_rules (c_p x)) RULE_O then run G d (CBreakEnd t)
   else if sub_eqb (t_sub t) F15_SB_IFPSTART && pstr_eqb (r_rules (c_p x)) RULE_S then run G d (CBreakEnd t)
   else ret tt) = match ends_here s t with Some _ => run G d (CBreakEnd t) | None => ret tt end /\
  forall b, ends_here s t = Some b -> end_kind t = b /\ In (t_sub t) [F15_SB_IFR; F15_SB_GAT; F15_SB_IFPSTART].
Proof.
  intros (_ & H & _). unfold ends_here, in_section. rewrite H. cbn [item_of i_rules]. change ($"VFR") with RULE_V. change ($"OAT") with RULE_O. change ($"IFPS") with RULE_S.
  set (r := r_rules (c_p x)).
  destruct (pstr_eqb r RULE_V) eqn:E1.
  - assert (N2 : pstr_eqb r RULE_O = false) by (apply pstr_eqb_eq in E1; rewrite E1; reflexivity). assert (N3 : pstr_eqb r RULE_S = false) by (apply pstr_eqb_eq in E1; rewrite E1; reflexivity).
    rewrite N2, N3, !andb_false_r, andb_true_r. unfold end_kind. destruct (t_sub t); cbn [sub_eqb ends]; (split; [reflexivity|]); intros b K; try discriminate K; injection K as <-; cbn; auto.
  - rewrite !andb_false_r. destruct (pstr_eqb r RULE_O) eqn:E2.
    + assert (N3 : pstr_eqb r RULE_S = false) by (apply pstr_eqb_eq in E2; rewrite E2; reflexivity).
      rewrite N3, !andb_false_r, andb_true_r. unfold end_kind. destruct (t_sub t); cbn [sub_eqb ends]; (split; [reflexivity|]); intros b K; try discriminate K; injection K as <-; cbn; auto.
    + rewrite !andb_false_r. destruct (pstr_eqb r RULE_S) eqn:E3.
      * rewrite andb_true_r. unfold end_kind. destruct (t_sub t); cbn [sub_eqb ends]; (split; [reflexivity|]); intros b K; try discriminate K; injection K as <-; cbn; auto.
      * rewrite !andb_false_r. split; [reflexivity|]. intros b K. discriminate.
Qed.
Lemma r_word t x s : rel x s -> R (
    o <- last_elem ;; i <- deref o ;; upd i (append_break_text (t_text t)) ;;;
    o <- last_elem ;; i <- deref o ;; r <- rd i ;;
    let sb := t_sub t in
    let cur := r_rules r in
    (if sub_eqb sb F15_SB_IFR && pstr_eqb cur RULE_V then run G d (CBreakEnd t)
     else if sub_eqb sb F15_SB_GAT && pstr_eqb cur RULE_O then run G d (CBreakEnd t)
     else if sub_eqb sb F15_SB_IFPSTART && pstr_eqb cur RULE_S then run G d (CBreakEnd t)
     else ret tt) ;;;
    next_or_return (fun nt => run G d (CBreakText nt))) x
  (fun k => match ends_here (texts (t_text t) s) t with Some b => leave b (JText :: k) (texts (t_text t) s) (toks x) | None => Goes (JText :: k) (texts (t_text t) s) (toks x) end).
Proof.
  intro H. apply R_last, R_deref, R_updl; [reflexivity|]. set (x1 := with_p _ _). assert (H1 : rel x1 (texts (t_text t) s)) by now apply rel_text. set (s1 := texts _ _) in *.
  apply R_last, R_deref, R_rdl; [reflexivity|]. cbv zeta. destruct (ends_eq x1 s1 t H1) as [E K]. rewrite E.
  assert (Nx : forall y q, rel y q -> R (next_or_return (fun nt => run G d (CBreakText nt))) y (fun k => Goes (JText :: k) q (toks y))).
  { intros y q Hy. refine (R_nor _ y JText q eq_refl eq_refl Hy _). intros nt _ W. exact (IH (CBreakText nt) (nextc y) q W Hy). }
  change (toks x) with (toks x1). destruct (ends_here s1 t) as [b|].
  - destruct (K b eq_refl) as [<- I3]. refine (R_bind [JText] _ _ _ _ (IH (CBreakEnd t) x1 s1 I3 H1) Nx).
  - apply R_retb. exact (Nx x1 s1 H1).
Qed.
Lemma r_breaktext t x s : wt t -> rel x s -> R (b_break_text_save (run G d) t) (tickc x) (fun k => conf (CBreakText t) k s (toks x)).
Proof.
  intros W H. unfold b_break_text_save. cbn [conf]. unfold read. destruct (base_eqb (t_base t) F15_TOO_LONG) eqn:El.
  - apply base_eqb_eq in El. refine (R_bind [JWord t; JText] _ _ _ (fun k => conf (CErrSync t 4) k s (toks x)) (IH (CErrSync t 4) (tickc x) s eq_refl H) _).
    intros y q Hy. eapply R_pre; [|exact (r_word t y q Hy)]. intro k. constructor. unfold ends_here, end_kind. rewrite (too_long_sub t W El).
    destruct (in_section _) as [[]|]; constructor.
  - apply R_retb. exact (r_word t (tickc x) s H).
Qed.
Lemma r_bee t x s : In (t_sub t) [F15_SB_IFR; F15_SB_GAT; F15_SB_IFPSTART] -> rel x s -> R (b_break_end_error (run G d) t) (tickc x) (fun k => conf (CBreakEndError t) k s (toks x)).
Proof.
  intros P H. unfold b_break_end_error. cbn [conf]. unfold stray_end. destruct P as [<-|[<-|[<-|[]]]]; cbn [sub_eqb].
  - exact (IH (CErrSync t 6) (tickc x) s eq_refl H).
  - exact (IH (CErrSync t 7) (tickc x) s eq_refl H).
  - exact (IH (CErrSync t 8) (tickc x) s eq_refl H).
Qed.
Lemma R_tail y q : rel y q -> R (next_or_return (fun nt => run G d (CPoint nt))) y (fun k => Goes (JAsPoint :: k) q (toks y)).
Proof. intro Hy. refine (R_nor _ y JAsPoint q eq_refl eq_refl Hy _). intros nt _ W. exact (IH (CPoint nt) (nextc y) q W Hy). Qed.
Lemma r_breakend t x s : In (t_sub t) [F15_SB_IFR; F15_SB_GAT; F15_SB_IFPSTART] -> rel x s -> R (b_break_end (run G d) t) (tickc x) (fun k => conf (CBreakEnd t) k s (toks x)).
Proof.
  intros P H. unfold b_break_end. cbv zeta. cbn [conf]. unfold leave, resume. refine (R_peek _ (tickc x) 0 _ _). change (toks (tickc x)) with (toks x).
  destruct (toks x) as [|p r] eqn:Et; cbn [nth_error].
  { rewrite <- Et. exact (R_ret (tickc x) s H). }
  destruct (base_eqb (t_base p) F15_POINT) eqn:B1; cbn [negb].
  2: { eapply R_ext; [|exact (R_ret (tickc x) s H)]. intro k. change (toks (tickc x)) with (toks x). rewrite Et. destruct (t_base p); try reflexivity. discriminate B1. }
  apply base_eqb_eq in B1. rewrite B1. destruct (sub_eqb (t_sub t) F15_SB_IFR) eqn:S1.
  - assert (Ek : end_kind t = KVfr) by (apply sub_eqb_eq in S1; unfold end_kind; now rewrite S1). rewrite Ek. refine (R_peek _ (tickc x) 1 _ _). change (toks (tickc x)) with (toks x). rewrite Et. cbn [nth_error].
    destruct r as [|sl r]; cbn [nth_error].
    { rewrite <- Et. exact (IH (CErrSync p 22) (tickc x) s eq_refl H). }
    destruct (base_eqb (t_base sl) F15_SLASH) eqn:B2; cbn [negb].
    2: { eapply R_ext; [|exact (R_ret (tickc x) s H)]. intro k. change (toks (tickc x)) with (toks x). rewrite Et. destruct (t_base sl); try reflexivity. discriminate B2. }
    apply base_eqb_eq in B2. rewrite B2. refine (R_peek _ (tickc x) 2 _ _). change (toks (tickc x)) with (toks x). rewrite Et. cbn [nth_error].
    destruct r as [|sp r]; cbn [nth_error].
    { rewrite <- Et. exact (IH (CErrSync p 22) (tickc x) s eq_refl H). }
    destruct (base_eqb (t_base sp) F15_SPEED_ALTITUDE) eqn:B3; cbn [negb andb].
    + apply base_eqb_eq in B3. rewrite B3. rewrite <- Et. refine (R_bind [JAsPoint] _ _ _ (fun k => conf CVtoI k s (toks x)) (IH CVtoI (tickc x) s _ H) R_tail). exists p, sl, sp, r. auto.
    + destruct (base_eqb (t_base sp) F15_SPEED_VFR) eqn:B4; cbn [negb andb].
      * apply base_eqb_eq in B4. rewrite B4. rewrite <- Et. refine (R_bind [JAsPoint] _ _ _ (fun k => conf CVtoItoV k s (toks x)) (IH CVtoItoV (tickc x) s _ H) R_tail). exists p, sl, sp, r. auto.
      * replace (match t_base sp with F15_SPEED_ALTITUDE | F15_SPEED_VFR => Resumes | _ => Wrong end) with Wrong by (destruct (t_base sp); try reflexivity; discriminate).
        rewrite <- Et. exact (IH (CErrSync p 22) (tickc x) s eq_refl H).
  - assert (Ek : end_kind t <> KVfr) by (unfold end_kind; destruct (t_sub t); try discriminate; discriminate S1).
    rewrite <- Et. eapply R_ext; [|exact (R_tail (tickc x) s H)]. intro k. destruct (end_kind t); [contradiction|reflexivity|reflexivity].
Qed.
Lemma rel_perf x s p' f t ms es : rel x s -> item_of p' = f (item_of (c_p x)) -> es = map (err t) ms ->
  rel (mkC (c_cur x) (c_l x) p' (c_errs x ++ es) (c_us x) (c_k x)) (report t ms (with_last f s)).
Proof.
  intros (H1 & H2 & H3) E ->. unfold rel, report, with_last. cbn [c_l c_p c_errs n_before n_last n_reports]. rewrite reports_app, <- H3, E, <- H2. auto.
Qed.
(** The items of the records of speed and level. *)
Definition ifr (i : item) : item := mkItem (i_name i) (i_start i) (i_end i) (i_base i) (i_sub i) ($"IFR") (i_text i) (i_stay i) (i_speed i) (i_level i) (i_target i) (i_target_si i) (i_located i).
Lemma sa_item a t p : item_of (sa_rec a t p) = ifr (flies (text_to a t) (text_from a t) (item_of p)).
Proof. destruct p; reflexivity. Qed.
Lemma sap_item a b t p : item_of (sap_rec a b t p) = ifr (climbs (text_from b t) (r_cto_si p) (flies (text_to a t) (text_mid a b t) (item_of p))).
Proof. destruct p; reflexivity. Qed.
Lemma saa_item a b c t p : item_of (saa_rec a b c t p) = ifr (climbs (text_from c t) (PyInt (lvl_si (text_from c t))) (flies (text_to a t) (text_mid a b t) (item_of p))).
Proof. destruct p; reflexivity. Qed.
Lemma vfr_items a t p : let f := flies (text_to a t) ($"F050") in
  item_of (copy_perf (vfr_rec a t p) p) = f (item_of p) /\ 
  item_of (vfr_rec a t p) = n_last (rules ($"VFR") (with_last f (add_as ($"VFR") t (mkNotes [] (f (item_of p)) [])))).
Proof. destruct p; split; reflexivity. Qed.
Lemma speeds_eq t s f : (forall i, match t_base t with
             | F15_SPEED_ALTITUDE_PLUS => climbs (second_level (t_text t)) (i_target_si i) i
             | F15_SPEED_ALTITUDE_ALTITUDE => climbs (stored_target (t_text t)) (PyInt (level_value (stored_target (t_text t)))) i
             | _ => i
             end = f i) ->
  speeds t s = report t (level_faults t) (with_last (fun i => ifr (f (flies (speed_part (t_text t)) (first_level (t_text t)) i))) s).
Proof. intro E. unfold speeds, rules, with_last, report, ifr. cbn [n_before n_last n_reports]. now rewrite E. Qed.
Lemma sa_texts t a : wt t -> t_base t = F15_SPEED_ALTITUDE -> sa_cut (t_sub t) = Some a -> text_to a t = speed_part (t_text t) /\ text_from a t = first_level (t_text t).
Proof.
  intros W B Ha. destruct (sa_perf t (dummy []) W B) as (a' & E & -> & ->). unfold sa_eff in E. rewrite Ha in E.
  split; [exact (f_equal r_speed E)|exact (f_equal r_alt E)].
Qed.
Lemma sap_texts t a b : wt t -> t_base t = F15_SPEED_ALTITUDE_PLUS -> sap_cut (t_sub t) = Some (a, b) ->
  text_to a t = speed_part (t_text t) /\ text_mid a b t = first_level (t_text t) /\ text_from b t = second_level (t_text t).
Proof.
  intros W B Ha. destruct (sap_perf t (dummy []) W B) as (a' & b' & E & -> & -> & ->). unfold sap_eff in E. rewrite Ha in E.
  split; [exact (f_equal r_speed E)|]. split; [exact (f_equal r_alt E)|exact (f_equal r_cto E)].
Qed.
Lemma saa_texts t a b c : wt t -> t_base t = F15_SPEED_ALTITUDE_ALTITUDE -> saa_cut (t_sub t) = Some (a, b, c) ->
  text_to a t = speed_part (t_text t) /\ text_mid a b t = first_level (t_text t) /\ text_from c t = stored_target (t_text t).
Proof.
  intros W B Ha. destruct (saa_perf t (dummy []) W B) as (a' & b' & c' & E & -> & -> & ->). unfold saa_eff in E. rewrite Ha in E.
  split; [exact (f_equal r_speed E)|]. split; [exact (f_equal r_alt E)|exact (f_equal r_cto E)].
Qed.
Lemma vfr_texts t a : wt t -> t_base t = F15_SPEED_VFR -> vfr_cut (t_sub t) = Some a -> text_to a t = speed_part (t_text t).
Proof. intros W B Ha. destruct (vfr_perf t (dummy []) W B) as (a' & E & ->). unfold vfr_eff in E. rewrite Ha in E. exact (f_equal r_speed E). Qed.
Lemma r_sa t x s : wt t -> t_base t = F15_SPEED_ALTITUDE -> rel x s -> R (b_assign_speed_altitude (run G d) t) (tickc x) (fun k => conf (CSpdAlt t) k s (toks x)).
Proof.
  intros W B H. destruct (sa_fields t W B) as (a & Ha & Hs & Hl). destruct (sa_texts t a W B Ha) as [P1 P2].
  assert (H1 : rel (mkC (c_cur (tickc x)) (c_l x) (sa_rec a t (c_p x)) (c_errs x ++ lvl_errs t (text_from a t)) (c_us x) (c_k (tickc x))) (speeds t s)).
  { rewrite (speeds_eq t s (fun i => i)) by (rewrite B; reflexivity). rewrite <- P1, <- P2. refine (rel_perf (tickc x) s _ _ t _ _ H (sa_item a t (c_p x)) _). apply levels_eq1; [rewrite B; discriminate|now symmetry]. }
  eapply (R_rw _ (next_or_return (fun nt => n <- n_elems ;; if (n =? 1)%Z then run G d (CPostAdep nt) else run G d (CPostPoint nt))) _
    (mkC (c_cur (tickc x)) (c_l x) (sa_rec a t (c_p x)) (c_errs x ++ lvl_errs t (text_from a t)) (c_us x) (c_k (tickc x)))); [exact (b_sa_eq (run G d) L (Z.of_nat (c_cur x)) (c_l x) (c_p x) (c_errs x) ru (S (c_k x)) t a Ha Hs Hl)|].
  cbn [conf]. unfold start. rewrite B, (only_adep_iff x s H). set (y := mkC _ _ _ _ _ _) in *.
  assert (Q : R (next_or_return (fun nt => n <- n_elems ;; if (n =? 1)%Z then run G d (CPostAdep nt) else run G d (CPostPoint nt))) y
    (fun k => Goes ((match c_l x with [] => JAdep | _ => JPoint end) :: k) (speeds t s) (toks y))).
  { apply R_nor; [destruct (c_l x); reflexivity|destruct (c_l x); reflexivity|exact H1|]. intros nt _ Wn. apply R_nel. rewrite len1. change (c_l (nextc y)) with (c_l x).
    destruct (c_l x); [exact (IH (CPostAdep nt) (nextc y) _ Wn H1)|exact (IH (CPostPoint nt) (nextc y) _ Wn H1)]. }
  eapply R_ext; [|exact Q]. intro k. destruct (c_l x); reflexivity.
Qed.
Lemma R_after_speed y q : rel y q -> R (next_or_return (fun nt => run G d (CPostPoint nt))) y (fun k => Goes (JPoint :: k) q (toks y)).
Proof. intro H. refine (R_nor _ y JPoint q eq_refl eq_refl H _). intros nt _ W. exact (IH (CPostPoint nt) (nextc y) q W H). Qed.
Lemma r_sap t x s : wt t -> t_base t = F15_SPEED_ALTITUDE_PLUS -> rel x s -> R (b_assign_speed_altitude_plus (run G d) t) (tickc x) (fun k => conf (CSpdAltPlus t) k s (toks x)).
Proof.
  intros W B H. destruct (sap_fields t W B) as (a & b & Ha & Hs & Hl & _). destruct (sap_texts t a b W B Ha) as (P1 & P2 & P3).
  assert (H1 : rel (mkC (c_cur (tickc x)) (c_l x) (sap_rec a b t (c_p x)) (c_errs x ++ lvl_errs t (text_mid a b t)) (c_us x) (c_k (tickc x))) (speeds t s)).
  { rewrite (speeds_eq t s (fun i => climbs (second_level (t_text t)) (i_target_si i) i)) by (rewrite B; reflexivity). rewrite <- P1, <- P2, <- P3. refine (rel_perf (tickc x) s _ _ t _ _ H (sap_item a b t (c_p x)) _). apply levels_eq1; [rewrite B; discriminate|now symmetry]. }
  eapply (R_rw _ (next_or_return (fun nt => run G d (CPostPoint nt))) _
    (mkC (c_cur (tickc x)) (c_l x) (sap_rec a b t (c_p x)) (c_errs x ++ lvl_errs t (text_mid a b t)) (c_us x) (c_k (tickc x)))); [exact (b_sap_eq (run G d) L (Z.of_nat (c_cur x)) (c_l x) (c_p x) (c_errs x) ru (S (c_k x)) t a b Ha Hs Hl)|].
  cbn [conf]. unfold start, unconvertible. rewrite B. exact (R_after_speed _ _ H1).
Qed.
Lemma r_saa t x s : wt t -> t_base t = F15_SPEED_ALTITUDE_ALTITUDE -> rel x s -> R (b_assign_speed_altitude_altitude (run G d) t) (tickc x) (fun k => conf (CSpdAltAlt t) k s (toks x)).
Proof.
  intros W B H. cbn [conf]. unfold start. rewrite (unconv_na t B), B. destruct (is_na_sm (t_sub t)) eqn:Na.
  - unfold R. pose proof (b_saa_exn (run G d) L (Z.of_nat (c_cur x)) (c_l x) (c_p x) (c_errs x) ru (S (c_k x)) t W B Na) as E.
    change (stt L (Z.of_nat (c_cur x)) (c_l x) (c_p x) (c_errs x) ru (S (c_k x))) with (st_of L ru (tickc x)) in E. rewrite E. split; [reflexivity|]. intro k. exists s. constructor.
  - destruct (saa_fields t W B) as (a & b & c & Ha & Hs & Hl & Hc). destruct (saa_texts t a b c W B Ha) as (P1 & P2 & P3).
    assert (H1 : rel (mkC (c_cur (tickc x)) (c_l x) (saa_rec a b c t (c_p x)) ((c_errs x ++ lvl_errs t (text_mid a b t)) ++ lvl_errs t (text_from c t)) (c_us x) (c_k (tickc x))) (speeds t s)).
    { rewrite (speeds_eq t s (climbs (stored_target (t_text t)) (PyInt (level_value (stored_target (t_text t)))))) by (rewrite B; reflexivity). rewrite <- P1, <- P2, <- P3, <- app_assoc. refine (rel_perf (tickc x) s _ _ t _ _ H (saa_item a b c t (c_p x)) _). now apply levels_eq2. }
    eapply (R_rw _ (next_or_return (fun nt => run G d (CPostPoint nt))) _
      (mkC (c_cur (tickc x)) (c_l x) (saa_rec a b c t (c_p x)) ((c_errs x ++ lvl_errs t (text_mid a b t)) ++ lvl_errs t (text_from c t)) (c_us x) (c_k (tickc x)))); [exact (b_saa_eq (run G d) L (Z.of_nat (c_cur x)) (c_l x) (c_p x) (c_errs x) ru (S (c_k x)) t a b c Ha Hs Hl (Hc Na))|].
    exact (R_after_speed _ _ H1).
Qed.
Lemma r_vfr t x s : wt t -> t_base t = F15_SPEED_VFR -> rel x s -> R (b_assign_speed_vfr (run G d) t) (tickc x) (fun k => conf (CSpdVfr t) k s (toks x)).
Proof.
  intros W B H. destruct (vfr_fields t W B) as (a & Ha & Hs & _ & Hm). pose proof (vfr_texts t a W B Ha) as P1.
  assert (H1 : rel (mkC (c_cur (tickc x)) (c_l x ++ [copy_perf (vfr_rec a t (c_p x)) (c_p x)]) (vfr_rec a t (c_p x)) (c_errs x) (c_us x) (c_k (tickc x))) (vfr t s)).
  { destruct H as (H1 & H2 & H3). destruct (vfr_items a t (c_p x)) as [V1 V2]. unfold rel, vfr. rewrite <- P1. cbn [c_l c_p c_errs n_before n_reports rules with_last add_as]. rewrite map_app. cbn [map]. rewrite <- H1, V1, V2, <- H2.
    split; [reflexivity|]. split; [reflexivity|exact H3]. }
  eapply (R_rw _ (next_or_return (fun nt => run G d (CBreakText nt))) _
    (mkC (c_cur (tickc x)) (c_l x ++ [copy_perf (vfr_rec a t (c_p x)) (c_p x)]) (vfr_rec a t (c_p x)) (c_errs x) (c_us x) (c_k (tickc x)))); [exact (b_vfr_eq (run G d) L (Z.of_nat (c_cur x)) (c_l x) (c_p x) (c_errs x) ru (S (c_k x)) t a Ha Hs Hm)|].
  cbn [conf]. unfold start. rewrite B. set (y := mkC _ _ _ _ _ _) in *. change (toks x) with (toks y).
  refine (R_nor _ y JText _ eq_refl eq_refl H1 _). intros nt _ Wn. exact (IH (CBreakText nt) (nextc y) _ Wn H1).
Qed.
Lemma r_cruisec t x s : rel x s -> R (b_cruise_climb_c (run G d) t) (tickc x) (fun k => conf (CCruiseC t) k s (toks x)).
Proof.
  intro H. unfold b_cruise_climb_c. cbn [conf]. refine (R_next _ (tickc x) (JC t) s eq_refl _ _).
  - intros nt _ W. pose proof (rel_rec (nextc (tickc x)) s 0 t H) as H'. destruct (t_base nt) eqn:Eb; try leaf Eb W H; try (apply R_rec; leaf Eb W H').
    eapply R_ext; [|refine (R_next _ (nextc (tickc x)) (JClimb t nt) s eq_refl _ _)].
    + intro k. unfold read, suits, spot, fits. rewrite Eb. reflexivity.
    + intros n2 _ W2. exact (IH (CCruisePoint n2) (nextc (nextc (tickc x))) s W2 H).
    + intro T. apply R_rec. exact (R_last_error d nt 52 (recc (nextc (nextc (tickc x))) 0 t) _ eq_refl T (rel_rec (nextc (nextc (tickc x))) s 0 t H)).
  - intro T. apply R_rec. exact (R_ret (recc (nextc (tickc x)) 0 t) _ (rel_rec (nextc (tickc x)) s 0 t H)).
Qed.
Lemma r_cruisepoint t x s : wt t -> rel x s -> R (b_cruise_climb_point G (run G d) t) (tickc x) (fun k => conf (CCruisePoint t) k s (toks x)).
Proof.
  intros W H. unfold b_cruise_climb_point. apply R_rec. pose proof (rel_rec (tickc x) s 0 t H) as H1. set (x1 := recc _ _ _) in *. 
  eapply (R_step _ _ x1 _ (mkC (c_cur x1) (pt_prev G t (c_l x1) (c_p x1)) (pt_rec G t (c_p x1)) (c_errs x1 ++ pt_errs t) (c_us x1) (c_k x1)));
    [exact (assign_ll_eq G L _ t (c_l x1) (c_p x1) (c_errs x1) ru (c_k x1) W)|].
  pose proof (rel_pt x1 _ t (c_cur x1) (c_us x1) (c_k x1) W H1) as H2. cbn [conf]. set (y := mkC _ _ _ _ _ _) in *. change (toks x) with (toks y). set (s2 := report _ _ _) in *.
  assert (Rest : forall z q, rel z q -> R (o2 <- tok_next ;;
      match o2 with
      | None => run G d (CErrSync t 28)
      | Some nt2 =>
          match t_base nt2 with
          | F15_SPEED_ALTITUDE_ALTITUDE => run G d (CSpdAltAlt nt2)
          | F15_SPEED_ALTITUDE_PLUS => run G d (CSpdAltPlus nt2)
          | _ => run G d (CErrSync nt2 29)
          end ;;;
          next_or_return (fun nt3 => run G d (CPoint nt3))
      end) z (fun k => Goes (JClimbSl t :: k) q (toks z))).
  { intros z q Hz. apply R_next; [reflexivity| |].
    - intros n2 _ W2.
      assert (K : R (match t_base n2 with F15_SPEED_ALTITUDE_ALTITUDE => run G d (CSpdAltAlt n2) | F15_SPEED_ALTITUDE_PLUS => run G d (CSpdAltPlus n2) | _ => run G d (CErrSync n2 29) end) (nextc z)
        (fun k => match t_base n2 with F15_SPEED_ALTITUDE_ALTITUDE | F15_SPEED_ALTITUDE_PLUS => start n2 k q (toks (nextc z)) | _ => Goes (JSync :: k) (report n2 [29%Z] q) (toks (nextc z)) end)).
      { destruct (t_base n2) eqn:E2; try exact (IH (CErrSync n2 29) (nextc z) q eq_refl Hz); [exact (IH (CSpdAltAlt n2) (nextc z) q (conj W2 E2) Hz)|exact (IH (CSpdAltPlus n2) (nextc z) q (conj W2 E2) Hz)]. }
      eapply R_ext; [|exact (R_bind [JAsPoint] _ _ _ _ K R_tail)]. intro k. unfold read, wrong, suits, spot, fits, misplaced. destruct (t_base n2); reflexivity.
    - intro T. exact (R_last_error d t 28 (nextc z) q eq_refl T Hz). }
  apply R_next; [reflexivity| |].
  - intros nt _ Wn. destruct (base_eqb (t_base nt) F15_SLASH) eqn:Es; cbn [negb].
    + apply R_retb. apply base_eqb_eq in Es. eapply R_ext; [|exact (Rest (nextc y) s2 H2)]. intro k. unfold read, suits, spot, fits. rewrite Es. reflexivity.
    + eapply R_ext; [|exact (R_bind [JClimbSl t] _ _ _ _ (IH (CErrSync nt 26) (nextc y) s2 eq_refl H2) Rest)].
      intro k. unfold read, wrong, suits, spot, fits, misplaced. cbn [conf]. destruct (t_base nt); try reflexivity. discriminate Es.
  - intro T. exact (R_last_error d t 27 (nextc y) s2 eq_refl T H2).
Qed.
Lemma toks_eq x t r : toks x = t :: r -> nth_error L (S (c_cur x)) = Some t /\ toks (nextc x) = r /\ wt t.
Proof.
  intro E. pose proof (toks_next x) as T. destruct (nth_error L (S (c_cur x))) as [u|]; [|destruct T; congruence].
  destruct T as [T W]. rewrite E in T. injection T as -> ->. auto.
Qed.
Lemma R_take (f : option token -> M unit) x t r0 r : toks x = t :: r0 -> R (f (Some t)) (nextc x) r -> R (bind tok_next f) x r.
Proof. intros E K. destruct (toks_eq x t r0 E) as (N & _). eapply R_step; [apply tok_next_st|]. now rewrite N. Qed.
Lemma r_vtoi x s : (exists p sl sp r, toks x = p :: sl :: sp :: r /\ t_base sp = F15_SPEED_ALTITUDE) -> rel x s ->
  R (b_v_to_i G (run G d)) (tickc x) (fun k => conf CVtoI k s (toks x)).
Proof.
  intros (p & sl & sp & r & E & B) H. unfold b_v_to_i. destruct (toks_eq x p _ E) as (_ & E2 & W). destruct (toks_eq (nextc x) sl _ E2) as (_ & E3 & _). destruct (toks_eq (nextc (nextc x)) sp _ E3) as (_ & E4 & W3).
  apply (R_take _ (tickc x) p _ _ E). apply R_deref, R_rec. pose proof (rel_rec (nextc (tickc x)) s 0 p H) as H1. set (x1 := recc _ _ _) in *.
  eapply (R_step _ _ x1 _ (mkC (c_cur x1) (pt_prev G p (c_l x1) (c_p x1)) (pt_rec G p (c_p x1)) (c_errs x1 ++ pt_errs p) (c_us x1) (c_k x1)));
    [exact (check_sem_eq G L _ p (c_l x1) (c_p x1) (c_errs x1) ru (c_k x1) W)|].
  pose proof (rel_pt x1 _ p (c_cur x1) (c_us x1) (c_k x1) W H1) as H2. set (y := mkC _ _ _ _ _ _) in *. 
  apply R_deref, R_updl; [cbn [c_l y]; now rewrite pt_prev_length|]. pose proof (rel_rules y _ ($"IFR") H2) as H3. change RULE_I with ($"IFR"). set (z := with_p _ _) in *.
  apply (R_take _ z sl (sp :: r)); [exact E2|]. apply (R_take _ (nextc z) sp r); [exact E3|]. apply R_deref.
  eapply R_pre; [|exact (IH (CSpdAlt sp) (nextc (nextc z)) _ (conj W3 B) H3)]. intro k. cbn [conf]. rewrite E. constructor. rewrite step_read by reflexivity. unfold read, start. rewrite B.
  change (base_eqb F15_SPEED_ALTITUDE F15_SPEED_VFR) with false. cbv iota. change (toks (nextc (nextc z))) with (toks (nextc (nextc (nextc x)))). rewrite E4.
  assert (Oa : only_adep (rules ($"IFR") (report p (angle_faults p) (locates p (add p s)))) = false).
  { unfold only_adep, rules, with_last, report, locates, with_last, add, add_as. cbn [n_before]. destruct (n_before s); reflexivity. }
  rewrite Oa. constructor.
Qed.
Lemma r_vtoitov x s : (exists p sl sp r, toks x = p :: sl :: sp :: r /\ t_base sp = F15_SPEED_VFR) -> rel x s ->
  R (b_v_to_i_to_v (run G d)) (tickc x) (fun k => conf CVtoItoV k s (toks x)).
Proof.
  intros (p & sl & sp & r & E & B) H. unfold b_v_to_i_to_v. destruct (toks_eq x p _ E) as (_ & E2 & W). destruct (toks_eq (nextc x) sl _ E2) as (_ & E3 & _). destruct (toks_eq (nextc (nextc x)) sp _ E3) as (_ & E4 & W3).
  apply (R_take _ (tickc x) p _ _ E). apply R_deref, R_rec. pose proof (rel_rec (nextc (tickc x)) s 0 p H) as H1. set (y := recc _ _ _) in *.
  apply R_deref, R_updl; [reflexivity|]. pose proof (rel_rules y _ ($"IFR") H1) as H3. change RULE_I with ($"IFR"). set (z := with_p _ _) in *.
  apply (R_take _ z sl (sp :: r)); [exact E2|]. apply (R_take _ (nextc z) sp r); [exact E3|]. apply R_deref.
  eapply R_pre; [|exact (IH (CSpdVfr sp) (nextc (nextc z)) _ (conj W3 B) H3)]. intro k. cbn [conf]. rewrite E. constructor. rewrite step_read by reflexivity. unfold read, start. rewrite B.
  change (base_eqb F15_SPEED_VFR F15_SPEED_VFR) with true. cbv iota. change (toks (nextc (nextc z))) with (toks (nextc (nextc (nextc x)))). rewrite E4. constructor.
Qed.
End Step.

(** Every run of a method is a run of the machine. *)
Theorem run_R d : forall c x s, pre c x -> rel x s -> R (run G d c) x (fun k => conf c k s (toks x)).
Proof.
  induction d as [|d IH]; intros c x s P H; [exact I|]. cbn [run]. eapply (R_step _ _ x tt (tickc x)); [apply tick_eq|].
  destruct c; cbn [body]; cbn [pre] in P;
  [ exact (r_errsync d IH _ _ _ _ P H) | exact (r_resync d IH _ _ H)
  | exact (r_sa d IH _ _ _ (proj1 P) (proj2 P) H) | exact (r_saa d IH _ _ _ (proj1 P) (proj2 P) H) | exact (r_sap d IH _ _ _ (proj1 P) (proj2 P) H) | exact (r_vfr d IH _ _ _ (proj1 P) (proj2 P) H)
  | exact (r_breakend d IH _ _ _ P H) | exact (r_bee d IH _ _ _ P H) | exact (r_breakstart d IH _ _ _ P H) | exact (r_breaktext d IH _ _ _ P H)
  | exact (r_cruisec d IH _ _ _ H) | exact (r_cruisepoint d IH _ _ _ P H) | exact (r_dct d IH _ _ _ P H) | exact (r_slash d IH _ _ _ H)
  | exact (r_postadep d IH _ _ _ P H) | exact (r_postpoint d IH _ _ _ P H) | exact (r_postsid d IH _ _ H) | exact (r_point d IH _ _ _ P H)
  | exact (r_route d IH _ _ _ P H) | exact (r_sid d IH _ _ _ P H) | exact (r_sidstar d IH _ _ _ P H) | exact (r_star d IH _ _ _ P H)
  | exact (r_stay d IH _ _ _ H) | exact (r_staytime d IH _ _ _ (proj1 P) (proj2 P) H) | exact (r_truncate d IH _ _ H)
  | exact (r_vtoi d IH _ _ P H) | exact (r_vtoitov d IH _ _ P H) ].
Qed.
End L.
End G.
