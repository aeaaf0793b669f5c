(** * ParserInv: invariants of all runs, from the events of [Trace]. *)
From Coq Require Import ZArith NArith List Bool String Lia.
From Coq Require Import Floats.SpecFloat.
From Coq Require Import ZifyBool ZifyNat ZifyN.
From Verif Require Import PyBase PyFloat Enums ErrorTable Regex SyntaxTable Syntax Tokenizer Ers Utils Parser.
From Verif Require Import TokenizerProofs RegexProofs SyntaxProofs SpecNum NumTables NumProofs ParserPrims PerfEq PointEq Trace ParseTrace SpecParser.
Import List ListNotations.
Local Open Scope list_scope.
Local Open Scope nat_scope.

(** ** Bearing and distance updates of earlier records *)
Section AziMap.
Variable G : geodesic.
Variables (B : Type) (f : rrec -> B).
Hypothesis Hf : forall r a b, f (set_r_dist b (set_r_brg a r)) = f r.
Lemma set_bd_map q p : f (set_bd G q p) = f q.
Proof. unfold set_bd. cbv zeta. apply Hf. Qed.
Lemma azi_map l p : map f (azi G l p) = map f l.
Proof.
  unfold azi. destruct (r_llv p); [|reflexivity].
  assert (E : l = rev (rev l)) by now rewrite rev_involutive. destruct (rev l) as [|q m]; [reflexivity|]. rewrite E. cbn [rev].
  destruct (r_llv q); [now rewrite !map_app; cbn [map]; rewrite set_bd_map|].
  destruct m as [|q2 m2]; [reflexivity|]. destruct (r_llv q2); [|reflexivity].
  cbn [rev]. rewrite !map_app. cbn [map]. rewrite set_bd_map, <- app_assoc. reflexivity.
Qed.
Lemma pt_prev_map t l p : map f (pt_prev G t l p) = map f l.
Proof. unfold pt_prev. destruct (t_sub t); rewrite ?azi_map; reflexivity. Qed.
End AziMap.

(** Fields untouched by the coordinate computation. *)
Definition keeps {B} (f : rrec -> B) : Prop :=
  (forall r v, f (set_r_lat v r) = f r) /\ (forall r v, f (set_r_lon v r) = f r) /\ (forall r v, f (set_r_brg v r) = f r) /\
  (forall r v, f (set_r_dist v r) = f r) /\ (forall r v, f (set_r_llv v r) = f r).
Lemma keeps_pt {B} (f : rrec -> B) G : keeps f -> forall t p, f (pt_rec G t p) = f p.
Proof.
  intros (H1 & H2 & H3 & H4 & H5) t p. unfold pt_rec, set_coords, move_bd. destruct (t_sub t); rewrite ?H5, ?H2, ?H1, ?H5, ?H2, ?H1; reflexivity.
Qed.
Lemma keeps_prev {B} (f : rrec -> B) G : keeps f -> forall t l p, map f (pt_prev G t l p) = map f l.
Proof. intros (_ & _ & H3 & H4 & _) t l p. apply pt_prev_map. intros. now rewrite H4, H3. Qed.

(** Identity of a record. *)
Definition ident (r : rrec) := (r_name r, r_start r, r_end r, (r_base r, r_sub r)).
Lemma keeps_ident : keeps ident.
Proof. repeat split; intros []; reflexivity. Qed.
Lemma ident_break t r : ident (append_break_text t r) = ident r.
Proof. unfold append_break_text. destruct (pstr_eqb _ _); reflexivity. Qed.

(** ** Exact form of the speeds and levels *)
Definition lvl_text (s : pstr) : Prop :=
  exists c ds, s = c :: ds /\ In c [70; 65; 83; 77]%N /\ all_digits ds /\ zlen ds = (if is_feet c then 3 else 4)%Z.
Definition spd_text (s : pstr) : Prop :=
  exists c ds, s = c :: ds /\ In c [75; 78; 77]%N /\ all_digits ds /\ zlen ds = (if N.eqb c 77 then 3 else 4)%Z.
Definition dig : list (N * N) := [(48, 57)]%N.
Definition one_of (l : list (list (list (N * N)))) (sh : shape) : bool := existsb (shape_incl sh) l.
Definition sh_lvl : list shape :=
  [[(70, 70)] :: repeat dig 3; [(65, 65)] :: repeat dig 3; [(83, 83)] :: repeat dig 4; [(77, 77)] :: repeat dig 4]%N.
Definition sh_spd : list shape := [[(75, 75)] :: repeat dig 4; [(78, 78)] :: repeat dig 4; [(77, 77)] :: repeat dig 3]%N.
Lemma shape_lit1 c sh s : shape_in ([(c, c)] :: sh) s -> exists s', s = c :: s' /\ shape_in sh s'.
Proof.
  intro H. inversion H as [|? d ? s' H1 H2]; subst. exists s'. split; [|exact H2]. unfold in_ranges in H1. cbn in H1. f_equal. lia.
Qed.
Lemma shape_digs n : forall s, shape_in (repeat dig n) s -> all_digits s /\ length s = n.
Proof.
  induction n as [|n IH]; intros s H; inversion H as [|? d ? s' H1 H2]; subst; [split; [intros ? []|reflexivity]|].
  destruct (IH _ H2) as [A B]. split; [|cbn; now rewrite B]. unfold in_ranges in H1. cbn in H1. intros c [<-|K]; [lia|now apply A].
Qed.
Lemma one_of_spec l sh s : one_of l sh = true -> shape_in sh s -> exists sh', In sh' l /\ shape_in sh' s.
Proof. intros H K. apply existsb_exists in H as (sh' & H1 & H2). exists sh'. split; [exact H1|]. now apply (shape_incl_sound sh). Qed.
Lemma sh_lvl_spec sh s : one_of sh_lvl sh = true -> shape_in sh s -> lvl_text s.
Proof.
  intros H K. destruct (one_of_spec _ _ _ H K) as (sh' & H1 & H2).
  destruct H1 as [<-|[<-|[<-|[<-|[]]]]]; apply shape_lit1 in H2 as (ds & -> & H2); apply shape_digs in H2 as [A B];
    eexists _, ds; (split; [reflexivity|]); (split; [cbn; tauto|]); (split; [exact A|]); unfold zlen; rewrite B; reflexivity.
Qed.
Lemma sh_spd_spec sh s : one_of sh_spd sh = true -> shape_in sh s -> spd_text s.
Proof.
  intros H K. destruct (one_of_spec _ _ _ H K) as (sh' & H1 & H2).
  destruct H1 as [<-|[<-|[<-|[]]]]; apply shape_lit1 in H2 as (ds & -> & H2); apply shape_digs in H2 as [A B];
    eexists _, ds; (split; [reflexivity|]); (split; [cbn; tauto|]); (split; [exact A|]); unfold zlen; rewrite B; reflexivity.
Qed.
Definition sa_ok2 (sb : sub_type) (sh : shape) : bool :=
  match sa_cut sb with Some a => one_of sh_spd (sl sh 0 (Some a)) && one_of sh_lvl (sl sh a None) | None => false end.
Definition saa_ok2 (sb : sub_type) (sh : shape) : bool :=
  match saa_cut sb with Some (a, b, c) => one_of sh_spd (sl sh 0 (Some a)) && one_of sh_lvl (sl sh a (Some b)) | None => false end.
Definition sap_ok2 (sb : sub_type) (sh : shape) : bool :=
  match sap_cut sb with Some (a, b) => one_of sh_spd (sl sh 0 (Some a)) && one_of sh_lvl (sl sh a (Some b)) | None => false end.
Definition vfr_ok2 (sb : sub_type) (sh : shape) : bool :=
  match vfr_cut sb with Some a => one_of sh_spd (sl sh 0 (Some a)) | None => false end.
Lemma sa_all2 : all_rows F15_SPEED_ALTITUDE sa_ok2 = true. Proof. vm_compute. reflexivity. Qed.
Lemma saa_all2 : all_rows F15_SPEED_ALTITUDE_ALTITUDE saa_ok2 = true. Proof. vm_compute. reflexivity. Qed.
Lemma sap_all2 : all_rows F15_SPEED_ALTITUDE_PLUS sap_ok2 = true. Proof. vm_compute. reflexivity. Qed.
Lemma vfr_all2 : all_rows F15_SPEED_VFR vfr_ok2 = true. Proof. vm_compute. reflexivity. Qed.
Lemma sa_text t a : wt t -> t_base t = F15_SPEED_ALTITUDE -> sa_cut (t_sub t) = Some a -> spd_text (text_to a t) /\ lvl_text (text_from a t).
Proof.
  intros H Hb Ha. destruct (all_rows_spec F15_SPEED_ALTITUDE _ t ltac:(discriminate) ltac:(discriminate) H Hb sa_all2) as (sh & Hs & K).
  unfold sa_ok2 in K. rewrite Ha in K. apply andb_true_iff in K as [K1 K2].
  split; [apply (sh_spd_spec _ _ K1)|apply (sh_lvl_spec _ _ K2)]; now apply shape_slice.
Qed.
Lemma saa_text t a b c : wt t -> t_base t = F15_SPEED_ALTITUDE_ALTITUDE -> saa_cut (t_sub t) = Some (a, b, c) -> spd_text (text_to a t) /\ lvl_text (text_mid a b t).
Proof.
  intros H Hb Ha. destruct (all_rows_spec F15_SPEED_ALTITUDE_ALTITUDE _ t ltac:(discriminate) ltac:(discriminate) H Hb saa_all2) as (sh & Hs & K).
  unfold saa_ok2 in K. rewrite Ha in K. apply andb_true_iff in K as [K1 K2].
  split; [apply (sh_spd_spec _ _ K1)|apply (sh_lvl_spec _ _ K2)]; now apply shape_slice.
Qed.
Lemma sap_text t a b : wt t -> t_base t = F15_SPEED_ALTITUDE_PLUS -> sap_cut (t_sub t) = Some (a, b) -> spd_text (text_to a t) /\ lvl_text (text_mid a b t).
Proof.
  intros H Hb Ha. destruct (all_rows_spec F15_SPEED_ALTITUDE_PLUS _ t ltac:(discriminate) ltac:(discriminate) H Hb sap_all2) as (sh & Hs & K).
  unfold sap_ok2 in K. rewrite Ha in K. apply andb_true_iff in K as [K1 K2].
  split; [apply (sh_spd_spec _ _ K1)|apply (sh_lvl_spec _ _ K2)]; now apply shape_slice.
Qed.
Lemma vfr_text t a : wt t -> t_base t = F15_SPEED_VFR -> vfr_cut (t_sub t) = Some a -> spd_text (text_to a t).
Proof.
  intros H Hb Ha. destruct (all_rows_spec F15_SPEED_VFR _ t ltac:(discriminate) ltac:(discriminate) H Hb vfr_all2) as (sh & Hs & K).
  unfold vfr_ok2 in K. rewrite Ha in K. apply (sh_spd_spec _ _ K). now apply shape_slice.
Qed.
(** Texts N dddd A dddd (S|M) dddd. *)
Definition na_shape (c : N) : shape := ([(78, 78)] :: repeat dig 4 ++ [(65, 65)] :: repeat dig 4 ++ [(c, c)] :: repeat dig 4)%N.
Lemma na_all : all_rows F15_SPEED_ALTITUDE_ALTITUDE (fun sb sh => negb (is_na_sm sb) || one_of [na_shape 83; na_shape 77] sh) = true.
Proof. vm_compute. reflexivity. Qed.
Lemma shape_app a b s : shape_in (a ++ b) s -> exists s1 s2, s = s1 ++ s2 /\ shape_in a s1 /\ shape_in b s2.
Proof. intro H. apply Forall2_app_inv_l in H as (s1 & s2 & H1 & H2 & ->). now exists s1, s2. Qed.
Lemma na_base : forall sb, is_na_sm sb = true -> forallb (fun x => negb (sub_eqb (snd (sr_types x)) sb) || base_eqb (fst (sr_types x)) F15_SPEED_ALTITUDE_ALTITUDE) shape_table = true.
Proof. intros sb H. destruct sb; try discriminate H; vm_compute; reflexivity. Qed.
Lemma na_text t : wt t -> is_na_sm (t_sub t) = true -> raising_text (t_text t).
Proof.
  intros H Hn. assert (Hb : t_base t = F15_SPEED_ALTITUDE_ALTITUDE).
  { unfold wt, classify in H. destruct (_ <? _)%Z; [injection H as H1 H2; rewrite <- H2 in Hn; discriminate|].
    destruct (typed_in_table (t_text t)) as [E|(x & Hx & Ex & _)]; [rewrite E in H; injection H as H1 H2; rewrite <- H2 in Hn; discriminate|].
    rewrite H in Ex. pose proof (na_base _ Hn) as R. rewrite forallb_forall in R. specialize (R x Hx). rewrite Ex in R. cbn [fst snd] in R.
    rewrite sub_eqb_refl in R. cbn [negb orb] in R. now apply base_eqb_eq. }
  destruct (all_rows_spec F15_SPEED_ALTITUDE_ALTITUDE _ t ltac:(discriminate) ltac:(discriminate) H Hb na_all) as (sh & Hs & K).
  rewrite Hn in K. cbn [negb orb] in K. destruct (one_of_spec _ _ _ K Hs) as (sh' & H1 & H2).
  assert (C : exists c, (c = 83%N \/ c = 77%N) /\ sh' = na_shape c) by (destruct H1 as [<-|[<-|[]]]; eauto). destruct C as (x & Hx & ->).
  unfold na_shape in H2. apply shape_lit1 in H2 as (s1 & -> & H2). apply shape_app in H2 as (a & s2 & -> & Ha & H2).
  apply shape_lit1 in H2 as (s3 & -> & H2). apply shape_app in H2 as (b & s4 & -> & Hb' & H2). apply shape_lit1 in H2 as (c & -> & Hc).
  apply shape_digs in Ha as [A1 A2]. apply shape_digs in Hb' as [B1 B2]. apply shape_digs in Hc as [C1 C2].
  exists a, b, c, x. unfold zlen. rewrite A2, B2, C2. auto 9.
Qed.

Section Inv.
Variable G : geodesic.
Variable L : list token.
Hypothesis HL : Forall wt L.
Notation ev := (ev G L).
Notation reach := (reach G L).

(** Invariants about all records so far. *)
Definition recs (x : cfg) : list rrec := c_l x ++ [c_p x].

(** Pointwise invariants. *)
Definition all_recs (P : rrec -> Prop) (x : cfg) : Prop := Forall P (c_l x) /\ P (c_p x).
Lemma all_recs_recs P x : all_recs P x <-> Forall P (recs x).
Proof.
  unfold all_recs, recs. rewrite Forall_app. split; intros [A B]; split; auto; inversion B; assumption.
Qed.
Lemma Forall_map_eq {B} (f : rrec -> B) (P : B -> Prop) l l' : map f l = map f l' -> Forall (fun r => P (f r)) l -> Forall (fun r => P (f r)) l'.
Proof. intros E H. apply (proj1 (Forall_map f P l')). rewrite <- E. now apply (proj2 (Forall_map f P l)). Qed.

(** *** Rules *)
Definition rules_ok (s : pstr) : Prop := In s [[]; $"IFR"; $"VFR"; $"OAT"; $"IFPS"].
Lemma a_rule_ok r : a_rule r -> rules_ok r.
Proof. unfold a_rule, rules_ok. intros [->|[->|[->| ->]]]; [right; left|right; right; left|do 3 right; left|do 4 right; left]; reflexivity. Qed.
Lemma keeps_rules : keeps r_rules.
Proof. repeat split; intros []; reflexivity. Qed.
Lemma rules_break t r : r_rules (append_break_text t r) = r_rules r.
Proof. unfold append_break_text. destruct (pstr_eqb _ _); reflexivity. Qed.
Lemma ev_rules x y : all_recs (fun r => rules_ok (r_rules r)) x -> ev x y -> all_recs (fun r => rules_ok (r_rules r)) y.
Proof.
  intros [Hl Hp] E. destruct E; unfold all_recs in *; cbn [tickc nextc errc recc with_p with_p_errs ptc vfrc c_l c_p] in *;
    try (split; [exact Hl|exact Hp]).
  - split; [apply Forall_app; split; [exact Hl|constructor; [exact Hp|constructor]]|exact Hp].
  - split; [exact Hl|]. now apply a_rule_ok.
  - split; [exact Hl|]. apply a_rule_ok. left. reflexivity.
  - split; [exact Hl|]. apply a_rule_ok. left. reflexivity.
  - split; [exact Hl|]. apply a_rule_ok. left. reflexivity.
  - split; [apply Forall_app; split; [exact Hl|constructor; [exact Hp|constructor]]|]. apply a_rule_ok. right. left. reflexivity.
  - split; [exact Hl|]. now rewrite rules_break.
  - split; [|now rewrite (keeps_pt _ G keeps_rules)]. eapply (Forall_map_eq r_rules rules_ok); [|exact Hl]. symmetry. apply (keeps_prev _ G keeps_rules).
Qed.
Lemma reach_rules k y : reach (cfg0 k) y -> Forall (fun r => rules_ok (r_rules r)) (recs y).
Proof.
  intro R. apply all_recs_recs. apply (reach_ind_inv G L (all_recs (fun r => rules_ok (r_rules r))) ev_rules _ _ R).
  split; [constructor|now left].
Qed.

(** *** Errors *)
Definition err_ok (e : rrec) : Prop := exists t m, In t L /\ defined_error m = true /\ e = err t m.
Lemma lvl_errs_ok t s : In t L -> Forall err_ok (lvl_errs t s).
Proof. intro H. unfold lvl_errs. destruct s as [|c ds]; [constructor|]. destruct (_ && _)%bool; constructor; [|constructor]. now exists t, 40%Z. Qed.
Lemma err_if_ok (b : bool) t m : In t L -> defined_error m = true -> Forall err_ok (if b then [] else [err t m]).
Proof. intros H D. destruct b; constructor; [|constructor]. now exists t, m. Qed.
Lemma pt_errs_ok t : In t L -> Forall err_ok (pt_errs t).
Proof.
  intro H. assert (D : Forall err_ok (errs_deg t)).
  { unfold errs_deg. destruct (t_text t) as [|? [|? [|? [|? [|? [|? [|? ?]]]]]]]; try constructor. apply Forall_app. split; apply err_if_ok; auto. }
  assert (Mi : Forall err_ok (errs_min t)).
  { unfold errs_min. destruct (t_text t) as [|? [|? [|? [|? [|? [|? [|? [|? [|? [|? [|? ?]]]]]]]]]]]; try constructor. apply Forall_app. split; apply err_if_ok; auto. }
  assert (Br : Forall err_ok (errs_brg t)) by (apply err_if_ok; auto).
  unfold pt_errs. destruct (t_sub t); try constructor; try assumption; apply Forall_app; auto.
Qed.
Lemma ev_err_ok x y : Forall err_ok (c_errs x) -> ev x y -> Forall err_ok (c_errs y).
Proof.
  intros H E. destruct E; cbn [tickc nextc errc recc with_p with_p_errs ptc vfrc c_errs] in *; try exact H; apply Forall_app; split; auto.
  - constructor; [|constructor]. now exists t, n.
  - now apply lvl_errs_ok.
  - now apply lvl_errs_ok.
  - apply Forall_app. split; now apply lvl_errs_ok.
  - now apply pt_errs_ok.
Qed.
Lemma reach_err_ok k y : reach (cfg0 k) y -> Forall err_ok (c_errs y).
Proof. intro R. apply (reach_ind_inv G L (fun x => Forall err_ok (c_errs x)) ev_err_ok _ _ R). constructor. Qed.

(** *** Origin of the records *)
Definition from_tok (j : nat) (i : pstr * Z * Z * (base_type * sub_type)) : Prop :=
  exists t, nth_error L j = Some t /\
    let '(nm, a, b, ty) := i in
    a = t_start t /\ b = t_end t /\ (nm = t_text t \/ (t_base t = F15_SPEED_VFR /\ nm = $"VFR")) /\
    (ty = (t_base t, t_sub t) \/ (proc_base (t_base t) = true /\ In ty sid_star_types)).
Definition origin (x : cfg) : Prop :=
  NoDup (c_us x) /\ exists rest, map ident (recs x) = ident adep0 :: rest /\ Forall2 from_tok (c_us x) rest.
Lemma app_single_inv {A} (l l' : list A) a b : l ++ [a] = l' ++ [b] -> l = l' /\ a = b.
Proof. intro H. now apply app_inj_tail in H. Qed.
Lemma rev_case {A} (l : list A) : l = [] \/ exists l' a, l = l' ++ [a].
Proof. destruct l as [|a l]; [now left|right]. destruct (@exists_last _ (a :: l)) as (l' & b & E); [discriminate|]. eauto. Qed.
Lemma NoDup_snoc {A} (l : list A) a : NoDup l -> ~ In a l -> NoDup (l ++ [a]).
Proof.
  induction l as [|b l IH]; intros H K; [constructor; auto|]. inversion H; subst. cbn [app]. constructor.
  - intro X. apply in_app_or in X as [X|[X|[]]]; [tauto|]. subst. apply K. now left.
  - apply IH; [assumption|]. intro X. apply K. now right.
Qed.
Lemma origin_keep x y : c_us y = c_us x -> map ident (recs y) = map ident (recs x) -> origin x -> origin y.
Proof. intros E1 E2 (N & r & H1 & H2). split; [now rewrite E1|]. exists r. now rewrite E1, E2. Qed.
Lemma recs_map_p {B} (f : rrec -> B) x p : f p = f (c_p x) -> map f (c_l x ++ [p]) = map f (recs x).
Proof. intro H. unfold recs. rewrite !map_app. cbn [map]. now rewrite H. Qed.
Lemma ev_origin x y : origin x -> ev x y -> origin y.
Proof.
  intros O E. destruct E; try exact O;
    try (revert O; apply origin_keep; [reflexivity|unfold recs at 1; cbn [with_p with_p_errs c_l c_p]; apply recs_map_p; reflexivity]).
  - destruct O as (N & r & E1 & F). split; [now apply NoDup_snoc|]. exists (r ++ [ident (tok_rec t)]). split.
    + unfold recs. cbn [recc c_l c_p]. rewrite map_app. fold (recs x). rewrite E1. cbn [map app]. reflexivity.
    + apply Forall2_app; [exact F|]. constructor; [|constructor]. exists t. split; [assumption|]. cbn. auto 6.
  - destruct O as (N & r & E1 & F). split; [now apply NoDup_snoc|]. exists (r ++ [ident (tok_rec (set_token_string t ($"VFR")))]). split.
    + unfold recs. cbn [vfrc c_l c_p]. rewrite map_app. rewrite (recs_map_p ident x) by reflexivity. rewrite E1. reflexivity.
    + apply Forall2_app; [exact F|]. constructor; [|constructor]. exists t. split; [assumption|]. cbn. auto 7.
  - revert O. apply origin_keep; [reflexivity|]. unfold recs at 1. cbn [with_p c_l c_p]. apply recs_map_p. apply ident_break.
  - destruct O as (N & r & E1 & F). split; [exact N|]. unfold recs in *. cbn [with_p c_l c_p c_us]. rewrite map_app in *. cbn [map] in *.
    destruct (rev_case r) as [->|(r' & i & ->)].
    + apply (app_single_inv _ []) in E1 as [E1 E2]. exfalso. apply (f_equal (fun i => fst (snd i))) in E2. cbn in E2. rewrite E2 in H0. discriminate.
    + change (ident adep0 :: r' ++ [i]) with ((ident adep0 :: r') ++ [i]) in E1. apply app_single_inv in E1 as [E1 <-].
      exists (r' ++ [ident (retype b sb (c_p x))]). split; [rewrite E1; reflexivity|].
      apply Forall2_app_inv_r in F as (u1 & u2 & F1 & F2 & ->). apply Forall2_app; [exact F1|].
      inversion F2 as [|j ? ? ? Fj Fn]; subst. inversion Fn; subst. constructor; [|constructor].
      destruct Fj as (t & Ht & Fj). exists t. split; [exact Ht|]. cbn in Fj |- *. destruct Fj as (A & B & C & D). repeat (split; [assumption|]).
      right. split; [|exact H]. destruct D as [D|[D _]]; [|exact D]. injection D as D _. now rewrite <- D.
  - revert O. apply origin_keep; [reflexivity|]. unfold recs. cbn [ptc c_l c_p]. rewrite !map_app. cbn [map].
    rewrite (keeps_prev _ G keeps_ident), (keeps_pt _ G keeps_ident). reflexivity.
Qed.
Lemma reach_origin k y : reach (cfg0 k) y -> origin y.
Proof.
  intro R. apply (reach_ind_inv G L origin ev_origin _ _ R). split; [constructor|]. exists []. split; [reflexivity|constructor].
Qed.

(** *** Speed and level *)
Definition perf (r : rrec) := (r_alt r, r_alt_si r, r_speed r, r_speed_si r).
Definition perf_ok (q : pstr * pynum * pstr * pynum) : Prop :=
  q = ([], PyZeroFloat, [], PyZeroFloat) \/
  exists s v, lvl_text s /\ spd_text v /\ q = (s, PyInt (lvl_si s), v, PyInt (spd_si v (lvl_si s))).
Lemma keeps_perf : keeps perf.
Proof. repeat split; intros []; reflexivity. Qed.
Lemma perf_break t r : perf (append_break_text t r) = perf r.
Proof. unfold append_break_text. destruct (pstr_eqb _ _); reflexivity. Qed.
Lemma perf_copy r q : perf (copy_perf r q) = perf r.
Proof. reflexivity. Qed.
Lemma default_text : lvl_text DEFAULT_ALTITUDE.
Proof. exists 70%N, ($"050"). split; [reflexivity|]. split; [now left|]. split; [|reflexivity]. apply all_digits_forallb. reflexivity. Qed.
Lemma ev_perf x y : all_recs (fun r => perf_ok (perf r)) x -> ev x y -> all_recs (fun r => perf_ok (perf r)) y.
Proof.
  intros [Hl Hp] E. destruct E; unfold all_recs in *; cbn [tickc nextc errc recc with_p with_p_errs ptc vfrc c_l c_p] in *;
    try (split; [exact Hl|exact Hp]).
  - split; [apply Forall_app; split; [exact Hl|constructor; [exact Hp|constructor]]|exact Hp].
  - split; [exact Hl|]. right. exists (text_from a t), (text_to a t). rewrite Forall_forall in HL. destruct (sa_text t a (HL _ H) H0 H1). auto.
  - split; [exact Hl|]. right. exists (text_mid a b t), (text_to a t). rewrite Forall_forall in HL. destruct (sap_text t a b (HL _ H) H0 H1). auto.
  - split; [exact Hl|]. right. exists (text_mid a b t), (text_to a t). rewrite Forall_forall in HL. destruct (saa_text t a b c (HL _ H) H0 H1). auto.
  - assert (P : perf_ok (perf (vfr_rec a t (c_p x)))).
    { right. exists DEFAULT_ALTITUDE, (text_to a t). rewrite Forall_forall in HL.
      split; [apply default_text|]. split; [exact (vfr_text t a (HL _ (nth_error_In _ _ H)) H2 H3)|reflexivity]. }
    split; [|exact P]. apply Forall_app. split; [exact Hl|]. constructor; [|constructor]. rewrite perf_copy. exact P.
  - split; [exact Hl|]. now rewrite perf_break.
  - split; [|now rewrite (keeps_pt _ G keeps_perf)]. eapply (Forall_map_eq perf perf_ok); [|exact Hl]. symmetry. apply (keeps_prev _ G keeps_perf).
Qed.
Lemma reach_perf k y : reach (cfg0 k) y -> Forall (fun r => perf_ok (perf r)) (recs y).
Proof.
  intro R. apply all_recs_recs. apply (reach_ind_inv G L (all_recs (fun r => perf_ok (perf r))) ev_perf _ _ R).
  split; [constructor|now left].
Qed.

(** *** Stay times *)
Definition stay_ok (z : Z) : Prop := z = 0%Z \/ exists t, In t L /\ t_base t = F15_STAY_TIME /\ z = stay_min (t_text t).
Lemma keeps_stay : keeps r_stay.
Proof. repeat split; intros []; reflexivity. Qed.
Lemma stay_break t r : r_stay (append_break_text t r) = r_stay r.
Proof. unfold append_break_text. destruct (pstr_eqb _ _); reflexivity. Qed.
Lemma ev_stays x y : all_recs (fun r => stay_ok (r_stay r)) x -> ev x y -> all_recs (fun r => stay_ok (r_stay r)) y.
Proof.
  intros [Hl Hp] E. destruct E; unfold all_recs in *; cbn [tickc nextc errc recc with_p with_p_errs ptc vfrc c_l c_p] in *;
    try (split; [exact Hl|exact Hp]).
  - split; [apply Forall_app; split; [exact Hl|constructor; [exact Hp|constructor]]|now left].
  - split; [apply Forall_app; split; [exact Hl|constructor; [exact Hp|constructor]]|now left].
  - split; [exact Hl|]. now rewrite stay_break.
  - split; [exact Hl|]. right. now exists t.
  - split; [|now rewrite (keeps_pt _ G keeps_stay)]. eapply (Forall_map_eq r_stay stay_ok); [|exact Hl]. symmetry. apply (keeps_prev _ G keeps_stay).
Qed.
Lemma reach_stays k y : reach (cfg0 k) y -> Forall (fun r => stay_ok (r_stay r)) (recs y).
Proof.
  intro R. apply all_recs_recs. apply (reach_ind_inv G L (all_recs (fun r => stay_ok (r_stay r))) ev_stays _ _ R).
  split; [constructor|now left].
Qed.
End Inv.
