(** * PerfEq: effect of the speed/level methods on well-typed tokens. *)
From Coq Require Import ZArith NArith List Bool String Lia.
From Coq Require Import Floats.SpecFloat.
From Coq Require Import ZifyBool ZifyNat ZifyN.
From Verif Require Import PyBase PyFloat Enums ErrorTable Regex SyntaxTable Syntax Tokenizer Ers Utils Parser.
From Verif Require Import TokenizerProofs RegexProofs SyntaxProofs SpecNum NumTables NumProofs ParserPrims.
Import List ListNotations.
Local Open Scope list_scope.
Local Open Scope nat_scope.

(** A token carrying the types of its text. *)
Definition wt (t : token) : Prop := classify (t_text t) = (t_base t, t_sub t).

Lemma wt_shape (P : types -> bool) t : wt t ->
  P (F15_UNKNOWN, F15_SB_UNKNOWN) = false -> P (F15_TOO_LONG, F15_SB_UNKNOWN) = false ->
  P (t_base t, t_sub t) = true -> some_shape (shapes_with P) (t_text t).
Proof.
  unfold wt. intros H HU HT HP. rewrite <- H in HP. unfold classify in *.
  destruct (_ <? _)%Z; [congruence|]. now apply typed_shape.
Qed.

(** ** Slices of texts of known shape *)
Lemma Forall2_skipn {A B} (R : A -> B -> Prop) n : forall l l', Forall2 R l l' -> Forall2 R (skipn n l) (skipn n l').
Proof. induction n; intros l l' H; [exact H|]. destruct H; simpl; [constructor|auto]. Qed.
Lemma Forall2_firstn {A B} (R : A -> B -> Prop) n : forall l l', Forall2 R l l' -> Forall2 R (firstn n l) (firstn n l').
Proof. induction n; intros l l' H; [constructor|]. destruct H; simpl; [constructor|constructor; auto]. Qed.
Lemma Forall2_len {A B} (R : A -> B -> Prop) l l' : Forall2 R l l' -> length l = length l'.
Proof. induction 1; simpl; congruence. Qed.
Lemma shape_slice sh s a b : shape_in sh s -> shape_in (slice sh a b) (slice s a b).
Proof.
  unfold shape_in. intro H. assert (E : zlen sh = zlen s) by (unfold zlen; f_equal; exact (Forall2_len _ _ _ H)).
  unfold slice. rewrite E. apply Forall2_firstn, Forall2_skipn, H.
Qed.
Definition digit_cls : list (N * N) := [(48, 57)]%N.
Definition only_digits (sh : shape) : bool := forallb (fun c => shape_incl [c] [digit_cls]) sh.
Lemma only_digits_spec sh s : only_digits sh = true -> shape_in sh s -> forallb is_digit s = true.
Proof.
  unfold only_digits. intros H Hs. induction Hs as [|rs c sh s H1 Hs IH]; [reflexivity|].
  cbn [forallb] in *. apply andb_true_iff in H as [Ha Hb]. rewrite IH by exact Hb. rewrite andb_true_r.
  assert (K : shape_in [digit_cls] [c]) by (apply (shape_incl_sound _ _ _ Ha); constructor; [exact H1|constructor]).
  inversion K; subst. unfold in_ranges, digit_cls in H3. cbn in H3. unfold is_digit. lia.
Qed.
(** Class of letters excluding F, A (levels with four digits) or M (speeds with four digits). *)
Definition misses (rs : list (N * N)) (c : N) : bool := negb (in_ranges c rs).
Definition lvl_shape (sh : shape) : bool :=
  match sh with
  | rs :: ds => negb (match ds with [] => true | _ => false end) && only_digits ds &&
                (zlen ds <=? (if misses rs 70 && misses rs 65 then 4 else 3))%Z
  | [] => false
  end.
Definition spd_shape (sh : shape) : bool :=
  match sh with
  | rs :: ds => negb (match ds with [] => true | _ => false end) && only_digits ds &&
                (zlen ds <=? (if misses rs 77 then 4 else 3))%Z
  | [] => false
  end.
Lemma lvl_shape_spec sh s : lvl_shape sh = true -> shape_in sh s -> lvl_str s.
Proof.
  intros H Hs. destruct Hs as [|rs c sh s H1 Hs]; [discriminate|]. unfold lvl_shape in H.
  apply andb_true_iff in H as [H H3]. apply andb_true_iff in H as [H0 H2].
  exists c, s. split; [reflexivity|]. assert (E : zlen sh = zlen s) by (unfold zlen; f_equal; exact (Forall2_len _ _ _ Hs)).
  split; [destruct Hs; [discriminate|congruence]|]. split; [eapply only_digits_spec; eauto|].
  rewrite <- E. apply Z.leb_le in H3. unfold misses, is_feet in *.
  destruct (N.eqb c 70) eqn:E1; [apply N.eqb_eq in E1; subst c; rewrite H1 in H3; exact H3|].
  destruct (N.eqb c 65) eqn:E2; [apply N.eqb_eq in E2; subst c; rewrite H1, andb_false_r in H3; exact H3|].
  cbn [orb]. eapply Z.le_trans; [exact H3|]. destruct (_ && _)%bool; lia.
Qed.
Lemma spd_shape_spec sh s : spd_shape sh = true -> shape_in sh s -> spd_str s.
Proof.
  intros H Hs. destruct Hs as [|rs c sh s H1 Hs]; [discriminate|]. unfold spd_shape in H.
  apply andb_true_iff in H as [H H3]. apply andb_true_iff in H as [H0 H2].
  exists c, s. split; [reflexivity|]. assert (E : zlen sh = zlen s) by (unfold zlen; f_equal; exact (Forall2_len _ _ _ Hs)).
  split; [destruct Hs; [discriminate|congruence]|]. split; [eapply only_digits_spec; eauto|].
  rewrite <- E. apply Z.leb_le in H3. unfold misses in *.
  destruct (N.eqb c 77) eqn:E1; [apply N.eqb_eq in E1; subst c; rewrite H1 in H3; exact H3|].
  eapply Z.le_trans; [exact H3|]. destruct (in_ranges 77 rs); cbn; lia.
Qed.

(** ** Which slices of a speed/level text are used, by sub type *)
Definition sa_cut (sb : sub_type) : option Z :=
  match sb with
  | F15_SB_SPEED_ALTITUDE_MF | F15_SB_SPEED_ALTITUDE_MS | F15_SB_SPEED_ALTITUDE_MA | F15_SB_SPEED_ALTITUDE_MM => Some 4%Z
  | F15_SB_SPEED_ALTITUDE_KS | F15_SB_SPEED_ALTITUDE_KA | F15_SB_SPEED_ALTITUDE_KM | F15_SB_SPEED_ALTITUDE_NS
  | F15_SB_SPEED_ALTITUDE_NA | F15_SB_SPEED_ALTITUDE_NM | F15_SB_SPEED_ALTITUDE_KF | F15_SB_SPEED_ALTITUDE_NF => Some 5%Z
  | _ => None
  end.
Definition saa_cut (sb : sub_type) : option (Z * Z * Z) :=
  match sb with
  | F15_SB_SPEED_ALTITUDE_KFF | F15_SB_SPEED_ALTITUDE_KFS | F15_SB_SPEED_ALTITUDE_KFA | F15_SB_SPEED_ALTITUDE_KFM
  | F15_SB_SPEED_ALTITUDE_KAF | F15_SB_SPEED_ALTITUDE_KAS | F15_SB_SPEED_ALTITUDE_KAA | F15_SB_SPEED_ALTITUDE_KAM
  | F15_SB_SPEED_ALTITUDE_NFF | F15_SB_SPEED_ALTITUDE_NFS | F15_SB_SPEED_ALTITUDE_NFA | F15_SB_SPEED_ALTITUDE_NFM
  | F15_SB_SPEED_ALTITUDE_NAF | F15_SB_SPEED_ALTITUDE_NAS | F15_SB_SPEED_ALTITUDE_NAA | F15_SB_SPEED_ALTITUDE_NAM => Some (5, 9, 9)%Z
  | F15_SB_SPEED_ALTITUDE_KSF | F15_SB_SPEED_ALTITUDE_KSS | F15_SB_SPEED_ALTITUDE_KSA | F15_SB_SPEED_ALTITUDE_KSM
  | F15_SB_SPEED_ALTITUDE_KMF | F15_SB_SPEED_ALTITUDE_KMS | F15_SB_SPEED_ALTITUDE_KMA | F15_SB_SPEED_ALTITUDE_KMM
  | F15_SB_SPEED_ALTITUDE_NSF | F15_SB_SPEED_ALTITUDE_NSS | F15_SB_SPEED_ALTITUDE_NSA | F15_SB_SPEED_ALTITUDE_NSM
  | F15_SB_SPEED_ALTITUDE_NMF | F15_SB_SPEED_ALTITUDE_NMS | F15_SB_SPEED_ALTITUDE_NMA | F15_SB_SPEED_ALTITUDE_NMM => Some (5, 10, 11)%Z
  | F15_SB_SPEED_ALTITUDE_MFF | F15_SB_SPEED_ALTITUDE_MFS | F15_SB_SPEED_ALTITUDE_MFA | F15_SB_SPEED_ALTITUDE_MFM
  | F15_SB_SPEED_ALTITUDE_MAF | F15_SB_SPEED_ALTITUDE_MAS | F15_SB_SPEED_ALTITUDE_MAA | F15_SB_SPEED_ALTITUDE_MAM => Some (4, 8, 9)%Z
  | F15_SB_SPEED_ALTITUDE_MSF | F15_SB_SPEED_ALTITUDE_MSS | F15_SB_SPEED_ALTITUDE_MSA | F15_SB_SPEED_ALTITUDE_MSM
  | F15_SB_SPEED_ALTITUDE_MMF | F15_SB_SPEED_ALTITUDE_MMS | F15_SB_SPEED_ALTITUDE_MMA | F15_SB_SPEED_ALTITUDE_MMM => Some (4, 9, 10)%Z
  | _ => None
  end.
Definition sap_cut (sb : sub_type) : option (Z * Z) :=
  match sb with
  | F15_SB_SPEED_ALTITUDE_KF_P | F15_SB_SPEED_ALTITUDE_KA_P | F15_SB_SPEED_ALTITUDE_NF_P | F15_SB_SPEED_ALTITUDE_NA_P => Some (5, 9)%Z
  | F15_SB_SPEED_ALTITUDE_KS_P | F15_SB_SPEED_ALTITUDE_KM_P | F15_SB_SPEED_ALTITUDE_NS_P | F15_SB_SPEED_ALTITUDE_NM_P => Some (5, 10)%Z
  | F15_SB_SPEED_ALTITUDE_MF_P | F15_SB_SPEED_ALTITUDE_MA_P => Some (4, 8)%Z
  | F15_SB_SPEED_ALTITUDE_MS_P | F15_SB_SPEED_ALTITUDE_MM_P => Some (4, 9)%Z
  | _ => None
  end.
Definition vfr_cut (sb : sub_type) : option Z :=
  match sb with
  | F15_SB_SPEED_ALTITUDE_MV => Some 4%Z
  | F15_SB_SPEED_ALTITUDE_NV | F15_SB_SPEED_ALTITUDE_KV => Some 5%Z
  | _ => None
  end.
(** The two sub types whose texts make the parser raise ValueError. *)
Definition is_na_sm (sb : sub_type) : bool :=
  sub_eqb sb F15_SB_SPEED_ALTITUDE_NAS || sub_eqb sb F15_SB_SPEED_ALTITUDE_NAM.

(** Checks over the whole syntax table. *)
Definition rows_ok (b : base_type) (f : sub_type -> shape -> bool) (rows : list srow) : bool :=
  forallb (fun x => negb (base_eqb (fst (sr_types x)) b) || forallb (f (snd (sr_types x))) (sr_shapes x)) rows.
Definition all_rows b f : bool := rows_ok b f shape_table.
Lemma rows_ok_spec b f rows x sh : rows_ok b f rows = true -> In x rows -> fst (sr_types x) = b -> In sh (sr_shapes x) ->
  f (snd (sr_types x)) sh = true.
Proof.
  unfold rows_ok. intros H Hx Hb Hsh. rewrite forallb_forall in H. specialize (H x Hx). cbv beta in H. subst b.
  rewrite base_eqb_refl in H. cbn [negb orb] in H. rewrite forallb_forall in H. now apply H.
Qed.
Lemma all_rows_spec b f t : b <> F15_UNKNOWN -> b <> F15_TOO_LONG -> wt t -> t_base t = b -> all_rows b f = true ->
  exists sh, shape_in sh (t_text t) /\ f (t_sub t) sh = true.
Proof.
  intros HU HT H Hb Hall. unfold wt, classify in H. destruct (_ <? _)%Z; [congruence|].
  destruct (typed_in_table (t_text t)) as [E|(x & Hx & Ex & sh & Hsh & Hin)]; [congruence|].
  exists sh. split; [exact Hin|]. rewrite H in Ex. pose proof (rows_ok_spec b f _ x sh Hall Hx) as K. rewrite Ex in K.
  apply K; assumption.
Qed.
Definition sl (sh : shape) a b := slice sh (Some a) b.
Definition sa_ok (sb : sub_type) (sh : shape) : bool :=
  match sa_cut sb with
  | Some a => spd_shape (sl sh 0 (Some a)) && lvl_shape (sl sh a None)
  | None => false
  end.
Definition saa_ok (sb : sub_type) (sh : shape) : bool :=
  match saa_cut sb with
  | Some (a, b, c) => spd_shape (sl sh 0 (Some a)) && lvl_shape (sl sh a (Some b)) && (is_na_sm sb || lvl_shape (sl sh c None))
  | None => false
  end.
Definition is_sh (c : N) (rs : list (N * N)) : bool := shape_incl [rs] [[(c, c)]].
Definition sap_ok (sb : sub_type) (sh : shape) : bool :=
  match sap_cut sb with
  | Some (a, b) => spd_shape (sl sh 0 (Some a)) && lvl_shape (sl sh a (Some b))
                   && shape_incl (sl sh b None) (map (fun c => [(c, c)]) ($"PLUS"))
  | None => false
  end.
Definition vfr_ok (sb : sub_type) (sh : shape) : bool :=
  match vfr_cut sb with
  | Some a => spd_shape (sl sh 0 (Some a)) && shape_incl (sl sh a None) (map (fun c => [(c, c)]) ($"VFR"))
              && shape_incl (sl sh a (Some (a + 1)%Z)) [[(86, 86)]]%N
  | None => false
  end.
Lemma lit_shape_spec lit : forall s, shape_in (map (fun c => [(c, c)]) lit) s -> s = lit.
Proof.
  induction lit as [|c lit IH]; intros s H; inversion H; subst; [reflexivity|].
  cbn [in_ranges existsb] in H2. f_equal; [unfold in_ranges in H2; cbn in H2; lia|now apply IH].
Qed.
Lemma sa_all : all_rows F15_SPEED_ALTITUDE sa_ok = true. Proof. vm_compute. reflexivity. Qed.
Lemma saa_all : all_rows F15_SPEED_ALTITUDE_ALTITUDE saa_ok = true. Proof. vm_compute. reflexivity. Qed.
Lemma sap_all : all_rows F15_SPEED_ALTITUDE_PLUS sap_ok = true. Proof. vm_compute. reflexivity. Qed.
Lemma vfr_all : all_rows F15_SPEED_VFR vfr_ok = true. Proof. vm_compute. reflexivity. Qed.

(** Fields of a token of each kind. *)
Definition text_to (a : Z) (t : token) : pstr := slice (t_text t) (Some 0%Z) (Some a).
Definition text_mid (a b : Z) (t : token) : pstr := slice (t_text t) (Some a) (Some b).
Definition text_from (a : Z) (t : token) : pstr := slice (t_text t) (Some a) None.

Lemma sa_fields t : wt t -> t_base t = F15_SPEED_ALTITUDE ->
  exists a, sa_cut (t_sub t) = Some a /\ spd_str (text_to a t) /\ lvl_str (text_from a t).
Proof.
  intros H Hb. destruct (all_rows_spec F15_SPEED_ALTITUDE _ t ltac:(discriminate) ltac:(discriminate) H Hb sa_all) as (sh & Hs & K).
  unfold sa_ok in K. destruct (sa_cut (t_sub t)) as [a|]; [|discriminate]. apply andb_true_iff in K as [K1 K2].
  exists a. split; [reflexivity|]. split; [apply (spd_shape_spec _ _ K1)|apply (lvl_shape_spec _ _ K2)]; now apply shape_slice.
Qed.
Lemma saa_fields t : wt t -> t_base t = F15_SPEED_ALTITUDE_ALTITUDE ->
  exists a b c, saa_cut (t_sub t) = Some (a, b, c) /\ spd_str (text_to a t) /\ lvl_str (text_mid a b t) /\
    (is_na_sm (t_sub t) = false -> lvl_str (text_from c t)).
Proof.
  intros H Hb. destruct (all_rows_spec F15_SPEED_ALTITUDE_ALTITUDE _ t ltac:(discriminate) ltac:(discriminate) H Hb saa_all) as (sh & Hs & K).
  unfold saa_ok in K. destruct (saa_cut (t_sub t)) as [[[a b] c]|]; [|discriminate]. apply andb_true_iff in K as [K K3]. apply andb_true_iff in K as [K1 K2].
  exists a, b, c. split; [reflexivity|].
  split; [apply (spd_shape_spec _ _ K1); now apply shape_slice|]. split; [apply (lvl_shape_spec _ _ K2); now apply shape_slice|].
  intro E. rewrite E in K3. apply (lvl_shape_spec _ _ K3); now apply shape_slice.
Qed.
Lemma sap_fields t : wt t -> t_base t = F15_SPEED_ALTITUDE_PLUS ->
  exists a b, sap_cut (t_sub t) = Some (a, b) /\ spd_str (text_to a t) /\ lvl_str (text_mid a b t) /\ text_from b t = $"PLUS".
Proof.
  intros H Hb. destruct (all_rows_spec F15_SPEED_ALTITUDE_PLUS _ t ltac:(discriminate) ltac:(discriminate) H Hb sap_all) as (sh & Hs & K).
  unfold sap_ok in K. destruct (sap_cut (t_sub t)) as [[a b]|]; [|discriminate]. apply andb_true_iff in K as [K K3]. apply andb_true_iff in K as [K1 K2].
  exists a, b. split; [reflexivity|].
  split; [apply (spd_shape_spec _ _ K1); now apply shape_slice|]. split; [apply (lvl_shape_spec _ _ K2); now apply shape_slice|].
  apply lit_shape_spec. eapply shape_incl_sound; [exact K3|]. now apply shape_slice.
Qed.
Lemma vfr_fields t : wt t -> t_base t = F15_SPEED_VFR ->
  exists a, vfr_cut (t_sub t) = Some a /\ spd_str (text_to a t) /\ text_from a t = $"VFR" /\ text_mid a (a + 1) t = [86%N].
Proof.
  intros H Hb. destruct (all_rows_spec F15_SPEED_VFR _ t ltac:(discriminate) ltac:(discriminate) H Hb vfr_all) as (sh & Hs & K).
  unfold vfr_ok in K. destruct (vfr_cut (t_sub t)) as [a|]; [|discriminate]. apply andb_true_iff in K as [K K3]. apply andb_true_iff in K as [K1 K2].
  exists a. split; [reflexivity|]. split; [apply (spd_shape_spec _ _ K1); now apply shape_slice|]. split.
  - apply lit_shape_spec. eapply shape_incl_sound; [exact K2|]. now apply shape_slice.
  - apply (lit_shape_spec [86%N]). eapply shape_incl_sound; [exact K3|]. now apply shape_slice.
Qed.

(** ** The methods *)
Lemma lvl_si_nonneg s : lvl_str s -> (0 <= lvl_si s)%Z.
Proof.
  intros (c & ds & -> & _ & Hd & _). cbn [lvl_si]. pose proof (decimal_bound ds Hd). unfold level_metres, nearest.
  destruct (is_feet c); [apply Z.div_pos; lia|]. destruct (is_metric c); lia.
Qed.
Definition alt_ok (p : rrec) : Prop := (0 <= num_z (r_alt_si p))%Z.

Definition sa_rec (a : Z) (t : token) (p : rrec) : rrec :=
  set_r_rules RULE_I (set_spd (text_to a t) (set_alt (text_from a t) p)).
Definition sap_rec (a b : Z) (t : token) (p : rrec) : rrec :=
  set_r_rules RULE_I (set_spd (text_to a t) (set_r_cto (text_from b t) (set_alt (text_mid a b t) p))).
Definition saa_rec (a b c : Z) (t : token) (p : rrec) : rrec :=
  set_r_rules RULE_I (set_spd (text_to a t) (set_cto (text_from c t) (set_alt (text_mid a b t) p))).

Section M.
Variable self : call -> M unit.
Variables (L : list token) (cur : Z) (l : list rrec) (p : rrec) (errs : list rrec) (ru : pstr) (k : nat).
Notation s0 := (stt L cur l p errs ru k).

Lemma set_alt_ok s q : lvl_str s -> alt_ok (set_alt s q).
Proof. intro H. unfold alt_ok, set_alt. cbn [r_alt_si set_r_alt_si num_z]. now apply lvl_si_nonneg. Qed.

Lemma b_sa_eq t a : sa_cut (t_sub t) = Some a -> spd_str (text_to a t) -> lvl_str (text_from a t) ->
  b_assign_speed_altitude self t s0 =
  next_or_return (fun nt => n <- n_elems ;; if (n =? 1)%Z then self (CPostAdep nt) else self (CPostPoint nt))
    (stt L cur l (sa_rec a t p) (errs ++ lvl_errs t (text_from a t)) ru k).
Proof.
  intros Ha Hs Hl. unfold b_assign_speed_altitude. bok (last_elem_eq L cur l p errs ru k). cbv zeta.
  pose proof (assign_altitude_eq t _ false L cur l p errs ru k Hl) as E1.
  pose proof (assign_speed_eq _ L cur l (set_alt (text_from a t) p) (errs ++ lvl_errs t (text_from a t)) ru k Hs (set_alt_ok _ _ Hl)) as E2.
  pose proof (upd_last_eq L cur l (set_spd (text_to a t) (set_alt (text_from a t) p)) (errs ++ lvl_errs t (text_from a t)) ru k (set_r_rules RULE_I)) as E3.
  unfold text_to, text_from in *.
  destruct (t_sub t); try discriminate; cbn [sa_cut] in Ha; injection Ha as <-;
    rewrite bind_assoc; bok E1; rewrite bind_assoc; bok E2; bret; bok E3; reflexivity.
Qed.
Lemma b_sap_eq t a b : sap_cut (t_sub t) = Some (a, b) -> spd_str (text_to a t) -> lvl_str (text_mid a b t) ->
  b_assign_speed_altitude_plus self t s0 =
  next_or_return (fun nt => self (CPostPoint nt))
    (stt L cur l (sap_rec a b t p) (errs ++ lvl_errs t (text_mid a b t)) ru k).
Proof.
  intros Ha Hs Hl. unfold b_assign_speed_altitude_plus. bok (last_elem_eq L cur l p errs ru k). cbv zeta.
  pose proof (assign_altitude_eq t _ false L cur l p errs ru k Hl) as E1.
  pose proof (upd_last_eq L cur l (set_alt (text_mid a b t) p) (errs ++ lvl_errs t (text_mid a b t)) ru k (set_r_cto (text_from b t))) as E2.
  assert (Ho : alt_ok (set_r_cto (text_from b t) (set_alt (text_mid a b t) p))) by (pose proof (set_alt_ok _ p Hl) as K; exact K).
  pose proof (assign_speed_eq _ L cur l _ (errs ++ lvl_errs t (text_mid a b t)) ru k Hs Ho) as E3.
  pose proof (upd_last_eq L cur l (set_spd (text_to a t) (set_r_cto (text_from b t) (set_alt (text_mid a b t) p))) (errs ++ lvl_errs t (text_mid a b t)) ru k (set_r_rules RULE_I)) as E4.
  unfold text_to, text_from, text_mid in *.
  destruct (t_sub t); try discriminate; cbn [sap_cut] in Ha; injection Ha as <- <-;
    rewrite bind_assoc; bok E1; rewrite bind_assoc; bok E2; rewrite bind_assoc; bok E3; bret; bok E4; reflexivity.
Qed.
Lemma b_saa_eq t a b c : saa_cut (t_sub t) = Some (a, b, c) -> spd_str (text_to a t) -> lvl_str (text_mid a b t) -> lvl_str (text_from c t) ->
  b_assign_speed_altitude_altitude self t s0 =
  next_or_return (fun nt => self (CPostPoint nt))
    (stt L cur l (saa_rec a b c t p) ((errs ++ lvl_errs t (text_mid a b t)) ++ lvl_errs t (text_from c t)) ru k).
Proof.
  intros Ha Hs Hl Hc. unfold b_assign_speed_altitude_altitude. bok (last_elem_eq L cur l p errs ru k). cbv zeta.
  pose proof (assign_altitude_eq t _ false L cur l p errs ru k Hl) as E1.
  pose proof (assign_altitude_eq t _ true L cur l (set_alt (text_mid a b t) p) (errs ++ lvl_errs t (text_mid a b t)) ru k Hc) as E2.
  assert (Ho : alt_ok (set_cto (text_from c t) (set_alt (text_mid a b t) p))) by (pose proof (set_alt_ok _ p Hl) as K; exact K).
  pose proof (assign_speed_eq _ L cur l _ ((errs ++ lvl_errs t (text_mid a b t)) ++ lvl_errs t (text_from c t)) ru k Hs Ho) as E3.
  pose proof (upd_last_eq L cur l (set_spd (text_to a t) (set_cto (text_from c t) (set_alt (text_mid a b t) p))) ((errs ++ lvl_errs t (text_mid a b t)) ++ lvl_errs t (text_from c t)) ru k (set_r_rules RULE_I)) as E4.
  unfold text_to, text_from, text_mid in *.
  destruct (t_sub t); try discriminate; cbn [saa_cut] in Ha; injection Ha as <- <- <-;
    rewrite bind_assoc; bok E1; rewrite bind_assoc; bok E2; rewrite bind_assoc; bok E3; bret; bok E4; reflexivity.
Qed.

(** int() of a string starting with something that is no space, sign or digit. *)
Lemma strip_l_snoc c : is_py_space c = false -> forall r, exists r', strip_l (r ++ [c]) = r' ++ [c].
Proof.
  intros H r. induction r as [|d r [r' IH]]; cbn [app strip_l]; [rewrite H; now exists []|].
  destruct (is_py_space d); [now exists r'|]. now exists (d :: r).
Qed.
Lemma py_int_letter c s0 : (65 <= c <= 90)%N -> py_int (c :: s0) = None.
Proof.
  intro H. assert (Hc : is_py_space c = false) by (unfold is_py_space; lia). unfold py_int, py_strip.
  cbn [strip_l]. rewrite Hc. cbn [rev]. destruct (strip_l_snoc c Hc (rev s0)) as [r' ->]. rewrite rev_app_distr. cbn [rev app].
  assert (D : is_digit c = false) by (unfold is_digit; lia).
  destruct c as [|q]; [lia|]. do 7 (destruct q as [q|q|]; try lia); cbn [int_unsigned]; rewrite D; reflexivity.
Qed.
Lemma b_saa_exn t : wt t -> t_base t = F15_SPEED_ALTITUDE_ALTITUDE -> is_na_sm (t_sub t) = true ->
  b_assign_speed_altitude_altitude self t s0 =
  Exn ValueError (stt L cur l (set_r_cto (text_from 9 t) (set_alt (text_mid 5 9 t) p)) (errs ++ lvl_errs t (text_mid 5 9 t)) ru k).
Proof.
  intros H Hb Hn. destruct (saa_fields t H Hb) as (a & b & c & Ha & _ & Hl & _).
  assert (N : py_int (slice (text_from 9 t) (Some 1%Z) None) = None).
  { assert (R : all_rows F15_SPEED_ALTITUDE_ALTITUDE (fun sb sh => negb (is_na_sm sb) ||
        match sl (sl sh 9 None) 1 None with rs :: _ => shape_incl [rs] [[(65, 90)]]%N | [] => false end) = true) by (vm_compute; reflexivity).
    destruct (all_rows_spec F15_SPEED_ALTITUDE_ALTITUDE _ t ltac:(discriminate) ltac:(discriminate) H Hb R) as (sh & Hs & K).
    rewrite Hn in K. cbn [negb orb] in K. unfold text_from.
    pose proof (shape_slice _ _ (Some 1%Z) None (shape_slice _ _ (Some 9%Z) None Hs)) as Q. unfold sl in K.
    destruct Q as [|rs d sh' s' Q1 _]; [discriminate|]. apply py_int_letter.
    assert (K' : shape_in [[(65, 90)]]%N [d]) by (apply (shape_incl_sound _ _ _ K); constructor; [exact Q1|constructor]).
    inversion K' as [|? ? ? ? K1]; subst. unfold in_ranges in K1. cbn in K1. lia. }
  unfold b_assign_speed_altitude_altitude. bok (last_elem_eq L cur l p errs ru k). cbv zeta.
  pose proof (assign_altitude_eq t _ false L cur l p errs ru k Hl) as E1.
  set (q := set_alt (text_mid a b t) p) in *. set (e1 := errs ++ lvl_errs t (text_mid a b t)) in *.
  assert (E2 : assign_altitude t (length l) (text_from 9 t) true (stt L cur l q e1 ru k)
               = Exn ValueError (stt L cur l (set_r_cto (text_from 9 t) q) e1 ru k)).
  { unfold assign_altitude. bok (upd_last_eq L cur l q e1 ru k (set_r_cto (text_from 9 t))). rewrite N. reflexivity. }
  assert (E12 : forall m : M bool, bind (assign_altitude t (length l) (text_mid a b t) false) (fun _ => bind (assign_altitude t (length l) (text_from 9 t) true) (fun _ => m)) s0
     = Exn ValueError (stt L cur l (set_r_cto (text_from 9 t) q) e1 ru k)).
  { intro m. bok E1. now apply bind_exn. }
  unfold is_na_sm in Hn. subst q e1.
  destruct (t_sub t); try discriminate; cbn [saa_cut] in Ha; injection Ha as <- <- <-; apply bind_exn; apply E12.
Qed.

(** The record created for a speed/VFR token, and the copy of its speed and level to the record before it. *)
Definition vfr_rec (a : Z) (t : token) (p : rrec) : rrec :=
  set_r_rules RULE_V (set_spd (text_to a t) (set_alt DEFAULT_ALTITUDE (carry p (tok_rec (set_token_string t ($"VFR")))))).
Definition copy_perf (r q : rrec) : rrec :=
  set_r_alt_si (r_alt_si r) (set_r_alt (r_alt r) (set_r_speed_si (r_speed_si r) (set_r_speed (r_speed r) q))).
Lemma default_lvl : lvl_str DEFAULT_ALTITUDE.
Proof. exists 70%N, ($"050"). split; [reflexivity|]. split; [discriminate|]. split; [reflexivity|]. vm_compute. discriminate. Qed.
Lemma b_vfr_eq t a : vfr_cut (t_sub t) = Some a -> spd_str (text_to a t) -> text_mid a (a + 1) t = [86%N] ->
  b_assign_speed_vfr self t s0 =
  next_or_return (fun nt => self (CBreakText nt))
    (stt L cur (l ++ [copy_perf (vfr_rec a t p) p]) (vfr_rec a t p) errs ru k).
Proof.
  intros Ha Hs Hv. unfold b_assign_speed_vfr. bok (last_elem_eq L cur l p errs ru k). cbv zeta.
  bok (add_record_eq (set_token_string t ($"VFR")) L cur l p errs ru k). cbn [deref opt_or]. bret.
  set (r0 := carry p (tok_rec (set_token_string t ($"VFR")))).
  pose proof (assign_altitude_eq t _ false L cur (l ++ [p]) r0 errs ru k default_lvl) as E1.
  change (lvl_errs t DEFAULT_ALTITUDE) with (@nil rrec) in E1. rewrite app_nil_r in E1. bok E1.
  pose proof (assign_speed_eq _ L cur (l ++ [p]) _ errs ru k Hs (set_alt_ok _ r0 default_lvl)) as E2.
  pose proof (upd_last_eq L cur (l ++ [p]) (set_spd (text_to a t) (set_alt DEFAULT_ALTITUDE r0)) errs ru k (set_r_rules RULE_V)) as E3.
  set (r := set_r_rules RULE_V (set_spd (text_to a t) (set_alt DEFAULT_ALTITUDE r0))) in *.
  assert (E4 : (if ((sub_code (t_sub t) =? base_code F15_SPEED_VFR)%Z || sub_eqb (t_sub t) F15_SB_SPEED_ALTITUDE_MV)%bool
     then assign_speed (length (l ++ [p])) (slice (t_text t) (Some 0%Z) (Some 4%Z)) ;;;
          (rl <- lift (rules_lookup (slice (t_text t) (Some 4%Z) (Some 5%Z))) ;; upd (length (l ++ [p])) (set_r_rules rl))
     else if ((sub_code (t_sub t) =? base_code F15_SPEED_VFR)%Z || sub_eqb (t_sub t) F15_SB_SPEED_ALTITUDE_NV || sub_eqb (t_sub t) F15_SB_SPEED_ALTITUDE_KV)%bool
     then assign_speed (length (l ++ [p])) (slice (t_text t) (Some 0%Z) (Some 5%Z)) ;;;
          (rl <- lift (rules_lookup (slice (t_text t) (Some 5%Z) (Some 6%Z))) ;; upd (length (l ++ [p])) (set_r_rules rl))
     else assign_altitude t (length (l ++ [p])) ($"X000") false ;;; upd (length (l ++ [p])) (set_r_rules RULE_I))
     (stt L cur (l ++ [p]) (set_alt DEFAULT_ALTITUDE r0) errs ru k) = Ok tt (stt L cur (l ++ [p]) r errs ru k)).
  { unfold text_to, text_mid in *. subst r.
    destruct (t_sub t); try discriminate; cbn [vfr_cut] in Ha; injection Ha as <-;
      change (4 + 1)%Z with 5%Z in Hv; change (5 + 1)%Z with 6%Z in Hv;
      repeat match goal with |- (if ?b then _ else _) _ = _ => let v := eval vm_compute in b in change b with v; cbv iota end;
      bok E2; rewrite Hv; change (rules_lookup [86%N]) with (@inr exn pstr RULE_V); cbn [lift]; bret; exact E3. }
  bok E4. change (vfr_rec a t p) with r. clearbody r.
  assert (R : forall q, rd (length (l ++ [p])) (stt L cur (l ++ [q]) r errs ru k) = Ok r (stt L cur (l ++ [q]) r errs ru k)).
  { intro q. replace (length (l ++ [p])) with (length (l ++ [q])) by now rewrite !app_length. apply rd_last_eq. }
  bok (R p). bok (upd_prev_eq L cur l p r errs ru k (set_r_speed (r_speed r))).
  set (p1 := set_r_speed (r_speed r) p). bok (R p1). bok (upd_prev_eq L cur l p1 r errs ru k (set_r_speed_si (r_speed_si r))).
  set (p2 := set_r_speed_si (r_speed_si r) p1). bok (R p2). bok (upd_prev_eq L cur l p2 r errs ru k (set_r_alt (r_alt r))).
  set (p3 := set_r_alt (r_alt r) p2). bok (R p3). bok (upd_prev_eq L cur l p3 r errs ru k (set_r_alt_si (r_alt_si r))).
  reflexivity.
Qed.
End M.
