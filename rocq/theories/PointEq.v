(** * PointEq: effect of the coordinate methods on well-typed tokens. *)
From Coq Require Import ZArith NArith List Bool String Lia.
From Coq Require Import Floats.SpecFloat.
From Coq Require Import ZifyBool ZifyNat ZifyN.
From Verif Require Import PyBase PyFloat Enums ErrorTable Regex SyntaxTable Syntax Tokenizer Ers Utils Parser.
From Verif Require Import TokenizerProofs RegexProofs SyntaxProofs SpecNum NumTables NumProofs ParserPrims PerfEq.
Import List ListNotations.
Local Open Scope list_scope.
Local Open Scope nat_scope.

(** ** Shapes of coordinate texts *)
Lemma wt_sub (f : shape -> bool) sb t : sb <> F15_SB_UNKNOWN -> wt t -> t_sub t = sb ->
  forallb f (shapes_with (fun T => sub_eqb (snd T) sb)) = true -> exists sh, shape_in sh (t_text t) /\ f sh = true.
Proof.
  intros Hn H Hs Hf. apply sub_eqb_neq in Hn.
  destruct (wt_shape (fun T => sub_eqb (snd T) sb) t H) as (sh & Hin & Hsh).
  - cbn [snd]. unfold sub_eqb in *. lia.
  - cbn [snd]. unfold sub_eqb in *. lia.
  - cbn [snd]. rewrite Hs. apply sub_eqb_refl.
  - exists sh. split; [exact Hsh|]. exact (proj1 (forallb_forall f _) Hf sh Hin).
Qed.
Definition ns_cls : list (N * N) := [(78, 78); (83, 83)]%N.
Definition ew_cls : list (N * N) := [(69, 69); (87, 87)]%N.
Definition d_ := digit_cls.
Definition deg_shape : shape := [d_; d_; ns_cls; d_; d_; d_; ew_cls].
Definition min_shape : shape := [d_; d_; d_; d_; ns_cls; d_; d_; d_; d_; d_; ew_cls].
Definition bd_shape : shape := [d_; d_; d_; d_; d_; d_].
(** Coordinate texts as lists of characters. *)
Definition dg (c : N) : Prop := is_digit c = true.
Definition hemi_ns (c : N) : Prop := c = 78%N \/ c = 83%N.
Definition hemi_ew (c : N) : Prop := c = 69%N \/ c = 87%N.
Definition deg_text (s bd : pstr) : Prop :=
  exists d1 d2 h g1 g2 g3 e, s = d1 :: d2 :: h :: g1 :: g2 :: g3 :: e :: bd /\
    forallb is_digit [d1; d2; g1; g2; g3] = true /\ hemi_ns h /\ hemi_ew e.
Definition min_text (s bd : pstr) : Prop :=
  exists d1 d2 m1 m2 h g1 g2 g3 n1 n2 e, s = d1 :: d2 :: m1 :: m2 :: h :: g1 :: g2 :: g3 :: n1 :: n2 :: e :: bd /\
    forallb is_digit [d1; d2; m1; m2; g1; g2; g3; n1; n2] = true /\ hemi_ns h /\ hemi_ew e.
Lemma d_in c : in_ranges c d_ = true -> is_digit c = true.
Proof. unfold in_ranges, d_, digit_cls, is_digit. cbn. lia. Qed.
Lemma ns_in c : in_ranges c ns_cls = true -> hemi_ns c.
Proof. unfold in_ranges, ns_cls, hemi_ns. cbn. lia. Qed.
Lemma ew_in c : in_ranges c ew_cls = true -> hemi_ew c.
Proof. unfold in_ranges, ew_cls, hemi_ew. cbn. lia. Qed.
Ltac inv_shape :=
  repeat match goal with
  | H : shape_in _ _ |- _ => unfold shape_in in H
  | H : Forall2 _ (?a :: ?l) _ |- _ => inversion H; subst; clear H
  | H : Forall2 _ [] _ |- _ => inversion H; subst; clear H
  end;
  repeat match goal with
  | H : in_ranges _ d_ = true |- _ => apply d_in in H
  | H : in_ranges _ ns_cls = true |- _ => apply ns_in in H
  | H : in_ranges _ ew_cls = true |- _ => apply ew_in in H
  end.
Lemma Forall2_app_inv_l' {A B} (R : A -> B -> Prop) a b s : Forall2 R (a ++ b) s -> exists s1 s2, s = s1 ++ s2 /\ Forall2 R a s1 /\ Forall2 R b s2.
Proof. intro H. apply Forall2_app_inv_l in H as (x & y & H1 & H2 & ->). eauto. Qed.
Lemma deg_shape_text bd s : shape_in (deg_shape ++ bd) s -> exists r, deg_text s r /\ shape_in bd r.
Proof.
  unfold deg_shape. cbn [app]. intro H. unfold shape_in in *.
  do 7 (let c := fresh "c" in inversion H as [|? c ? ? ? H']; subst; clear H; rename H' into H).
  eexists. split; [|exact H]. unfold deg_text. do 7 eexists. split; [reflexivity|]. inv_shape. cbn [forallb].
  repeat match goal with H : is_digit _ = true |- _ => rewrite H; clear H end. auto.
Qed.
Lemma min_shape_text bd s : shape_in (min_shape ++ bd) s -> exists r, min_text s r /\ shape_in bd r.
Proof.
  unfold min_shape. cbn [app]. intro H. unfold shape_in in *.
  do 11 (let c := fresh "c" in inversion H as [|? c ? ? ? H']; subst; clear H; rename H' into H).
  eexists. split; [|exact H]. unfold min_text. do 11 eexists. split; [reflexivity|]. inv_shape. cbn [forallb].
  repeat match goal with H : is_digit _ = true |- _ => rewrite H; clear H end. auto.
Qed.
Lemma nil_shape r : shape_in [] r -> r = [].
Proof. inversion 1. reflexivity. Qed.
Lemma ll_deg_text t : wt t -> t_sub t = F15_SB_LL_DEG -> deg_text (t_text t) [].
Proof.
  intros H Hs. destruct (wt_sub (fun sh => shape_incl sh (deg_shape ++ [])) F15_SB_LL_DEG t ltac:(discriminate) H Hs) as (sh & Hin & K); [vm_compute; reflexivity|].
  destruct (deg_shape_text [] _ (shape_incl_sound _ _ _ K Hin)) as (r & Hr & Hn). apply nil_shape in Hn as ->. exact Hr.
Qed.
Lemma ll_min_text t : wt t -> t_sub t = F15_SB_LL_MIN -> min_text (t_text t) [].
Proof.
  intros H Hs. destruct (wt_sub (fun sh => shape_incl sh (min_shape ++ [])) F15_SB_LL_MIN t ltac:(discriminate) H Hs) as (sh & Hin & K); [vm_compute; reflexivity|].
  destruct (min_shape_text [] _ (shape_incl_sound _ _ _ K Hin)) as (r & Hr & Hn). apply nil_shape in Hn as ->. exact Hr.
Qed.
Definition bd_text (r : pstr) : Prop := exists b1 b2 b3 e1 e2 e3, r = [b1; b2; b3; e1; e2; e3] /\ forallb is_digit r = true.
Lemma bd_shape_text r : shape_in bd_shape r -> bd_text r.
Proof.
  unfold bd_shape. intro H. inv_shape. unfold bd_text. do 6 eexists. split; [reflexivity|]. cbn [forallb].
  repeat match goal with H : is_digit _ = true |- _ => rewrite H; clear H end. auto.
Qed.
Lemma llbd_deg_text t : wt t -> t_sub t = F15_SB_LLBD_DEG -> exists r, deg_text (t_text t) r /\ bd_text r.
Proof.
  intros H Hs. destruct (wt_sub (fun sh => shape_incl sh (deg_shape ++ bd_shape)) F15_SB_LLBD_DEG t ltac:(discriminate) H Hs) as (sh & Hin & K); [vm_compute; reflexivity|].
  destruct (deg_shape_text bd_shape _ (shape_incl_sound _ _ _ K Hin)) as (r & Hr & Hn). eauto using bd_shape_text.
Qed.
Lemma llbd_min_text t : wt t -> t_sub t = F15_SB_LLBD_MIN -> exists r, min_text (t_text t) r /\ bd_text r.
Proof.
  intros H Hs. destruct (wt_sub (fun sh => shape_incl sh (min_shape ++ bd_shape)) F15_SB_LLBD_MIN t ltac:(discriminate) H Hs) as (sh & Hin & K); [vm_compute; reflexivity|].
  destruct (min_shape_text bd_shape _ (shape_incl_sound _ _ _ K Hin)) as (r & Hr & Hn). eauto using bd_shape_text.
Qed.
(** Bearing and distance: the last six characters. *)
Definition brg_text (s : pstr) : pstr := slice s (Some (-6)%Z) (Some (-3)%Z).
Definition dist_text (s : pstr) : pstr := slice s (Some (-3)%Z) None.
Definition bd_slices (s : pstr) : Prop :=
  (brg_text s <> [] /\ forallb is_digit (brg_text s) = true) /\ (dist_text s <> [] /\ forallb is_digit (dist_text s) = true).
Lemma bd_slices_ok t : wt t -> In (t_sub t) [F15_SB_PRP_BD; F15_SB_LLBD_DEG; F15_SB_LLBD_MIN] -> bd_slices (t_text t).
Proof.
  intros H Hs.
  set (f := fun sh : shape => only_digits (slice sh (Some (-6)%Z) (Some (-3)%Z)) && only_digits (slice sh (Some (-3)%Z) None)
    && (zlen (slice sh (Some (-6)%Z) (Some (-3)%Z)) =? 3)%Z && (zlen (slice sh (Some (-3)%Z) None) =? 3)%Z).
  assert (E : exists sh, shape_in sh (t_text t) /\ f sh = true).
  { destruct Hs as [Hs|[Hs|[Hs|[]]]]; symmetry in Hs; refine (wt_sub f _ t _ H Hs _); try discriminate; vm_compute; reflexivity. }
  destruct E as (sh & Hin & K). unfold f in K. apply andb_true_iff in K as [K K4]. apply andb_true_iff in K as [K K3]. apply andb_true_iff in K as [K1 K2].
  pose proof (shape_slice _ _ (Some (-6)%Z) (Some (-3)%Z) Hin) as S1. pose proof (shape_slice _ _ (Some (-3)%Z) None Hin) as S2.
  unfold bd_slices, brg_text, dist_text. repeat split.
  - destruct S1; discriminate.
  - exact (only_digits_spec _ _ K1 S1).
  - destruct S2; discriminate.
  - exact (only_digits_spec _ _ K2 S2).
Qed.

(** ** Values *)
Definition dnum (ds : pstr) : f64 := f_of_Z (decimal ds).
Definition deg_min (ds ms : pstr) : f64 := fadd (dnum ds) (fdiv (dnum ms) (flit 60 1)).
Definition hemi (neg : bool) (x : f64) : f64 := if neg then fmul x (SFopp (flit 1 1)) else x.

Section S.
Variable G : geodesic.
Variables (L : list token) (cur : Z).

Lemma lat_deg_eq d1 d2 h l p errs ru k : dg d1 -> dg d2 ->
  assign_latitude (length l) [d1; d2; h] (stt L cur l p errs ru k)
  = Ok tt (stt L cur l (set_r_lat (hemi (N.eqb h 83) (dnum [d1; d2])) p) errs ru k).
Proof.
  intros H1 H2. unfold dg in *. unfold assign_latitude. cbv zeta.
  change (slice [d1; d2; h] (Some (-1)%Z) None) with [h]. change (slice [d1; d2; h] (Some 0%Z) (Some 2%Z)) with [d1; d2].
  change (zlen [d1; d2; h] <? 4)%Z with true. cbv iota. unfold py_float_m.
  rewrite (py_float_digits [d1; d2]); [|discriminate|cbn [forallb]; now rewrite H1, H2]. cbn [opt_or].
  rewrite bind_assoc. bret. fold (dnum [d1; d2]). bok (upd_last_eq L cur l p errs ru k (set_r_lat (dnum [d1; d2]))).
  rewrite is_letter_eq. unfold hemi. destruct (N.eqb h 83); [|reflexivity].
  bok (rd_last_eq L cur l (set_r_lat (dnum [d1; d2]) p) errs ru k).
  rewrite upd_last_eq. reflexivity.
Qed.
Lemma lat_min_eq d1 d2 m1 m2 h l p errs ru k : dg d1 -> dg d2 -> dg m1 -> dg m2 ->
  assign_latitude (length l) [d1; d2; m1; m2; h] (stt L cur l p errs ru k)
  = Ok tt (stt L cur l (set_r_lat (hemi (N.eqb h 83) (deg_min [d1; d2] [m1; m2])) p) errs ru k).
Proof.
  intros H1 H2 H3 H4. unfold dg in *. unfold assign_latitude. cbv zeta. set (s := [d1; d2; m1; m2; h]).
  change (slice s (Some (-1)%Z) None) with [h]. change (slice s (Some 0%Z) (Some 2%Z)) with [d1; d2]. change (slice s (Some 2%Z) (Some 4%Z)) with [m1; m2].
  change (zlen s <? 4)%Z with false. cbv iota. unfold py_float_m.
  rewrite (py_float_digits [d1; d2]); [|discriminate|cbn [forallb]; now rewrite H1, H2].
  rewrite (py_float_digits [m1; m2]); [|discriminate|cbn [forallb]; now rewrite H3, H4]. cbn [opt_or].
  rewrite bind_assoc. bret. rewrite bind_assoc. bret. fold (dnum [d1; d2]) (dnum [m1; m2]). fold (deg_min [d1; d2] [m1; m2]).
  bok (upd_last_eq L cur l p errs ru k (set_r_lat (deg_min [d1; d2] [m1; m2]))).
  rewrite is_letter_eq. unfold hemi. destruct (N.eqb h 83); [|reflexivity].
  bok (rd_last_eq L cur l (set_r_lat (deg_min [d1; d2] [m1; m2]) p) errs ru k).
  rewrite upd_last_eq. reflexivity.
Qed.
Lemma lon_deg_eq d1 d2 d3 h l p errs ru k : dg d1 -> dg d2 -> dg d3 ->
  assign_longitude (length l) [d1; d2; d3; h] (stt L cur l p errs ru k)
  = Ok tt (stt L cur l (set_r_lon (hemi (N.eqb h 87) (dnum [d1; d2; d3])) p) errs ru k).
Proof.
  intros H1 H2 H3. unfold dg in *. unfold assign_longitude. cbv zeta. set (s := [d1; d2; d3; h]).
  change (slice s (Some (-1)%Z) None) with [h]. change (slice s (Some 0%Z) (Some 3%Z)) with [d1; d2; d3].
  change (zlen s <? 5)%Z with true. cbv iota. unfold py_float_m.
  rewrite (py_float_digits [d1; d2; d3]); [|discriminate|cbn [forallb]; now rewrite H1, H2, H3]. cbn [opt_or].
  rewrite bind_assoc. bret. fold (dnum [d1; d2; d3]). bok (upd_last_eq L cur l p errs ru k (set_r_lon (dnum [d1; d2; d3]))).
  rewrite is_letter_eq. unfold hemi. destruct (N.eqb h 87); [|reflexivity].
  bok (rd_last_eq L cur l (set_r_lon (dnum [d1; d2; d3]) p) errs ru k).
  rewrite upd_last_eq. reflexivity.
Qed.
Lemma lon_min_eq d1 d2 d3 m1 m2 h l p errs ru k : dg d1 -> dg d2 -> dg d3 -> dg m1 -> dg m2 ->
  assign_longitude (length l) [d1; d2; d3; m1; m2; h] (stt L cur l p errs ru k)
  = Ok tt (stt L cur l (set_r_lon (hemi (N.eqb h 87) (deg_min [d1; d2; d3] [m1; m2])) p) errs ru k).
Proof.
  intros H1 H2 H3 H4 H5. unfold dg in *. unfold assign_longitude. cbv zeta. set (s := [d1; d2; d3; m1; m2; h]).
  change (slice s (Some (-1)%Z) None) with [h]. change (slice s (Some 0%Z) (Some 3%Z)) with [d1; d2; d3]. change (slice s (Some 3%Z) (Some 5%Z)) with [m1; m2].
  change (zlen s <? 5)%Z with false. cbv iota. unfold py_float_m.
  rewrite (py_float_digits [d1; d2; d3]); [|discriminate|cbn [forallb]; now rewrite H1, H2, H3].
  rewrite (py_float_digits [m1; m2]); [|discriminate|cbn [forallb]; now rewrite H4, H5]. cbn [opt_or].
  rewrite bind_assoc. bret. rewrite bind_assoc. bret. fold (dnum [d1; d2; d3]) (dnum [m1; m2]). fold (deg_min [d1; d2; d3] [m1; m2]).
  bok (upd_last_eq L cur l p errs ru k (set_r_lon (deg_min [d1; d2; d3] [m1; m2]))).
  rewrite is_letter_eq. unfold hemi. destruct (N.eqb h 87); [|reflexivity].
  bok (rd_last_eq L cur l (set_r_lon (deg_min [d1; d2; d3] [m1; m2]) p) errs ru k).
  rewrite upd_last_eq. reflexivity.
Qed.
End S.

(** ** Degree checks *)
Lemma degree_eq s mx : s <> [] -> forallb is_digit s = true -> is_degree_semantics s mx = inr (decimal s <=? mx)%Z.
Proof. intros H1 H2. unfold is_degree_semantics. now rewrite py_int_digits. Qed.
Definition dm_ok (d m mx : Z) : bool := (d <=? mx)%Z && (m <=? 59)%Z && (d * 100 + m <=? mx * 100)%Z.
Lemma decimal_app a b : decimal (a ++ b) = (decimal a * 10 ^ zlen b + decimal b)%Z.
Proof.
  unfold decimal. rewrite fold_left_app. set (f := fun (a : Z) (c : N) => (10 * a + (Z.of_N c - 48))%Z).
  assert (K : forall b x, fold_left f b x = (x * 10 ^ zlen b + fold_left f b 0)%Z); [|apply K].
  clear. induction b as [|c b IH]; intro x; cbn [fold_left]; [unfold zlen; cbn; lia|].
  rewrite (IH (f x c)), (IH (f 0%Z c)), zlen_cons. unfold f at 1 3. rewrite Z.pow_add_r by (try apply zlen_nonneg; lia). lia.
Qed.
Lemma slice_mid {A} (a b c : list A) : slice (a ++ b ++ c) (Some (zlen a)) (Some (zlen a + zlen b)%Z) = b.
Proof.
  unfold slice, slice_bound, zlen. rewrite !app_length.
  destruct (Z.of_nat (length a) <? 0)%Z eqn:E0; [lia|]. destruct (_ + _ <? 0)%Z eqn:E1; [lia|].
  match goal with |- firstn ?x (skipn ?y _) = _ => assert (E2 : x = length b + 0) by lia; assert (E3 : y = length a) by lia; rewrite E2, E3 end.
  rewrite skipn_app, Nat.sub_diag, skipn_all. cbn [app skipn]. rewrite firstn_app_2. cbn [firstn]. apply app_nil_r.
Qed.
Lemma slice_app_l {A} (a b : list A) : slice (a ++ b) (Some 0%Z) (Some (zlen a)) = a.
Proof. exact (slice_mid [] a b). Qed.
Lemma slice_app_r {A} (a b : list A) : slice (a ++ b) (Some (zlen a)) None = b.
Proof.
  unfold slice, slice_bound, zlen. rewrite app_length. destruct (_ <? 0)%Z eqn:E; [lia|].
  replace (Z.to_nat (Z.max _ _)) with (length a) by lia. rewrite skipn_app, Nat.sub_diag, skipn_all. cbn [app skipn]. apply firstn_all2. lia.
Qed.
Lemma degree_min_eq d m mx : d <> [] -> m <> [] -> forallb is_digit (d ++ m) = true -> zlen m = 2%Z ->
  is_degree_minute_semantics (d ++ m) mx (zlen d) = inr (dm_ok (decimal d) (decimal m) mx).
Proof.
  intros Hd Hm H H2. unfold is_degree_minute_semantics. rewrite slice_app_l, slice_app_r.
  assert (H' := H). rewrite forallb_app in H'. apply andb_true_iff in H' as [Ha Hb].
  rewrite (py_int_digits d Hd Ha), (py_int_digits m Hm Hb), (py_int_digits (d ++ m)); [|intro E; apply app_eq_nil in E; tauto|exact H].
  rewrite decimal_app, H2. change (10 ^ 2)%Z with 100%Z. unfold dm_ok.
  destruct (mx <? decimal d)%Z eqn:E1; destruct (59 <? decimal m)%Z eqn:E2; destruct (mx * 100 <? decimal d * 100 + decimal m)%Z eqn:E3; f_equal; lia.
Qed.

(** ** Bearing and distance between points *)
Section G.
Variable G : geodesic.
(** Bearing and distance from [a] to [b]. *)
Definition set_bd (a b : rrec) : rrec :=
  let r := geo_inverse G (r_lat a) (r_lon a) (r_lat b) (r_lon b) in set_r_dist (snd r) (set_r_brg (fst r) a).
(** assign_azimuth_distance_between_points on the records before the last one, which is [p]. *)
Definition azi (l : list rrec) (p : rrec) : list rrec :=
  if r_llv p then
    match rev l with
    | [] => l
    | q :: m => if r_llv q then rev m ++ [set_bd q p]
                else match m with
                     | [] => l
                     | q2 :: m2 => if r_llv q2 then rev m2 ++ [set_bd q2 p; q] else l
                     end
    end
  else l.
Variables (L : list token) (cur : Z).

Lemma azi_eq l p errs ru k :
  assign_azimuth_distance_between_points G (stt L cur l p errs ru k) = Ok tt (stt L cur (azi l p) p errs ru k).
Proof.
  unfold assign_azimuth_distance_between_points. bok (last_elem_eq L cur l p errs ru k).
  destruct (rev l) as [|q m] eqn:E.
  - apply (f_equal (@rev rrec)) in E. rewrite rev_involutive in E. cbn in E. subst l.
    bok (prev_elem_none L cur p errs ru k). unfold azi. cbn [rev]. destruct (r_llv p); reflexivity.
  - apply (f_equal (@rev rrec)) in E. rewrite rev_involutive in E. cbn [rev] in E. subst l.
    bok (prev_elem_eq L cur (rev m) q p errs ru k). bok (rd_last_eq L cur (rev m ++ [q]) p errs ru k).
    unfold azi. rewrite rev_unit, ?rev_involutive. destruct (r_llv p) eqn:Ep; [|reflexivity].
    bok (rd_prev_eq L cur (rev m) q p errs ru k). destruct (r_llv q) eqn:Eq.
    + unfold set_azimuth_and_distance. bok (rd_prev_eq L cur (rev m) q p errs ru k).
      bok (rd_last_eq L cur (rev m ++ [q]) p errs ru k). unfold set_bd.
      destruct (geo_inverse G (r_lat q) (r_lon q) (r_lat p) (r_lon p)) as [az di]. cbn [fst snd].
      bok (upd_prev_eq L cur (rev m) q p errs ru k (set_r_brg az)). apply upd_prev_eq.
    + bok (n_elems_eq L cur (rev m ++ [q]) p errs ru k). rewrite app_length. cbn [length].
      destruct m as [|q2 m2].
      * cbn [rev length app]. change (Z.of_nat (0 + 1) + 1 - 3)%Z with (-1)%Z. bok (elem_at_neg L cur [q] p errs ru k (-1)%Z eq_refl). reflexivity.
      * cbn [rev]. rewrite !app_length. cbn [length].
        replace (Z.of_nat (length (rev m2) + 1 + 1) + 1 - 3)%Z with (Z.of_nat (length (rev m2))) by lia.
        bok (elem_at_eq L cur ((rev m2 ++ [q2]) ++ [q]) p errs ru k (length (rev m2)) ltac:(rewrite !app_length; cbn [length]; lia)).
        assert (R : forall z, rd (length (rev m2)) (stt L cur ((rev m2 ++ [z]) ++ [q]) p errs ru k) = Ok z (stt L cur ((rev m2 ++ [z]) ++ [q]) p errs ru k)).
        { intro z. unfold rd, stt. cbn [s_ers e_recs]. rewrite <- !app_assoc. cbn [app]. now rewrite nth_last. }
        assert (U : forall z f, upd (length (rev m2)) f (stt L cur ((rev m2 ++ [z]) ++ [q]) p errs ru k) = Ok tt (stt L cur ((rev m2 ++ [f z]) ++ [q]) p errs ru k)).
        { intros z f. unfold upd, stt. cbn [s_ers e_recs s_toks s_calls e_errs e_rules]. rewrite <- !app_assoc. cbn [app]. now rewrite nth_last, upd_last. }
        bok (R q2). destruct (r_llv q2) eqn:E2; [|reflexivity].
        unfold set_azimuth_and_distance. bok (R q2).
        assert (Rl : rd (length (rev m2) + 1 + 1) (stt L cur ((rev m2 ++ [q2]) ++ [q]) p errs ru k) = Ok p (stt L cur ((rev m2 ++ [q2]) ++ [q]) p errs ru k)).
        { replace (length (rev m2) + 1 + 1) with (length ((rev m2 ++ [q2]) ++ [q])) by (rewrite !app_length; reflexivity). apply rd_last_eq. }
        bok Rl. unfold set_bd. destruct (geo_inverse G (r_lat q2) (r_lon q2) (r_lat p) (r_lon p)) as [az di]. cbn [fst snd].
        bok (U q2 (set_r_brg az)). rewrite U. rewrite <- app_assoc. reflexivity.
Qed.

(** ** Coordinates of a token *)
Definition coords_deg (s : pstr) : f64 * f64 :=
  match s with
  | d1 :: d2 :: h :: g1 :: g2 :: g3 :: e :: _ => (hemi (N.eqb h 83) (dnum [d1; d2]), hemi (N.eqb e 87) (dnum [g1; g2; g3]))
  | _ => (S754_nan, S754_nan)
  end.
Definition coords_min (s : pstr) : f64 * f64 :=
  match s with
  | d1 :: d2 :: m1 :: m2 :: h :: g1 :: g2 :: g3 :: n1 :: n2 :: e :: _ =>
      (hemi (N.eqb h 83) (deg_min [d1; d2] [m1; m2]), hemi (N.eqb e 87) (deg_min [g1; g2; g3] [n1; n2]))
  | _ => (S754_nan, S754_nan)
  end.
Definition errs_deg (t : token) : list rrec :=
  match t_text t with
  | d1 :: d2 :: h :: g1 :: g2 :: g3 :: e :: _ =>
      (if (decimal [d1; d2] <=? 90)%Z then [] else [err t 42]) ++ (if (decimal [g1; g2; g3] <=? 180)%Z then [] else [err t 44])
  | _ => []
  end.
Definition errs_min (t : token) : list rrec :=
  match t_text t with
  | d1 :: d2 :: m1 :: m2 :: h :: g1 :: g2 :: g3 :: n1 :: n2 :: e :: _ =>
      (if dm_ok (decimal [d1; d2]) (decimal [m1; m2]) 90 then [] else [err t 43])
      ++ (if dm_ok (decimal [g1; g2; g3]) (decimal [n1; n2]) 180 then [] else [err t 45])
  | _ => []
  end.
Definition errs_brg (t : token) : list rrec :=
  if (decimal (brg_text (t_text t)) <=? 360)%Z then [] else [err t 46].
Definition set_coords (c : f64 * f64) (p : rrec) : rrec := set_r_llv true (set_r_lon (snd c) (set_r_lat (fst c) p)).
Definition move_bd (s : pstr) (p : rrec) : rrec :=
  let c := geo_direct G (r_lat p) (r_lon p) (dnum (brg_text s)) (fmul (dnum (dist_text s)) (f_of_Z NM_TO_METERS)) in
  set_r_lon (snd c) (set_r_lat (fst c) p).

Lemma err_if (b : bool) t n l p errs ru k : defined_error n = true ->
  (if b then ret tt else add_error_no_re_sync t n) (stt L cur l p errs ru k)
  = Ok tt (stt L cur l p (errs ++ (if b then [] else [err t n])) ru k).
Proof. intro H. destruct b; [now rewrite app_nil_r|now apply add_err_eq]. Qed.

Lemma ll_deg_eq t r l p errs ru k : deg_text (t_text t) r ->
  assign_ll_deg G t (length l) (t_text t) (stt L cur l p errs ru k)
  = Ok tt (stt L cur (azi l (set_coords (coords_deg (t_text t)) p)) (set_coords (coords_deg (t_text t)) p) (errs ++ errs_deg t) ru k).
Proof.
  intros (d1 & d2 & h & g1 & g2 & g3 & e & E & D & _). unfold errs_deg. rewrite E. unfold assign_ll_deg, coords_deg, set_coords. cbn [fst snd].
  cbn [forallb] in D. repeat (apply andb_true_iff in D; let X := fresh "X" in destruct D as [X D]).
  set (s := d1 :: _).
  assert (S1 : slice s (Some 0%Z) (Some 3%Z) = [d1; d2; h]) by exact (slice_mid [] [d1; d2; h] _).
  assert (S2 : slice s (Some 3%Z) (Some 7%Z) = [g1; g2; g3; e]) by exact (slice_mid [d1; d2; h] [g1; g2; g3; e] r).
  assert (S3 : slice s (Some 0%Z) (Some 2%Z) = [d1; d2]) by exact (slice_mid [] [d1; d2] _).
  assert (S4 : slice s (Some 3%Z) (Some 6%Z) = [g1; g2; g3]) by exact (slice_mid [d1; d2; h] [g1; g2; g3] _).
  rewrite S1, S2, S3, S4.
  rewrite (bind_ok _ _ _ _ _ (lat_deg_eq L cur d1 d2 h l p errs ru k X X0)).
  rewrite (bind_ok _ _ _ _ _ (lon_deg_eq L cur g1 g2 g3 e l _ errs ru k X1 X2 X3)).
  rewrite (degree_eq [d1; d2]); [|discriminate|cbn [forallb]; now rewrite X, X0]. cbn [lift]. bret.
  rewrite (bind_ok _ _ _ _ _ (err_if _ t 42 l _ errs ru k eq_refl)).
  rewrite (degree_eq [g1; g2; g3]); [|discriminate|cbn [forallb]; now rewrite X1, X2, X3]. cbn [lift]. bret.
  rewrite (bind_ok _ _ _ _ _ (err_if _ t 44 l _ _ ru k eq_refl)).
  rewrite (bind_ok _ _ _ _ _ (upd_last_eq L cur l _ _ ru k (set_r_llv true))). rewrite azi_eq, <- app_assoc. reflexivity.
Qed.
Lemma ll_min_eq t r l p errs ru k : min_text (t_text t) r ->
  assign_ll_deg_min G t (length l) (t_text t) (stt L cur l p errs ru k)
  = Ok tt (stt L cur (azi l (set_coords (coords_min (t_text t)) p)) (set_coords (coords_min (t_text t)) p) (errs ++ errs_min t) ru k).
Proof.
  intros (d1 & d2 & m1 & m2 & h & g1 & g2 & g3 & n1 & n2 & e & E & D & _). unfold errs_min. rewrite E. unfold assign_ll_deg_min, coords_min, set_coords. cbn [fst snd].
  cbn [forallb] in D. repeat (apply andb_true_iff in D; let X := fresh "X" in destruct D as [X D]).
  set (s := d1 :: _).
  assert (S1 : slice s (Some 0%Z) (Some 5%Z) = [d1; d2; m1; m2; h]) by exact (slice_mid [] [d1; d2; m1; m2; h] _).
  assert (S2 : slice s (Some 5%Z) (Some 11%Z) = [g1; g2; g3; n1; n2; e]) by exact (slice_mid [d1; d2; m1; m2; h] [g1; g2; g3; n1; n2; e] r).
  assert (S3 : slice s (Some 0%Z) (Some 4%Z) = [d1; d2; m1; m2]) by exact (slice_mid [] [d1; d2; m1; m2] _).
  assert (S4 : slice s (Some 5%Z) (Some 10%Z) = [g1; g2; g3; n1; n2]) by exact (slice_mid [d1; d2; m1; m2; h] [g1; g2; g3; n1; n2] _).
  rewrite S1, S2, S3, S4.
  rewrite (bind_ok _ _ _ _ _ (lat_min_eq L cur d1 d2 m1 m2 h l p errs ru k X X0 X1 X2)).
  rewrite (bind_ok _ _ _ _ _ (lon_min_eq L cur g1 g2 g3 n1 n2 e l _ errs ru k X3 X4 X5 X6 X7)).
  pose proof (degree_min_eq [d1; d2] [m1; m2] 90 ltac:(discriminate) ltac:(discriminate) ltac:(cbn [app forallb]; now rewrite X, X0, X1, X2) eq_refl) as E1.
  change (zlen [d1; d2]) with 2%Z in E1. cbn [app] in E1. rewrite E1. cbn [lift]. bret.
  rewrite (bind_ok _ _ _ _ _ (err_if _ t 43 l _ errs ru k eq_refl)).
  pose proof (degree_min_eq [g1; g2; g3] [n1; n2] 180 ltac:(discriminate) ltac:(discriminate) ltac:(cbn [app forallb]; now rewrite X3, X4, X5, X6, X7) eq_refl) as E2.
  change (zlen [g1; g2; g3]) with 3%Z in E2. cbn [app] in E2. rewrite E2. cbn [lift]. bret.
  rewrite (bind_ok _ _ _ _ _ (err_if _ t 45 l _ _ ru k eq_refl)).
  rewrite (bind_ok _ _ _ _ _ (upd_last_eq L cur l _ _ ru k (set_r_llv true))). rewrite azi_eq, <- app_assoc. reflexivity.
Qed.
Lemma check_bearing_eq t l p errs ru k : bd_slices (t_text t) ->
  check_bearing t (t_text t) (stt L cur l p errs ru k) = Ok tt (stt L cur l p (errs ++ errs_brg t) ru k).
Proof.
  intros [[H1 H2] _]. unfold check_bearing. fold (brg_text (t_text t)). rewrite (degree_eq _ _ H1 H2). cbn [lift]. bret.
  now apply err_if.
Qed.
Lemma resolve_eq s l p errs ru k : bd_slices s ->
  resolve_from_text G (length l) s (stt L cur l p errs ru k) = Ok tt (stt L cur (azi l (move_bd s p)) (move_bd s p) errs ru k).
Proof.
  intros [[H1 H2] [H3 H4]]. unfold resolve_from_text, py_float_m. fold (brg_text s) (dist_text s).
  rewrite (py_float_digits _ H1 H2), (py_float_digits _ H3 H4). cbn [opt_or]. bret. bret. unfold resolve_real_bd_point.
  bok (rd_last_eq L cur l p errs ru k). unfold move_bd, dnum.
  destruct (geo_direct G (r_lat p) (r_lon p) (f_of_Z (decimal (brg_text s))) (fmul (f_of_Z (decimal (dist_text s))) (f_of_Z NM_TO_METERS))) as [la lo].
  cbn [fst snd]. bok (upd_last_eq L cur l p errs ru k (set_r_lat la)). bok (upd_last_eq L cur l (set_r_lat la p) errs ru k (set_r_lon lo)).
  apply azi_eq.
Qed.

(** assign_lat_long_bearing_distance as a function: the new last record, the records before it, the errors. *)
Definition pt_rec (t : token) (p : rrec) : rrec :=
  match t_sub t with
  | F15_SB_LL_DEG => set_coords (coords_deg (t_text t)) p
  | F15_SB_LL_MIN => set_coords (coords_min (t_text t)) p
  | F15_SB_LLBD_DEG => move_bd (t_text t) (set_coords (coords_deg (t_text t)) p)
  | F15_SB_LLBD_MIN => move_bd (t_text t) (set_coords (coords_min (t_text t)) p)
  | _ => p
  end.
Definition pt_prev (t : token) (l : list rrec) (p : rrec) : list rrec :=
  match t_sub t with
  | F15_SB_LL_DEG | F15_SB_LL_MIN => azi l (pt_rec t p)
  | F15_SB_LLBD_DEG => azi (azi l (set_coords (coords_deg (t_text t)) p)) (pt_rec t p)
  | F15_SB_LLBD_MIN => azi (azi l (set_coords (coords_min (t_text t)) p)) (pt_rec t p)
  | _ => l
  end.
Definition pt_errs (t : token) : list rrec :=
  match t_sub t with
  | F15_SB_PRP_BD => errs_brg t
  | F15_SB_LL_DEG => errs_deg t
  | F15_SB_LL_MIN => errs_min t
  | F15_SB_LLBD_DEG => errs_deg t ++ errs_brg t
  | F15_SB_LLBD_MIN => errs_min t ++ errs_brg t
  | _ => []
  end.
Lemma assign_ll_eq t l p errs ru k : wt t ->
  assign_lat_long_bearing_distance G t (stt L cur l p errs ru k)
  = Ok tt (stt L cur (pt_prev t l p) (pt_rec t p) (errs ++ pt_errs t) ru k).
Proof.
  intro H. unfold assign_lat_long_bearing_distance. cbv zeta. bok (last_elem_eq L cur l p errs ru k).
  assert (Lz : forall l p, length (azi l p) = length l).
  { clear. intros l p. unfold azi. destruct (r_llv p); [|reflexivity]. rewrite <- (rev_length l). destruct (rev l) as [|q m] eqn:E; cbn [length].
    - apply (f_equal (@length rrec)) in E. now rewrite rev_length in E.
    - destruct (r_llv q); [rewrite app_length, rev_length; cbn [length]; lia|]. 
      assert (E' : length l = S (length m)) by (rewrite <- rev_length, E; reflexivity).
      destruct m as [|q2 m2]; [exact E'|]. destruct (r_llv q2); [rewrite app_length, rev_length; cbn [length]; lia|exact E']. }
  unfold pt_prev, pt_rec, pt_errs.
  destruct (t_sub t) eqn:Es; try (rewrite app_nil_r; reflexivity).
  - apply check_bearing_eq. apply bd_slices_ok; [exact H|]. rewrite Es. cbn. tauto.
  - cbn [deref opt_or]. bret. apply (ll_deg_eq t []). now apply ll_deg_text.
  - cbn [deref opt_or]. bret. apply (ll_min_eq t []). now apply ll_min_text.
  - cbn [deref opt_or]. bret. destruct (llbd_deg_text t H Es) as (r & Hr & _). bok (ll_deg_eq t r l p errs ru k Hr).
    assert (B : bd_slices (t_text t)) by (apply bd_slices_ok; [exact H|rewrite Es; cbn; tauto]).
    rewrite (bind_ok _ _ _ _ _ (check_bearing_eq t _ _ _ ru k B)).
    rewrite <- (Lz l (set_coords (coords_deg (t_text t)) p)). rewrite (resolve_eq _ _ _ _ ru k B), <- app_assoc. reflexivity.
  - cbn [deref opt_or]. bret. destruct (llbd_min_text t H Es) as (r & Hr & _). bok (ll_min_eq t r l p errs ru k Hr).
    assert (B : bd_slices (t_text t)) by (apply bd_slices_ok; [exact H|rewrite Es; cbn; tauto]).
    rewrite (bind_ok _ _ _ _ _ (check_bearing_eq t _ _ _ ru k B)).
    rewrite <- (Lz l (set_coords (coords_min (t_text t)) p)). rewrite (resolve_eq _ _ _ _ ru k B), <- app_assoc. reflexivity.
Qed.
Lemma check_sem_eq t l p errs ru k : wt t ->
  check_point_semantics G t (stt L cur l p errs ru k)
  = Ok tt (stt L cur (pt_prev t l p) (pt_rec t p) (errs ++ pt_errs t) ru k).
Proof.
  intro H. unfold check_point_semantics. destruct (negb _ && negb _)%bool eqn:E; [now apply assign_ll_eq|].
  assert (C : t_sub t = F15_SB_PRP \/ t_sub t = F15_SB_PRP_AERO).
  { destruct (sub_eqb (t_sub t) F15_SB_PRP) eqn:E1; [left; now apply sub_eqb_eq|]. right. apply sub_eqb_eq.
    destruct (sub_eqb (t_sub t) F15_SB_PRP_AERO); [reflexivity|discriminate]. }
  unfold pt_prev, pt_rec, pt_errs. destruct C as [-> | ->]; rewrite app_nil_r; reflexivity.
Qed.
End G.
