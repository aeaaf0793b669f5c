(** * LegFacts: coordinates, bearings and distances in all runs (lemmas behind PropsLegs). *)
From Coq Require Import ZArith NArith List Bool String Lia.
From Coq Require Import Floats.SpecFloat.
From Coq Require Import ZifyBool ZifyNat ZifyN.
From Verif Require Import PyBase PyFloat Enums ErrorTable Regex SyntaxTable Syntax Tokenizer Ers Utils Parser.
From Verif Require Import TokenizerProofs SpecNum FloatProofs FloatRN NumTables NumProofs GeoTables ParserPrims PerfEq PointEq NumFacts Trace ParseTrace SpecParser ParserInv ParserFacts SpecLegs.
Import List ListNotations.
Local Open Scope list_scope.
Local Open Scope nat_scope.

(** ** Legs *)
Section Legs.
Variable G : geodesic.
(** The bearing and distance the parser leaves in [r] when [rest] are the records after it. *)
Definition leg (r : rrec) (rest : list rrec) : Prop :=
  if r_llv r then
    match rest with
    | [] => no_leg r
    | p :: m => if r_llv p then joined G r p
                else match m with [] => no_leg r | q :: _ => if r_llv q then joined G r q else no_leg r end
    end
  else no_leg r.
Fixpoint legs_in (l s : list rrec) : Prop :=
  match l with [] => True | r :: m => leg r (m ++ s) /\ legs_in m s end.
Definition legs (l : list rrec) : Prop := legs_in l [].

Definition pos (r : rrec) := (r_lat r, r_lon r, r_llv r).
Definition geo (r : rrec) := (pos r, r_brg r, r_dist r).
(** What a record sees of the records after it. *)
Definition view (s : list rrec) :=
  match s with [] => [] | p :: m => if r_llv p then [pos p] else pos p :: match m with [] => [] | q :: _ => [pos q] end end.
Lemma leg_same r r' s s' : geo r = geo r' -> view s = view s' -> leg r s -> leg r' s'.
Proof.
  unfold geo, pos. intros E F. injection E as E1 E2 E3 E4 E5. unfold leg, no_leg, joined. rewrite <- E1, <- E2, <- E3, <- E4, <- E5.
  destruct s as [|a s], s' as [|a' s']; cbn [view] in F; try (destruct (r_llv a); discriminate F); try (destruct (r_llv a'); discriminate F); [tauto|].
  unfold pos in F. destruct (r_llv a), (r_llv a'); try (injection F; discriminate); try discriminate F.
  - injection F as F1 F2. rewrite F1, F2. tauto.
  - injection F as F1 F2 F3. destruct s as [|b s], s' as [|b' s']; try discriminate F3; [tauto|]. injection F3 as F4 F5 F6. rewrite F4, F5, F6. tauto.
Qed.
Lemma view_app : forall l l' s s', map pos l = map pos l' -> view s = view s' -> view (l ++ s) = view (l' ++ s').
Proof.
  intros [|a l] [|a' l'] s s' E F; try discriminate E; [exact F|]. cbn [map] in E. assert (E1 : pos a = pos a') by congruence.
  assert (E2 : map pos l = map pos l') by congruence. cbn [app view]. assert (E3 : r_llv a = r_llv a') by (unfold pos in E1; congruence).
  rewrite E1, E3. destruct (r_llv a'); [reflexivity|]. f_equal. destruct l as [|b l], l' as [|b' l']; try discriminate E2.
  - cbn [app]. unfold view in F. destruct s as [|c s], s' as [|c' s']; try (destruct (r_llv c); discriminate F); try (destruct (r_llv c'); discriminate F); [reflexivity|].
    destruct (r_llv c), (r_llv c'); congruence.
  - cbn [app map] in *. congruence.
Qed.
Lemma geo_pos l : forall l', map geo l = map geo l' -> map pos l = map pos l'.
Proof. intros l' H. apply (f_equal (map (fun x => fst (fst x)))) in H. rewrite !map_map in H. exact H. Qed.
Lemma legs_same l : forall l' s s', map geo l = map geo l' -> view s = view s' -> legs_in l s -> legs_in l' s'.
Proof.
  induction l as [|r l IH]; intros [|r' l'] s s' E F; try discriminate E; [auto|]. cbn [legs_in map] in *. intros [H1 H2].
  assert (E1 : geo r = geo r') by congruence. assert (E2 : map geo l = map geo l') by congruence. split; [|now apply (IH l' s s')].
  apply (leg_same r r' (l ++ s)); [exact E1| |exact H1]. apply view_app; [now apply geo_pos|exact F].
Qed.
Lemma legs_app l : forall l' s, legs_in (l ++ l') s <-> legs_in l (l' ++ s) /\ legs_in l' s.
Proof. induction l as [|r l IH]; intros l' s; cbn [app legs_in]; [tauto|]. rewrite IH, app_assoc. tauto. Qed.

(** The last record has no leg. *)
Lemma legs_last l p : legs (l ++ [p]) -> no_leg p.
Proof. unfold legs. rewrite legs_app. cbn [legs_in app]. unfold leg. intros (_ & H & _). now destruct (r_llv p). Qed.
(** Appending a record without coordinates. *)
Lemma legs_snoc l p : legs l -> r_llv p = false -> no_leg p -> legs (l ++ [p]).
Proof.
  intros H Hp Hn. unfold legs. rewrite legs_app. split; [|cbn [legs_in]; unfold leg; rewrite Hp; auto].
  unfold legs in H. revert H. cbn [app]. clear Hn. induction l as [|r l IH]; cbn [legs_in]; [auto|]. intros [H1 H2]. split; [|now apply IH].
  rewrite app_nil_r in H1. clear IH H2. unfold leg in *. destruct (r_llv r); [|exact H1].
  destruct l as [|a [|b l]]; cbn [app] in *; [now rewrite Hp|destruct (r_llv a); [exact H1|now rewrite Hp]|exact H1].
Qed.
(** The last record gets coordinates. *)
Lemma geo_bd q p : pos (set_bd G q p) = pos q. Proof. reflexivity. Qed.
Lemma joined_bd q p p' : pos p = pos p' -> joined G (set_bd G q p) p'.
Proof.
  unfold pos, joined, set_bd. intro E. injection E as E1 E2 E3. rewrite E1, E2. cbn [set_r_dist set_r_brg r_brg r_dist r_lat r_lon].
  now destruct (geo_inverse G (r_lat q) (r_lon q) (r_lat p') (r_lon p')).
Qed.
Lemma legs_azi l p p' : legs (l ++ [p]) -> r_llv p' = true -> no_leg p' -> legs (azi G l p' ++ [p']).
Proof.
  intros H Hp Hn. unfold legs in *. rewrite legs_app in *. destruct H as [H _]. split; [|cbn [legs_in app]; unfold leg; rewrite Hp; auto].
  cbn [app] in *. unfold azi. rewrite Hp. destruct (rev l) as [|q m] eqn:E; apply (f_equal (@rev rrec)) in E; rewrite rev_involutive in E; cbn [rev] in E; subst l; [exact I|].
  destruct (r_llv q) eqn:Eq.
  - rewrite legs_app in *. destruct H as [H1 H2]. cbn [app] in *. split.
    + revert H1. apply legs_same; [reflexivity|]. cbn [view]. cbn [set_bd set_r_dist set_r_brg r_llv]. now rewrite Eq.
    + cbn [legs_in app]. split; [|exact I]. unfold leg. cbn [set_bd set_r_dist set_r_brg r_llv]. rewrite Eq, Hp. now apply joined_bd.
  - destruct m as [|q2 m2].
    + cbn [rev app legs_in] in *. unfold leg in *. rewrite Eq in *. exact H.
    + cbn [rev] in *. rewrite <- app_assoc in *. cbn [app] in *. rewrite legs_app in H. destruct H as [H1 H2]. destruct (r_llv q2) eqn:E2.
      * rewrite legs_app. split.
        -- revert H1. apply legs_same; [reflexivity|]. cbn [view app]. cbn [set_bd set_r_dist set_r_brg r_llv]. now rewrite E2.
        -- cbn [legs_in app] in *. unfold leg in *. cbn [set_bd set_r_dist set_r_brg r_llv]. rewrite E2, Eq, Hp in *. split; [now apply joined_bd|exact (proj2 H2)].
      * rewrite legs_app. split.
        -- revert H1. apply legs_same; [reflexivity|]. cbn [view app]. now rewrite E2.
        -- cbn [legs_in app] in *. unfold leg in *. rewrite E2, Eq in *. exact H2.
Qed.

Variable L : list token.
Lemma legs_map l l' : map geo l = map geo l' -> legs l -> legs l'.
Proof. intro E. now apply legs_same. Qed.
Lemma geo_break t r : geo (append_break_text t r) = geo r.
Proof. unfold append_break_text. destruct (pstr_eqb _ _); reflexivity. Qed.
Lemma legs_p x p : geo p = geo (c_p x) -> legs (recs x) -> legs (c_l x ++ [p]).
Proof. intro E. apply legs_map. symmetry. now apply recs_map_p. Qed.
Lemma ev_legs x y : legs (recs x) -> ev G L x y -> legs (recs y).
Proof.
  intros H E. destruct E; try exact H; unfold recs; cbn [recc with_p with_p_errs ptc vfrc c_l c_p];
    try (apply legs_p; [first [reflexivity|apply geo_break]|exact H]).
  - apply legs_snoc; [exact H|reflexivity|split; reflexivity].
  - apply legs_snoc; [apply legs_p; [reflexivity|exact H]|reflexivity|split; reflexivity].
  - pose proof (legs_last _ _ H) as N. unfold recs in H. unfold pt_prev, pt_rec. destruct (t_sub t); try exact H.
    + apply (legs_azi _ (c_p x)); [exact H|reflexivity|exact N].
    + apply (legs_azi _ (c_p x)); [exact H|reflexivity|exact N].
    + apply (legs_azi _ (set_coords (coords_deg (t_text t)) (c_p x))); [apply (legs_azi _ (c_p x)); [exact H|reflexivity|exact N]|reflexivity|exact N].
    + apply (legs_azi _ (set_coords (coords_min (t_text t)) (c_p x))); [apply (legs_azi _ (c_p x)); [exact H|reflexivity|exact N]|reflexivity|exact N].
Qed.
Lemma reach_legs k y : reach G L (cfg0 k) y -> legs (recs y).
Proof.
  intro R. apply (reach_ind_inv G L (fun x => legs (recs x)) ev_legs _ _ R). cbn. unfold leg. cbn. split; [split; reflexivity|exact I].
Qed.
End Legs.

Section Field.
Variable G : geodesic.
Notation legs := (legs G). Notation leg := (leg G).
Lemma legs_field depth field b s : parse_field15 G depth field = Ok b s -> legs (e_recs (s_ers s)).
Proof.
  intro H. destruct (empty_or field) as [F|F].
  - destruct (parsed_empty G depth field b s H F) as [_ ->]. cbn. unfold leg. cbn. repeat split; reflexivity.
  - destruct (parsed G depth field b s H F) as (_ & y & R & -> & _). cbn [e_recs]. unfold final_recs. apply legs_snoc; [|reflexivity|split; reflexivity].
    apply (legs_map G (recs y)); [|exact (reach_legs G _ 0 _ R)]. symmetry. apply field_recs_map. reflexivity.
Qed.
Lemma legs_split l r rest : legs (l ++ r :: rest) -> leg r rest.
Proof. unfold legs. rewrite legs_app. cbn [legs_in app]. rewrite app_nil_r. tauto. Qed.
Lemma legs_all depth field b s l r rest : parse_field15 G depth field = Ok b s -> e_recs (s_ers s) = l ++ r :: rest ->
  (r_llv r = false -> no_leg r) /\
  (r_llv r = true ->
     (forall p m, rest = p :: m -> r_llv p = true -> joined G r p) /\
     (forall p q m, rest = p :: q :: m -> r_llv p = false -> r_llv q = true -> joined G r q) /\
     ((forall p, In p (firstn 2 rest) -> r_llv p = false) -> no_leg r)).
Proof.
  intros H E. apply legs_field in H. rewrite E in H. apply legs_split in H. unfold leg in H. destruct (r_llv r); (split; [|]); try discriminate; [|auto].
  intros _. split; [|split].
  - intros p m -> Hp. now rewrite Hp in H.
  - intros p q m -> Hp Hq. now rewrite Hp, Hq in H.
  - intro K. destruct rest as [|p [|q m]]; [exact H| |].
    + now rewrite (K p) in H by now left.
    + rewrite (K p) in H by now left. now rewrite (K q) in H by (right; now left).
Qed.

End Field.

(** ** Coordinates *)

Lemma dnum_exact ds : (zlen ds <= 3)%Z -> forallb is_digit ds = true -> exactly (dnum ds) (decimal ds).
Proof. intros Hl Hd. destruct (hemi_deg false ds Hl Hd) as (x & E & X). cbn [hemi signed] in E. now rewrite E. Qed.
Lemma nm_exact ds : (zlen ds <= 3)%Z -> forallb is_digit ds = true -> exactly (fmul (dnum ds) (f_of_Z NM_TO_METERS)) (1852 * decimal ds).
Proof.
  intros Hl Hd. pose proof (pow10_le ds 3 Hl Hd) as B. change (10 ^ 3)%Z with 1000%Z in B.
  destruct (f_of_Z_sv (decimal ds) ltac:(lia)) as [N1 V1]. destruct (f_of_Z_sv 1852 ltac:(lia)) as [N2 V2].
  destruct (fmul_sv 54 54 _ _ N1 N2 ltac:(lia)) as [N3 (p & Hp & V3)]. rewrite V1, V2 in Hp.
  destruct (f_of_Z_sv (1852 * decimal ds) ltac:(lia)) as [N4 V4].
  assert (P : p = (1852 * decimal ds * 2 ^ KS)%Z).
  { assert (K : (2 ^ KS <> 0)%Z) by (apply Z.pow_nonzero; [lia|unfold KS; lia]). apply (Z.mul_cancel_r _ _ _ K). rewrite Hp. ring. }
  destruct (nonneg_finite _ _ N3) as [F S]. change (fmul (dnum ds) (f_of_Z NM_TO_METERS)) with (fmul (f_of_Z (decimal ds)) (f_of_Z 1852)). split; [exact F|]. rewrite S.
  rewrite V3, P, <- V4, <- (nonneg_sv 54 _ N4), (RN_canon 54 _ (nonneg_bnd _ _ N4)), (nonneg_sv 54 _ N4), V4. reflexivity.
Qed.

Section Coords.
Variable G : geodesic.
Variable L : list token.
Hypothesis HL : Forall wt L.
Definition pos_ok (r : rrec) : Prop := no_coords r \/ (r_llv r = true /\ coords_of G (r_name r) (r_lat r) (r_lon r)).

Lemma hemi_ns_in h : hemi_ns h -> In h [78; 83]%N. Proof. intros [-> | ->]; cbn; tauto. Qed.
Lemma hemi_ew_in h : hemi_ew h -> In h [69; 87]%N. Proof. intros [-> | ->]; cbn; tauto. Qed.
Lemma deg_lat_long s r : deg_text s r -> lat_long s r (fst (coords_deg s)) (snd (coords_deg s)).
Proof.
  intros (d1 & d2 & h & g1 & g2 & g3 & e & -> & D & Hh & He). left. cbn [coords_deg fst snd].
  pose proof D as D'. cbn [forallb] in D. repeat (apply andb_true_iff in D; let X := fresh "X" in destruct D as [X D]).
  destruct (hemi_deg (N.eqb h 83) [d1; d2]) as (x & Ex & Wx); [unfold zlen; cbn; lia|cbn [forallb]; now rewrite X, X0|].
  destruct (hemi_deg (N.eqb e 87) [g1; g2; g3]) as (y & Ey & Wy); [unfold zlen; cbn; lia|cbn [forallb]; now rewrite X1, X2, X3|].
  exists [d1; d2], h, [g1; g2; g3], e, x, y. split; [reflexivity|]. split; [apply all_digits_forallb; exact D'|].
  repeat (split; [first [reflexivity|now apply hemi_ns_in|now apply hemi_ew_in|assumption]|]). exact Wy.
Qed.
Lemma min_lat_long s r : min_text s r -> lat_long s r (fst (coords_min s)) (snd (coords_min s)).
Proof.
  intros (d1 & d2 & m1 & m2 & h & g1 & g2 & g3 & n1 & n2 & e & -> & D & Hh & He). right. cbn [coords_min fst snd].
  pose proof D as D'. cbn [forallb] in D. repeat (apply andb_true_iff in D; let X := fresh "X" in destruct D as [X D]).
  destruct (hemi_min (N.eqb h 83) [d1; d2] [m1; m2]) as (x & Ex & Wx); [unfold zlen; cbn; lia|unfold zlen; cbn; lia|cbn [forallb]; now rewrite X, X0|cbn [forallb]; now rewrite X1, X2|].
  destruct (hemi_min (N.eqb e 87) [g1; g2; g3] [n1; n2]) as (y & Ey & Wy); [unfold zlen; cbn; lia|unfold zlen; cbn; lia|cbn [forallb]; now rewrite X3, X4, X5|cbn [forallb]; now rewrite X6, X7|].
  exists [d1; d2], [m1; m2], h, [g1; g2; g3], [n1; n2], e, x, y. split; [reflexivity|]. split; [apply all_digits_forallb; exact D'|].
  repeat (split; [first [reflexivity|now apply hemi_ns_in|now apply hemi_ew_in|assumption]|]). exact Wy.
Qed.
Lemma bd_cut_deg s r : deg_text s r -> bd_text r -> brg_text s = firstn 3 r /\ dist_text s = skipn 3 r.
Proof. intros (d1 & d2 & h & g1 & g2 & g3 & e & -> & _) (b1 & b2 & b3 & e1 & e2 & e3 & -> & _). split; reflexivity. Qed.
Lemma bd_cut_min s r : min_text s r -> bd_text r -> brg_text s = firstn 3 r /\ dist_text s = skipn 3 r.
Proof. intros (d1 & d2 & m1 & m2 & h & g1 & g2 & g3 & n1 & n2 & e & -> & _) (b1 & b2 & b3 & e1 & e2 & e3 & -> & _). split; reflexivity. Qed.
Lemma bd_coords s r la lo : lat_long s r la lo -> bd_text r -> brg_text s = firstn 3 r -> dist_text s = skipn 3 r ->
  let c := geo_direct G la lo (dnum (brg_text s)) (fmul (dnum (dist_text s)) (f_of_Z NM_TO_METERS)) in coords_of G s (fst c) (snd c).
Proof.
  intros H (b1 & b2 & b3 & e1 & e2 & e3 & -> & D) -> ->. cbn [firstn skipn]. right. exists [b1; b2; b3], [e1; e2; e3]. do 4 eexists.
  split; [exact H|]. split; [apply all_digits_forallb; exact D|]. split; [reflexivity|]. split; [reflexivity|].
  cbn [forallb] in D. repeat (apply andb_true_iff in D; let X := fresh "X" in destruct D as [X D]).
  split; [apply dnum_exact; [unfold zlen; cbn; lia|cbn [forallb]; now rewrite X, X0, X1]|].
  split; [apply nm_exact; [unfold zlen; cbn; lia|cbn [forallb]; now rewrite X2, X3, X4]|]. cbv zeta. now destruct (geo_direct _ _ _ _ _).
Qed.
Lemma pt_pos_ok t p : wt t -> r_name p = t_text t -> pos_ok p -> pos_ok (pt_rec G t p).
Proof.
  intros W E H. unfold pt_rec. destruct (t_sub t) eqn:Es; try exact H; right; (split; [reflexivity|]);
    cbn [set_coords move_bd set_r_llv set_r_lon set_r_lat r_name r_lat r_lon fst snd]; rewrite E.
  - left. apply deg_lat_long. now apply ll_deg_text.
  - left. apply min_lat_long. now apply ll_min_text.
  - destruct (llbd_deg_text t W Es) as (r & H1 & H2). destruct (bd_cut_deg _ _ H1 H2) as [B1 B2].
    apply (bd_coords (t_text t) r); [now apply deg_lat_long|assumption..].
  - destruct (llbd_min_text t W Es) as (r & H1 & H2). destruct (bd_cut_min _ _ H1 H2) as [B1 B2].
    apply (bd_coords (t_text t) r); [now apply min_lat_long|assumption..].
Qed.

Definition named_pos (r : rrec) := (r_name r, pos r).
Lemma pos_ok_map r r' : named_pos r = named_pos r' -> pos_ok r -> pos_ok r'.
Proof. unfold named_pos, pos. intro E. injection E as E1 E2 E3 E4. unfold pos_ok, no_coords. now rewrite E1, E2, E3, E4. Qed.
Lemma pos_ok_list l : forall l', map named_pos l = map named_pos l' -> Forall pos_ok l -> Forall pos_ok l'.
Proof.
  induction l as [|r l IH]; intros [|r' l'] E; try discriminate E; [auto|]. cbn [map] in E. intro H. inversion H; subst.
  constructor; [apply (pos_ok_map r); [congruence|assumption]|apply IH; [congruence|assumption]].
Qed.
Lemma named_break t r : named_pos (append_break_text t r) = named_pos r.
Proof. unfold append_break_text. destruct (pstr_eqb _ _); reflexivity. Qed.
Lemma named_prev t l p : map named_pos (pt_prev G t l p) = map named_pos l.
Proof. apply pt_prev_map. intros. reflexivity. Qed.
(** The name of the last record is the text of its token, or VFR. *)
Lemma last_name x t : origin L x -> last_tok L x t -> r_name (c_p x) = t_text t \/ t_base t = F15_SPEED_VFR.
Proof.
  intros (_ & r & E & F) (us & j & Eu & Hj). rewrite Eu in F. apply Forall2_app_inv_l in F as (r1 & r2 & F1 & F2 & ->).
  inversion F2 as [|? i ? ? Fi Fn]; subst. inversion Fn; subst. unfold recs in E. rewrite map_app in E. cbn [map] in E.
  change (ident adep0 :: r1 ++ [i]) with ((ident adep0 :: r1) ++ [i]) in E. apply app_single_inv in E as [_ <-].
  destruct Fi as (t' & Ht & Fi). assert (t' = t) as -> by congruence. cbn in Fi. destruct Fi as (_ & _ & [A|[A _]] & _); auto.
Qed.
Lemma ll_base t : wt t -> t_base t = F15_SPEED_VFR -> forall p, pt_rec G t p = p.
Proof.
  intros W B p. unfold pt_rec. destruct (vfr_fields t W B) as (a & E & _). destruct (t_sub t); try discriminate E; reflexivity.
Qed.
Definition inv (x : cfg) : Prop := origin L x /\ Forall pos_ok (recs x).
Lemma ev_pos x y : inv x -> ev G L x y -> inv y.
Proof.
  intros [O H] E. split; [exact (ev_origin G L x y O E)|]. destruct E; try exact H; unfold recs in *; cbn [recc with_p with_p_errs ptc vfrc c_l c_p] in *;
    try (revert H; apply pos_ok_list; rewrite !map_app; cbn [map]; first [reflexivity|now rewrite named_break]).
  - apply Forall_app. split; [exact H|]. constructor; [left; repeat split|constructor].
  - apply Forall_app. split; [|constructor; [left; repeat split|constructor]]. revert H. apply pos_ok_list. rewrite !map_app. reflexivity.
  - rename H0 into It, H1 into Lt. apply Forall_app in H as [H1 H2]. apply Forall_app. split.
    + revert H1. apply pos_ok_list. symmetry. apply named_prev.
    + constructor; [|constructor]. inversion H2; subst. rewrite Forall_forall in HL. destruct (last_name x t O Lt) as [N|B].
      * apply pt_pos_ok; auto.
      * rewrite ll_base; auto.
Qed.
Lemma reach_pos k y : reach G L (cfg0 k) y -> Forall pos_ok (recs y).
Proof.
  intro R. apply (reach_ind_inv G L inv ev_pos _ _ R). split; [split; [constructor|exists []; split; [reflexivity|constructor]]|].
  constructor; [left; repeat split|constructor].
Qed.
End Coords.
Lemma coords_all G depth field b s r : parse_field15 G depth field = Ok b s -> In r (e_recs (s_ers s)) ->
  no_coords r \/ (r_llv r = true /\ coords_of G (r_name r) (r_lat r) (r_lon r)).
Proof.
  intros H Hr. assert (K : Forall (pos_ok G) (e_recs (s_ers s))); [|rewrite Forall_forall in K; exact (K r Hr)]. clear r Hr.
  destruct (empty_or field) as [F|F].
  - destruct (parsed_empty G depth field b s H F) as [_ ->]. cbn. repeat constructor.
  - destruct (parsed G depth field b s H F) as (W & y & R & -> & _). cbn [e_recs]. unfold final_recs. apply Forall_app. split.
    + apply (pos_ok_list G (recs y)); [symmetry; apply field_recs_map; reflexivity|exact (reach_pos G _ W 0 y R)].
    + constructor; [left; repeat split|constructor].
Qed.
