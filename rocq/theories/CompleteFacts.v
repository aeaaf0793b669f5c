(** * CompleteFacts: every attribute of every record (lemmas behind PropsComplete). *)
From Coq Require Import ZArith NArith List Bool String Lia.
From Coq Require Import Floats.SpecFloat.
From Coq Require Import ZifyBool ZifyNat ZifyN.
From Verif Require Import PyBase PyFloat Enums ErrorTable Regex SyntaxTable Syntax Tokenizer Ers Utils Parser.
From Verif Require Import TokenizerProofs SpecNum NumTables NumProofs ParserPrims PerfEq PointEq Trace ParseTrace SpecParser ParserInv ParserFacts SpecLegs LegFacts SpecGrammar SpecReader ReaderFacts SpecComplete.
Import List ListNotations.
Local Open Scope list_scope.
Local Open Scope nat_scope.

(** ** Coordinates *)
Lemma minus_one_eq : f_of_Z (-1) = SFopp (flit 1 1). Proof. vm_compute. reflexivity. Qed.
Lemma sixty_eq : f_of_Z 60 = flit 60 1. Proof. vm_compute. reflexivity. Qed.
Lemma hemi_eq b x : hemi b x = times_minus_one b x.
Proof. unfold hemi, times_minus_one. now rewrite minus_one_eq. Qed.
Lemma deg_min_eq d m : deg_min d m = and_minutes d m.
Proof. unfold deg_min, and_minutes, dnum, whole. now rewrite sixty_eq. Qed.
Lemma in_degrees_eq s r : deg_text s r -> coords_deg s = in_degrees s.
Proof. intros (d1 & d2 & h & g1 & g2 & g3 & e & -> & _). cbn [coords_deg]. now rewrite !hemi_eq. Qed.
Lemma in_minutes_eq s r : min_text s r -> coords_min s = in_minutes s.
Proof. intros (d1 & d2 & m1 & m2 & h & g1 & g2 & g3 & n1 & n2 & e & -> & _). cbn [coords_min]. now rewrite !hemi_eq, !deg_min_eq. Qed.

Section Coords.
Variable G : geodesic.
Variable L : list token.
Hypothesis HL : Forall wt L.
Definition exact_pos (r : rrec) : Prop :=
  r_err r = [] /\ (r_lat r, r_lon r) = (if r_llv r then coordinates G (r_name r) else (f_of_Z 0, f_of_Z 0)).
Lemma pt_exact t p : wt t -> r_name p = t_text t -> exact_pos p -> exact_pos (pt_rec G t p).
Proof.
  intros W E [H0 H]. unfold pt_rec. destruct (t_sub t) eqn:Es; try (split; [exact H0|exact H]); (split; [exact H0|]);
    cbn [set_coords move_bd set_r_llv set_r_lon set_r_lat r_name r_lat r_lon r_llv fst snd]; rewrite E.
  - pose proof (ll_deg_text t W Es) as T. rewrite (in_degrees_eq _ _ T), <- surjective_pairing.
    destruct T as (d1 & d2 & h & g1 & g2 & g3 & e & -> & _). reflexivity.
  - pose proof (ll_min_text t W Es) as T. rewrite (in_minutes_eq _ _ T), <- surjective_pairing.
    destruct T as (d1 & d2 & m1 & m2 & h & g1 & g2 & g3 & n1 & n2 & e & -> & _). reflexivity.
  - destruct (llbd_deg_text t W Es) as (r & T & B). rewrite (in_degrees_eq _ _ T), <- surjective_pairing.
    destruct T as (d1 & d2 & h & g1 & g2 & g3 & e & -> & _), B as (b1 & b2 & b3 & e1 & e2 & e3 & -> & _). reflexivity.
  - destruct (llbd_min_text t W Es) as (r & T & B). rewrite (in_minutes_eq _ _ T), <- surjective_pairing.
    destruct T as (d1 & d2 & m1 & m2 & h & g1 & g2 & g3 & n1 & n2 & e & -> & _), B as (b1 & b2 & b3 & e1 & e2 & e3 & -> & _). reflexivity.
Qed.
Definition pos_err (r : rrec) := (named_pos r, r_err r).
Lemma exact_map r r' : pos_err r = pos_err r' -> exact_pos r -> exact_pos r'.
Proof. unfold pos_err, named_pos, pos. intro E. injection E as E1 E2 E3 E4 E5. unfold exact_pos. now rewrite E1, E2, E3, E4, E5. Qed.
Lemma exact_list l : forall l', map pos_err l = map pos_err l' -> Forall exact_pos l -> Forall exact_pos l'.
Proof.
  induction l as [|r l IH]; intros [|r' l'] E; try discriminate E; [auto|]. cbn [map] in E. intro H. inversion H; subst.
  constructor; [apply (exact_map r); [congruence|assumption]|apply IH; [congruence|assumption]].
Qed.
Lemma pe_break t r : pos_err (append_break_text t r) = pos_err r.
Proof. unfold append_break_text. destruct (pstr_eqb _ _); reflexivity. Qed.
Lemma pe_prev t l p : map pos_err (pt_prev G t l p) = map pos_err l.
Proof. apply pt_prev_map. intros. reflexivity. Qed.
Lemma exact_new nm t : exact_pos (new_rec nm (t_start t) (t_end t) (t_base t) (t_sub t)).
Proof. split; reflexivity. Qed.
Definition einv (x : cfg) : Prop := origin L x /\ Forall exact_pos (recs x).
Lemma ev_exact x y : einv x -> ev G L x y -> einv y.
Proof.
  intros [O H] E. split; [exact (ev_origin G L x y O E)|]. destruct E; try exact H; unfold recs in *; cbn [recc with_p with_p_errs ptc vfrc c_l c_p] in *;
    try (revert H; apply exact_list; rewrite !map_app; cbn [map]; first [reflexivity|now rewrite pe_break]).
  - apply Forall_app. split; [exact H|]. constructor; [split; reflexivity|constructor].
  - apply Forall_app. split; [|constructor; [split; reflexivity|constructor]]. revert H. apply exact_list. rewrite !map_app. reflexivity.
  - rename H0 into It, H1 into Lt. apply Forall_app in H as [H1 H2]. apply Forall_app. split.
    + revert H1. apply exact_list. symmetry. apply pe_prev.
    + constructor; [|constructor]. inversion H2; subst. rewrite Forall_forall in HL. destruct (last_name L x t O Lt) as [N|B].
      * apply pt_exact; auto.
      * rewrite ll_base; auto.
Qed.
Lemma reach_exact k y : reach G L (cfg0 k) y -> Forall exact_pos (recs y).
Proof.
  intro R. apply (reach_ind_inv G L einv ev_exact _ _ R). split; [split; [constructor|exists []; split; [reflexivity|constructor]]|].
  constructor; [split; reflexivity|constructor].
Qed.
End Coords.

(** ** Speed and level *)
Definition exact_perf (r : rrec) : Prop :=
  r_alt_si r = value_or_zero (r_alt r) (level_of (r_alt r)) /\
  r_speed_si r = value_or_zero (r_speed r) (speed_of (r_speed r) (level_of (r_alt r))).
Lemma perf_exact r : perf_ok (perf r) -> exact_perf r.
Proof.
  unfold perf, exact_perf. intros [E|(s & v & Hs & Hv & E)]; injection E as E1 E2 E3 E4; rewrite E1, E2, E3, E4; [split; reflexivity|].
  pose proof (lvl_si_nonneg s (lvl_text_str s Hs)) as Nn. destruct Hs as (c & ds & -> & _).
  split; [reflexivity|]. destruct Hv as (u & es & -> & _ & Hd & Hl). cbn [value_or_zero]. f_equal. cbn [spd_si speed_of]. change (level_of (c :: ds)) with (lvl_si (c :: ds)).
  destruct (N.eqb u 77) eqn:Eu; [|reflexivity]. apply all_digits_forallb in Hd.
  assert (B : (0 <= decimal es < 1000)%Z) by (apply (pow10_le es 3); [lia|exact Hd]).
  destruct (mach_conv (decimal es) (lvl_si (c :: ds)) B Nn) as (f & M1 & M2). unfold mach_of. rewrite M1. change (flit 1 2) with half. now rewrite M2.
Qed.

(** ** Records *)
Section Records.
Variable G : geodesic.
Definition bare (r : rrec) : rrec := set_r_dist (f_of_Z 0) (set_r_brg (f_of_Z 0) r).
Lemma record_eq r : exact_pos G r -> exact_perf r -> record_of G (item_of r) = bare r.
Proof.
  intros [E1 E2] [P1 P2]. unfold record_of, bare. destruct r as [nm a b bs sb al als sp sps br ru er sy ct cs la lo bg ds lv].
  cbn [item_of i_name i_start i_end i_base i_sub i_rules i_text i_stay i_speed i_level i_target i_target_si i_located
       r_name r_start r_end r_base r_sub r_alt r_alt_si r_speed r_speed_si r_break r_rules r_err r_stay r_cto r_cto_si r_lat r_lon r_brg r_dist r_llv set_r_dist set_r_brg] in *.
  cbv zeta. rewrite <- P1, <- P2, <- E2, E1. reflexivity.
Qed.
Lemma bare_same r : no_leg r -> bare r = r.
Proof. destruct r as [nm a b bs sb al als sp sps br ru er sy ct cs la lo bg ds lv]. intros [E1 E2]. cbn in E1, E2. subst. reflexivity. Qed.
Lemma bare_joined r p : joined G r p ->
  set_r_dist (snd (geo_inverse G (r_lat (bare r)) (r_lon (bare r)) (r_lat (bare p)) (r_lon (bare p))))
    (set_r_brg (fst (geo_inverse G (r_lat (bare r)) (r_lon (bare r)) (r_lat (bare p)) (r_lon (bare p)))) (bare r)) = r.
Proof.
  unfold joined. intro E. change (r_lat (bare r)) with (r_lat r). change (r_lon (bare r)) with (r_lon r). change (r_lat (bare p)) with (r_lat p).
  change (r_lon (bare p)) with (r_lon p). rewrite <- E. destruct r. reflexivity.
Qed.
Lemma leg_eq r rest : leg G r rest -> with_leg G (bare r) (map bare rest) = r.
Proof.
  unfold leg, with_leg, next_located. change (r_llv (bare r)) with (r_llv r). destruct (r_llv r); [|apply bare_same].
  destruct rest as [|p m]; cbn [map]; [apply bare_same|]. change (r_llv (bare p)) with (r_llv p). destruct (r_llv p); [apply bare_joined|].
  destruct m as [|q m]; cbn [map]; [apply bare_same|]. change (r_llv (bare q)) with (r_llv q). destruct (r_llv q); [apply bare_joined|apply bare_same].
Qed.
Lemma legs_eq l : legs G l -> with_legs G (map bare l) = l.
Proof.
  unfold legs. induction l as [|r l IH]; [reflexivity|]. cbn [legs_in map with_legs]. rewrite app_nil_r. intros [H1 H2]. rewrite leg_eq by exact H1. now rewrite IH.
Qed.
Lemma route_eq l : Forall (exact_pos G) l -> Forall exact_perf l -> legs G l -> l = route_of G (map item_of l).
Proof.
  intros H1 H2 H3. unfold route_of. rewrite map_map. rewrite (map_ext_in _ bare); [symmetry; now apply legs_eq|].
  intros r Hr. rewrite Forall_forall in H1, H2. apply record_eq; auto.
Qed.

(** ** Fields *)
Lemma error_eq q : defined_error (snd q) = true -> err (fst q) (snd q) = error_of q.
Proof.
  destruct q as [t m]. cbn [fst snd]. unfold defined_error, err, msg, error_of. cbn [fst snd]. destruct (error_message m) as [tm|]; [|discriminate].
  intros _. unfold err_rec. rewrite <- fill_replace. reflexivity.
Qed.
Lemma exact_field depth field b s : field_tokens field <> [] -> parse_field15 G depth field = Ok b s ->
  Forall (exact_pos G) (e_recs (s_ers s)) /\ Forall exact_perf (e_recs (s_ers s)).
Proof.
  intros Hne H. destruct (empty_or field) as [F|F].
  - destruct (parsed_empty G depth field b s H F) as [_ ->]. cbn. split; repeat constructor.
  - destruct (parsed G depth field b s H F) as (W & y & R & -> & _). cbn [e_recs]. unfold final_recs. split; apply Forall_app.
    + split; [|constructor; [split; reflexivity|constructor]].
      apply (exact_list G (recs y)); [symmetry; apply field_recs_map; reflexivity|exact (reach_exact G _ W 0 y R)].
    + split; [|constructor; [split; reflexivity|constructor]]. eapply Forall_impl; [exact perf_exact|].
      eapply Forall_perf_map; [symmetry; apply (field_recs_map perf); reflexivity|]. exact (reach_perf G _ W _ _ R).
Qed.
Lemma complete depth field b s : field_tokens field <> [] -> parse_field15 G depth field = Ok b s ->
  exists l e, reading (field_tokens field) = Some (Gives l e) /\ b = (match e with [] => true | _ => false end) /\ s_ers s = ers_of G l e.
Proof.
  intros Hne H. destruct (exact_field depth field b s Hne H) as [X1 X2]. pose proof (legs_field G depth field b s H) as X3.
  pose proof (field_reads G depth field Hne) as K. rewrite H in K. destruct K as (l & e & K1 & K2 & [K3 K4] & K5 & K6).
  exists l, e. split; [exact K1|]. split; [exact K5|]. unfold ers_of. rewrite <- K2 in *. rewrite <- (route_eq _ X1 X2 X3), <- K6.
  destruct (s_ers s) as [rs es ru]. cbn [e_recs e_errs e_rules] in *. f_equal. rewrite K3. apply map_ext_in. intros q Hq. apply error_eq.
  rewrite forallb_forall in K4. exact (K4 q Hq).
Qed.
Lemma complete_total depth field : field_tokens field <> [] -> 3 * n_tokens field <= depth + 1 ->
  match reading (field_tokens field) with
  | Some (Gives l e) => exists s, parse_field15 G depth field = Ok (match e with [] => true | _ => false end) s /\ s_ers s = ers_of G l e
  | Some Raises => exists s, parse_field15 G depth field = Exn ValueError s
  | None => False
  end.
Proof.
  intros Hne Hd. pose proof (read_or_raise G depth field Hne Hd) as K. destruct (reading (field_tokens field)) as [[l e|]|] eqn:E; [|exact K|exact K].
  destruct K as (b & s & H). destruct (complete depth field b s Hne H) as (l' & e' & E1 & E2 & E3). rewrite E in E1. injection E1 as <- <-. exists s. now rewrite <- E2.
Qed.
End Records.
