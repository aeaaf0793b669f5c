(** * RecMono: records are only ever added, and keep their names and positions. *)
From Coq Require Import ZArith NArith List Bool String Lia.
From Verif Require Import PyBase PyFloat Enums ErrorTable Tokenizer Ers Utils Parser ErrMono.
Import List ListNotations.
Local Open Scope list_scope.
Local Open Scope nat_scope.

Definition place (r : rrec) : pstr * Z * Z := (r_name r, r_start r, r_end r).
Definition places (s : st) : list (pstr * Z * Z) := map place (e_recs (s_ers s)).
Definition ext (s s' : st) : Prop := exists e, places s' = places s ++ e.
Definition rmono {A} (m : M A) : Prop := forall s, ext s (st_out (m s)).
Definition still (f : rrec -> rrec) : Prop := forall r, place (f r) = place r.

Lemma ext_eq s s' : places s' = places s -> ext s s'. Proof. intro H. exists []. now rewrite app_nil_r. Qed.
Lemma ext_refl s : ext s s. Proof. now apply ext_eq. Qed.
Lemma ext_trans a b c : ext a b -> ext b c -> ext a c.
Proof. intros [e E] [f F]. exists (e ++ f). now rewrite F, E, app_assoc. Qed.
Lemma rmono_ret {A} (a : A) : rmono (ret a). Proof. intro s. apply ext_refl. Qed.
Lemma rmono_raise {A} e : rmono (@raise A e). Proof. intro s. apply ext_refl. Qed.
Lemma rmono_bind {A B} (m : M A) (f : A -> M B) : rmono m -> (forall a, rmono (f a)) -> rmono (bind m f).
Proof.
  intros H K s. specialize (H s). unfold bind. destruct (m s) as [a s'|e s']; [|exact H]. exact (ext_trans _ _ _ H (K a s')).
Qed.
Lemma rmono_lift {A} (r : exn + A) : rmono (lift r). Proof. destruct r; [apply rmono_raise|apply rmono_ret]. Qed.
Lemma rmono_opt {A} e (o : option A) : rmono (opt_or e o). Proof. destruct o; [apply rmono_ret|apply rmono_raise]. Qed.
Lemma rmono_deref {A} (o : option A) : rmono (deref o). Proof. apply rmono_opt. Qed.
Lemma rmono_ers_get {A} (f : ers -> exn + A) : rmono (ers_get f). Proof. intro s. unfold ers_get. apply rmono_lift. Qed.
Lemma rmono_rd i : rmono (rd i). Proof. intro s. unfold rd. destruct (nth_error _ _); apply ext_refl. Qed.
Lemma upd_places i f l : (forall r, nth_error l i = Some r -> place (f r) = place r) -> map place (list_upd i f l) = map place l.
Proof.
  revert i. induction l as [|a l IH]; intros [|i] H; cbn [list_upd map]; [reflexivity|reflexivity| |]; [rewrite H by reflexivity; reflexivity|].
  now rewrite IH by (intros r Hr; now apply H).
Qed.
Lemma upd_ext i f s : (forall r, nth_error (e_recs (s_ers s)) i = Some r -> place (f r) = place r) -> ext s (st_out (upd i f s)).
Proof. intro H. unfold upd. destruct (nth_error _ _) eqn:E; [|apply ext_refl]. apply ext_eq. unfold places. cbn. apply upd_places. intros r0 Hr. apply H. congruence. Qed.
Lemma rmono_upd i f : still f -> rmono (upd i f).
Proof. intros H s. apply upd_ext. auto. Qed.
Lemma rmono_next : rmono tok_next. Proof. intro s. unfold tok_next. destruct (get_next_token _). apply ext_eq; reflexivity. Qed.
Lemma rmono_peek k : rmono (tok_peek k). Proof. intro s. apply ext_refl. Qed.
Lemma rmono_nel : rmono n_elems. Proof. intro s. apply ext_refl. Qed.
Lemma rmono_nerr : rmono n_errors. Proof. intro s. apply ext_refl. Qed.
Lemma rmono_count : rmono tok_count. Proof. intro s. apply ext_refl. Qed.
Lemma rmono_append r : rmono (append_rec r).
Proof.
  unfold append_rec. apply rmono_bind; [|intros; apply rmono_ers_get]. intro s. exists [place r]. unfold places. cbn. now rewrite map_app.
Qed.
Lemma rmono_err t n : rmono (add_error_no_re_sync t n).
Proof. unfold add_error_no_re_sync. apply rmono_bind; [apply rmono_opt|]. intros m s. apply ext_eq. reflexivity. Qed.
Lemma rmono_tick : rmono tick. Proof. intro s. apply ext_eq; reflexivity. Qed.
Lemma rmono_fl : rmono last_elem. Proof. apply rmono_ers_get. Qed.
Lemma rmono_fp : rmono prev_elem. Proof. apply rmono_ers_get. Qed.
Lemma rmono_ff : rmono first_elem. Proof. apply rmono_ers_get. Qed.
Lemma rmono_fe i : rmono (elem_at i). Proof. apply rmono_ers_get. Qed.
#[export] Hint Resolve rmono_ret rmono_raise rmono_lift rmono_opt rmono_deref rmono_rd rmono_next rmono_peek rmono_nel rmono_nerr rmono_count
  rmono_append rmono_err rmono_tick rmono_fl rmono_fp rmono_ff rmono_fe : rmono.
Ltac still_tac := let r := fresh in intro r; try (destruct r; reflexivity); repeat match goal with |- context [if ?b then _ else _] => destruct b end; destruct r; reflexivity.
Lemma still_break t : still (append_break_text t).
Proof. intro r. unfold append_break_text. destruct (pstr_eqb _ _); reflexivity. Qed.
Ltac rmono_tac :=
  repeat (cbv zeta; match goal with
  | |- rmono (bind _ _) => apply rmono_bind; [|intro]
  | |- rmono (match ?x with _ => _ end) => destruct x
  | |- forall _, _ => intro
  | |- rmono (upd _ (append_break_text _)) => apply rmono_upd; apply still_break
  | |- rmono (upd _ _) => apply rmono_upd; still_tac
  | |- rmono _ => solve [auto with rmono]
  end).
Lemma rmono_carry : rmono carry_speed_altitude_rules_forward. Proof. unfold carry_speed_altitude_rules_forward. rmono_tac. Qed.
#[export] Hint Resolve rmono_carry : rmono.
Lemma rmono_add_record t : rmono (add_record t). Proof. unfold add_record. rmono_tac. Qed.
Lemma rmono_alt t i s c : rmono (assign_altitude t i s c). Proof. unfold assign_altitude. rmono_tac. Qed.
Lemma rmono_spd i s : rmono (assign_speed i s). Proof. unfold assign_speed. rmono_tac. Qed.
Lemma rmono_pf s : rmono (py_float_m s). Proof. unfold py_float_m. rmono_tac. Qed.
#[export] Hint Resolve rmono_add_record rmono_alt rmono_spd rmono_pf : rmono.
Lemma rmono_lat i s : rmono (assign_latitude i s). Proof. unfold assign_latitude. rmono_tac. Qed.
Lemma rmono_lon i s : rmono (assign_longitude i s). Proof. unfold assign_longitude. rmono_tac. Qed.
#[export] Hint Resolve rmono_lat rmono_lon : rmono.
(** The assignment of the stay time replaces a record by a changed copy of itself. *)
Lemma rmono_stay i text (k : unit -> M unit) : (forall u, rmono (k u)) ->
  rmono (bind (rd i) (fun r => bind (lift (set_stay_time text r)) (fun r' => bind (upd i (fun _ => r')) k))).
Proof.
  intros H s. unfold bind at 1. unfold rd. destruct (nth_error (e_recs (s_ers s)) i) as [r|] eqn:E; [|apply ext_refl].
  unfold bind at 1. destruct (set_stay_time text r) as [e|r'] eqn:Es; [apply ext_refl|]. cbn [lift ret].
  assert (P : place r' = place r).
  { unfold set_stay_time in Es. destruct (py_int _); [|discriminate]. destruct (py_int _); [|discriminate]. injection Es as <-. reflexivity. }
  unfold bind. pose proof (upd_ext i (fun _ => r') s) as U. assert (K : forall r0, nth_error (e_recs (s_ers s)) i = Some r0 -> place r' = place r0) by congruence.
  specialize (U K). destruct (upd i (fun _ => r') s) as [u s'|e s']; [|exact U]. exact (ext_trans _ _ _ U (H u s')).
Qed.
Section G.
Variable G : geodesic.
Lemma rmono_saz i j : rmono (set_azimuth_and_distance G i j). Proof. unfold set_azimuth_and_distance. rmono_tac. Qed.
#[local] Hint Resolve rmono_saz : rmono.
Lemma rmono_azi : rmono (assign_azimuth_distance_between_points G). Proof. unfold assign_azimuth_distance_between_points. rmono_tac. Qed.
#[local] Hint Resolve rmono_azi : rmono.
Lemma rmono_rbd i b d : rmono (resolve_real_bd_point G i b d). Proof. unfold resolve_real_bd_point. rmono_tac. Qed.
Lemma rmono_ld t i s : rmono (assign_ll_deg G t i s). Proof. unfold assign_ll_deg. rmono_tac. Qed.
Lemma rmono_lm t i s : rmono (assign_ll_deg_min G t i s). Proof. unfold assign_ll_deg_min. rmono_tac. Qed.
Lemma rmono_cb t s : rmono (check_bearing t s). Proof. unfold check_bearing. rmono_tac. Qed.
#[local] Hint Resolve rmono_rbd rmono_ld rmono_lm rmono_cb : rmono.
Lemma rmono_rft i s : rmono (resolve_from_text G i s). Proof. unfold resolve_from_text. rmono_tac. Qed.
#[local] Hint Resolve rmono_rft : rmono.
Lemma rmono_ll t : rmono (assign_lat_long_bearing_distance G t). Proof. unfold assign_lat_long_bearing_distance. rmono_tac. Qed.
#[local] Hint Resolve rmono_ll : rmono.
Lemma rmono_cps t : rmono (check_point_semantics G t). Proof. unfold check_point_semantics. rmono_tac. Qed.
#[local] Hint Resolve rmono_cps : rmono.
Lemma rmono_nor k : (forall t, rmono (k t)) -> rmono (next_or_return k).
Proof. intro H. unfold next_or_return. rmono_tac; auto with rmono. Qed.
Lemma rmono_body self c : (forall c, rmono (self c)) -> rmono (body G self c).
Proof.
  intro H. destruct c; cbn [body];
  unfold b_add_error_and_re_sync, b_re_sync, b_assign_speed_altitude, b_assign_speed_altitude_altitude, b_assign_speed_altitude_plus, b_assign_speed_vfr,
    b_break_end, b_break_end_error, b_break_start, b_break_text_save, b_cruise_climb_c, b_cruise_climb_point, b_dct, b_forward_slash, b_post_adep, b_post_point,
    b_post_sid, b_point, b_route, b_sid, b_sid_star, b_star, b_stay, b_stay_time, b_truncate, b_v_to_i, b_v_to_i_to_v;
  repeat (cbv zeta; match goal with
  | |- rmono (bind (rd _) (fun r => bind (lift (set_stay_time _ _)) _)) => apply rmono_stay; intro
  | |- rmono (bind _ _) => apply rmono_bind; [|intro]
  | |- rmono (next_or_return _) => apply rmono_nor; intro
  | |- rmono (self _) => apply H
  | |- rmono (match ?x with _ => _ end) => destruct x
  | |- rmono (upd _ (append_break_text _)) => apply rmono_upd; apply still_break
  | |- rmono (upd _ _) => apply rmono_upd; still_tac
  | |- rmono _ => solve [auto with rmono]
  end).
Qed.
Lemma rmono_run d c : rmono (run G d c).
Proof. revert c. induction d as [|d IH]; intro c; cbn [run]; [apply rmono_raise|]. apply rmono_bind; [apply rmono_tick|]. intros _. now apply rmono_body. Qed.

(** ** parse_f15 on any route sequence *)
Definition grown (s s' : st) : Prop := exists e, places s' = places s ++ e ++ [place (dummy ($"ADES"))].
Lemma parse_errs depth : mono (parse_f15 G depth).
Proof.
  unfold parse_f15. apply mono_bind; [intro s; apply grows_eq; reflexivity|]. intros _.
  apply mono_bind; [intro s; unfold tok_first; destruct (get_first_token _); apply grows_eq; reflexivity|]. intros [t|].
  - apply mono_bind.
    + destruct (t_base t); repeat (apply mono_bind; [|intro]); try apply mono_run; auto with mono. destruct (_ =? _)%Z; [apply mono_run|auto with mono].
    + intros _. repeat (cbv zeta; match goal with
      | |- mono (bind _ _) => apply mono_bind; [|intro]
      | |- mono (match ?x with _ => _ end) => destruct x
      | |- mono _ => solve [auto with mono]
      | |- mono (fun s => Ok tt _) => intro; apply grows_eq; reflexivity
      end).
  - apply mono_bind; [auto with mono|]. intro m. apply mono_bind; [intro s; eexists; reflexivity|]. intros _. apply mono_bind; auto with mono.
Qed.
Lemma bind_inv {A B} (m : M A) (f : A -> M B) s b s' : bind m f s = Ok b s' -> exists a s1, m s = Ok a s1 /\ f a s1 = Ok b s'.
Proof. unfold bind. destruct (m s) as [a s1|]; [|discriminate]. eauto. Qed.
Lemma rmono_ok {A} (m : M A) s a s' : rmono m -> m s = Ok a s' -> ext s s'.
Proof. intros H E. specialize (H s). now rewrite E in H. Qed.
Lemma append_places r s a s' : append_rec r s = Ok a s' -> places s' = places s ++ [place r].
Proof.
  unfold append_rec. intro H. apply bind_inv in H as (u & s1 & H1 & H2). unfold ers_mod in H1. injection H1 as <- <-.
  unfold last_elem, ers_get, lift in H2. destruct (get_last_element _); [discriminate|]. injection H2 as <- <-. unfold places. cbn. now rewrite map_app.
Qed.
Lemma parse_places depth s b s' : parse_f15 G depth s = Ok b s' -> exists e d, places s' = places s ++ e ++ d :: [] /\ d = place (dummy ($"ADES")).
Proof.
  unfold parse_f15. intro H. apply bind_inv in H as (u & s1 & H1 & H). assert (E1 : places s1 = places s) by (unfold assign_syntax_descriptions in H1; injection H1 as <- <-; reflexivity).
  rewrite <- E1. clear H1 E1. apply bind_inv in H as (o & s2 & H2 & H).
  assert (E2 : places s2 = places s1) by (unfold tok_first in H2; destruct (get_first_token _); injection H2 as <- <-; reflexivity).
  rewrite <- E2. clear H2 E2. destruct o as [t|].
  - apply bind_inv in H as (u2 & s3 & H3 & H).
    assert (X3 : ext s2 s3).
    { revert H3. apply rmono_ok.
      destruct (t_base t); repeat (apply rmono_bind; [|intro]); try apply rmono_run; auto with rmono; try (apply rmono_upd; still_tac).
      destruct (_ =? _)%Z; [apply rmono_run|auto with rmono]. }
    clear H3. apply bind_inv in H as (oa & s4 & H4 & H). apply append_places in H4.
    apply bind_inv in H as (op & s5 & H5 & H). assert (E5 : s5 = s4).
    { unfold prev_elem, ers_get, lift in H5. destruct (get_previous_to_last_element _); [discriminate|]. injection H5 as <- <-. reflexivity. }
    subst s5. destruct X3 as [e X3]. exists e, (place (dummy ($"ADES"))). split; [|reflexivity]. rewrite app_assoc, <- X3, <- H4. clear -H. destruct op as [p|].
    + assert (Q : forall (m : M bool) , (forall s, places (st_out (m s)) = places s) -> forall s b s', m s = Ok b s' -> places s' = places s)
        by (intros m K s0 b0 s0' E; specialize (K s0); now rewrite E in K).
      revert H. apply Q. clear. intro s.
      assert (K1 : forall A B (m : M A) (f : A -> M B), (forall s, places (st_out (m s)) = places s) -> (forall a s, places (st_out (f a s)) = places s) ->
         forall s, places (st_out (bind m f s)) = places s).
      { intros A B m f Hm Hf s0. unfold bind. specialize (Hm s0). destruct (m s0) as [a s1|]; [|exact Hm]. cbn [st_out] in Hm. now rewrite Hf. }
      assert (Kd : forall A (o : option A) s, places (st_out (deref o s)) = places s) by (intros A [] s0; reflexivity).
      assert (Kr : forall i s, places (st_out (rd i s)) = places s) by (intros i s0; unfold rd; destruct (nth_error _ _); reflexivity).
      apply K1; [apply Kr|]. intros r s0. apply K1; [apply Kd|]. intros a s1. apply K1.
      { intro s2. unfold upd. destruct (nth_error _ _); [|reflexivity]. unfold places. cbn. apply upd_places. reflexivity. }
      intros _ s2. apply K1; [intro s3; unfold first_elem, ers_get, lift; destruct (get_first_element _); reflexivity|].
      intros o s3. apply K1; [apply Kd|]. intros f s4. apply K1; [apply Kr|]. intros fr s5. apply K1; [reflexivity|]. intros _ s6. apply K1; reflexivity.
    + apply bind_inv in H as (e0 & s6 & H6 & H). unfold n_errors in H6. injection H6 as <- <-. unfold ret in H. injection H as <- <-. reflexivity.
  - apply bind_inv in H as (m & s3 & H3 & H). assert (E3 : s3 = s2) by (revert H3; unfold opt_or; destruct (error_message 41); [intro X; injection X as <- <-; reflexivity|discriminate]).
    subst s3. apply bind_inv in H as (u3 & s4 & H4 & H). unfold ers_mod in H4. injection H4 as <- <-.
    apply bind_inv in H as (oa & s5 & H5 & H). apply append_places in H5. unfold ret in H. injection H as <- <-.
    exists [], (place (dummy ($"ADES"))). split; [|reflexivity]. rewrite H5. reflexivity.
Qed.
End G.
