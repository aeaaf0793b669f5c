(** * ErrMono: error records are only ever added. *)
From Coq Require Import ZArith NArith List Bool String Lia.
From Verif Require Import PyBase PyFloat Enums ErrorTable Tokenizer Ers Utils Parser.
Import List ListNotations.
Local Open Scope list_scope.
Local Open Scope nat_scope.

Definition errs_of (s : st) : list rrec := e_errs (s_ers s).
Definition grows (s s' : st) : Prop := exists e, errs_of s' = errs_of s ++ e.
Definition st_out {A} (o : out A) : st := match o with Ok _ s | Exn _ s => s end.
Definition mono {A} (m : M A) : Prop := forall s, grows s (st_out (m s)).

Lemma grows_refl s : grows s s. Proof. exists []. now rewrite app_nil_r. Qed.
Lemma grows_eq s s' : errs_of s' = errs_of s -> grows s s'. Proof. intro H. exists []. now rewrite app_nil_r. Qed.
Lemma grows_trans a b c : grows a b -> grows b c -> grows a c.
Proof. intros [e E] [f F]. exists (e ++ f). now rewrite F, E, app_assoc. Qed.
Lemma grows_sandwich a b c : grows a b -> grows b c -> errs_of c = errs_of a -> errs_of b = errs_of a /\ errs_of c = errs_of b.
Proof.
  intros [e E] [f F] H. rewrite F, E in H. rewrite <- app_assoc in H. rewrite <- (app_nil_r (errs_of a)) in H at 2.
  apply app_inv_head in H. apply app_eq_nil in H as [-> ->]. rewrite app_nil_r in *. split; congruence.
Qed.

Lemma mono_ret {A} (a : A) : mono (ret a). Proof. intro s. apply grows_eq; reflexivity. Qed.
Lemma mono_raise {A} e : mono (@raise A e). Proof. intro s. apply grows_eq; reflexivity. Qed.
Lemma mono_bind {A B} (m : M A) (f : A -> M B) : mono m -> (forall a, mono (f a)) -> mono (bind m f).
Proof.
  intros H K s. specialize (H s). unfold bind. destruct (m s) as [a s'|e s']; [|exact H]. exact (grows_trans _ _ _ H (K a s')).
Qed.
Lemma mono_lift {A} (r : exn + A) : mono (lift r). Proof. destruct r; [apply mono_raise|apply mono_ret]. Qed.
Lemma mono_opt {A} e (o : option A) : mono (opt_or e o). Proof. destruct o; [apply mono_ret|apply mono_raise]. Qed.
Lemma mono_deref {A} (o : option A) : mono (deref o). Proof. apply mono_opt. Qed.
Lemma mono_ers_get {A} (f : ers -> exn + A) : mono (ers_get f). Proof. intro s. unfold ers_get. apply mono_lift. Qed.
Lemma mono_rd i : mono (rd i). Proof. intro s. unfold rd. destruct (nth_error _ _); apply grows_eq; reflexivity. Qed.
Lemma mono_upd i f : mono (upd i f). Proof. intro s. unfold upd. destruct (nth_error _ _); apply grows_eq; reflexivity. Qed.
Lemma mono_next : mono tok_next. Proof. intro s. unfold tok_next. destruct (get_next_token _). apply grows_eq; reflexivity. Qed.
Lemma mono_peek k : mono (tok_peek k). Proof. intro s. apply grows_eq; reflexivity. Qed.
Lemma mono_nel : mono n_elems. Proof. intro s. apply grows_eq; reflexivity. Qed.
Lemma mono_nerr : mono n_errors. Proof. intro s. apply grows_eq; reflexivity. Qed.
Lemma mono_count : mono tok_count. Proof. intro s. apply grows_eq; reflexivity. Qed.
Lemma mono_append r : mono (append_rec r).
Proof. unfold append_rec. apply mono_bind; [|intros; apply mono_ers_get]. intro s. apply grows_eq; reflexivity. Qed.
Lemma mono_err t n : mono (add_error_no_re_sync t n).
Proof. unfold add_error_no_re_sync. apply mono_bind; [apply mono_opt|]. intros m s. eexists. reflexivity. Qed.
Lemma mono_tick : mono tick. Proof. intro s. apply grows_eq; reflexivity. Qed.
Lemma mono_fl : mono last_elem. Proof. apply mono_ers_get. Qed.
Lemma mono_fp : mono prev_elem. Proof. apply mono_ers_get. Qed.
Lemma mono_ff : mono first_elem. Proof. apply mono_ers_get. Qed.
Lemma mono_fe i : mono (elem_at i). Proof. apply mono_ers_get. Qed.
#[export] Hint Resolve mono_ret mono_raise mono_lift mono_opt mono_deref mono_rd mono_upd mono_next mono_peek mono_nel mono_nerr mono_count
  mono_append mono_err mono_tick mono_fl mono_fp mono_ff mono_fe : mono.
Ltac mono_tac :=
  repeat (cbv zeta; match goal with
  | |- mono (bind _ _) => apply mono_bind; [|intro]
  | |- mono (match ?x with _ => _ end) => destruct x
  | |- forall _, _ => intro
  | |- mono _ => solve [auto with mono]
  end).
Lemma mono_carry : mono carry_speed_altitude_rules_forward. Proof. unfold carry_speed_altitude_rules_forward. mono_tac. Qed.
#[export] Hint Resolve mono_carry : mono.
Lemma mono_add_record t : mono (add_record t). Proof. unfold add_record. mono_tac. Qed.
Lemma mono_alt t i s c : mono (assign_altitude t i s c). Proof. unfold assign_altitude. mono_tac. Qed.
Lemma mono_spd i s : mono (assign_speed i s). Proof. unfold assign_speed. mono_tac. Qed.
Lemma mono_pf s : mono (py_float_m s). Proof. unfold py_float_m. mono_tac. Qed.
#[export] Hint Resolve mono_add_record mono_alt mono_spd mono_pf : mono.
Lemma mono_lat i s : mono (assign_latitude i s). Proof. unfold assign_latitude. mono_tac. Qed.
Lemma mono_lon i s : mono (assign_longitude i s). Proof. unfold assign_longitude. mono_tac. Qed.
#[export] Hint Resolve mono_lat mono_lon : mono.
Section G.
Variable G : geodesic.
Lemma mono_saz i j : mono (set_azimuth_and_distance G i j). Proof. unfold set_azimuth_and_distance. mono_tac. Qed.
#[local] Hint Resolve mono_saz : mono.
Lemma mono_azi : mono (assign_azimuth_distance_between_points G). Proof. unfold assign_azimuth_distance_between_points. mono_tac. Qed.
#[local] Hint Resolve mono_azi : mono.
Lemma mono_rbd i b d : mono (resolve_real_bd_point G i b d). Proof. unfold resolve_real_bd_point. mono_tac. Qed.
Lemma mono_ld t i s : mono (assign_ll_deg G t i s). Proof. unfold assign_ll_deg. mono_tac. Qed.
Lemma mono_lm t i s : mono (assign_ll_deg_min G t i s). Proof. unfold assign_ll_deg_min. mono_tac. Qed.
Lemma mono_cb t s : mono (check_bearing t s). Proof. unfold check_bearing. mono_tac. Qed.
#[local] Hint Resolve mono_rbd mono_ld mono_lm mono_cb : mono.
Lemma mono_rft i s : mono (resolve_from_text G i s). Proof. unfold resolve_from_text. mono_tac. Qed.
#[local] Hint Resolve mono_rft : mono.
Lemma mono_ll t : mono (assign_lat_long_bearing_distance G t). Proof. unfold assign_lat_long_bearing_distance. mono_tac. Qed.
#[local] Hint Resolve mono_ll : mono.
Lemma mono_cps t : mono (check_point_semantics G t). Proof. unfold check_point_semantics. mono_tac. Qed.
#[local] Hint Resolve mono_cps : mono.
Lemma mono_nor k : (forall t, mono (k t)) -> mono (next_or_return k).
Proof. intro H. unfold next_or_return. mono_tac; auto with mono. Qed.
Lemma mono_body self c : (forall c, mono (self c)) -> mono (body G self c).
Proof.
  intro H. destruct c; cbn [body];
  unfold b_add_error_and_re_sync, b_re_sync, b_assign_speed_altitude, b_assign_speed_altitude_altitude, b_assign_speed_altitude_plus, b_assign_speed_vfr,
    b_break_end, b_break_end_error, b_break_start, b_break_text_save, b_cruise_climb_c, b_cruise_climb_point, b_dct, b_forward_slash, b_post_adep, b_post_point,
    b_post_sid, b_point, b_route, b_sid, b_sid_star, b_star, b_stay, b_stay_time, b_truncate, b_v_to_i, b_v_to_i_to_v;
  repeat (cbv zeta; match goal with
  | |- mono (bind _ _) => apply mono_bind; [|intro]
  | |- mono (next_or_return _) => apply mono_nor; intro
  | |- mono (self _) => apply H
  | |- mono (match ?x with _ => _ end) => destruct x
  | |- mono _ => solve [auto with mono]
  end).
Qed.
Lemma mono_run d c : mono (run G d c).
Proof. revert c. induction d as [|d IH]; intro c; cbn [run]; [apply mono_raise|]. apply mono_bind; [apply mono_tick|]. intros _. now apply mono_body. Qed.
End G.
