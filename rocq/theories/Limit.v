(** * Limit: a run with a smaller recursion limit is the same run, or the beginning of it. *)
From Coq Require Import ZArith NArith List Bool String Lia.
From Coq Require Import Floats.SpecFloat.
From Coq Require Import ZifyBool ZifyNat ZifyN.
From Verif Require Import PyBase PyFloat Enums ErrorTable Regex SyntaxTable Syntax Tokenizer Ers Utils Parser SpecParser SpecLimit ParserFacts.
Import List ListNotations.
Local Open Scope list_scope.
Local Open Scope nat_scope.

Section G.
Variable G : geodesic.
Definition fin {A} (o : out A) : st := match o with Ok _ s | Exn _ s => s end.
Definition grown (s s' : st) : Prop := left_over (s_ers s) (s_ers s').
Lemma starts_refl {A} (l : list A) : starts l l. Proof. exists []. now rewrite app_nil_r. Qed.
Lemma starts_trans {A} (a b c : list A) : starts a b -> starts b c -> starts a c.
Proof. intros (m & ->) (n & ->). exists (m ++ n). now rewrite app_assoc. Qed.
Lemma grown_refl s : grown s s. Proof. split; apply starts_refl. Qed.
Lemma grown_trans a b c : grown a b -> grown b c -> grown a c.
Proof. intros (A & B) (C & D). split; eapply starts_trans; eassumption. Qed.
(** [m] is [m'] with a smaller limit. *)
Definition good {A} (m m' : M A) : Prop := forall s,
  (m s = m' s \/ exists s1, m s = Exn RecursionError s1 /\ grown s1 (fin (m' s))) /\ grown s (fin (m' s)).
Definition grows {A} (m : M A) : Prop := forall s, grown s (fin (m s)).
Lemma good_same {A} (m : M A) : grows m -> good m m.
Proof. intros H s. split; [now left|apply H]. Qed.
Lemma good_bind {A B} (m m' : M A) (f f' : A -> M B) : good m m' -> (forall a, good (f a) (f' a)) -> good (bind m f) (bind m' f').
Proof.
  intros H K s. destruct (H s) as (H1 & H2). unfold bind. destruct H1 as [E|(s1 & E & Gr)].
  - rewrite E. destruct (m' s) as [a s2|e s2]; cbn [fin] in *.
    + destruct (K a s2) as ([E2|(s3 & E2 & G2)] & G3).
      * split; [left; exact E2|]. now apply (grown_trans _ s2).
      * split; [right; exists s3; split; [exact E2|exact G2]|]. now apply (grown_trans _ s2).
    + split; [now left|exact H2].
  - rewrite E. destruct (m' s) as [a s2|e s2]; cbn [fin] in *.
    + destruct (K a s2) as (_ & G3). split; [right; exists s1; split; [reflexivity|]; now apply (grown_trans _ s2)|now apply (grown_trans _ s2)].
    + split; [right; exists s1; auto|exact H2].
Qed.
(** ** The operations *)
Lemma place_upd i f l : (forall r, place (f r) = place r) -> map place (list_upd i f l) = map place l.
Proof. intro H. revert i. induction l as [|a l IH]; intros [|i]; cbn [list_upd map]; [reflexivity..|now rewrite H|now rewrite IH]. Qed.
Lemma g_ret {A} (a : A) : grows (ret a). Proof. intro s. apply grown_refl. Qed.
Lemma g_raise {A} e : grows (@raise A e). Proof. intro s. apply grown_refl. Qed.
Lemma g_lift {A} (r : exn + A) : grows (lift r). Proof. destruct r; [apply g_raise|apply g_ret]. Qed.
Lemma g_opt {A} e (o : option A) : grows (opt_or e o). Proof. destruct o; [apply g_ret|apply g_raise]. Qed.
Lemma g_next : grows tok_next. Proof. intro s. unfold tok_next. destruct (get_next_token _). split; apply starts_refl. Qed.
Lemma g_peek k : grows (tok_peek k). Proof. intro s. apply grown_refl. Qed.
Lemma g_get {A} (f : ers -> exn + A) : grows (ers_get f). Proof. intro s. apply g_lift. Qed.
Lemma g_elems : grows n_elems. Proof. intro s. apply grown_refl. Qed.
Lemma g_rd i : grows (rd i). Proof. intro s. unfold rd. destruct (nth_error _ _); apply grown_refl. Qed.
Lemma g_upd i f : (forall r, place (f r) = place r) -> grows (upd i f).
Proof.
  intros H s. unfold upd. destruct (nth_error _ _); [|apply grown_refl]. split; cbn [fin s_ers e_errs e_recs]; [apply starts_refl|]. rewrite place_upd by exact H. apply starts_refl.
Qed.
Lemma g_tick : grows tick. Proof. intro s. split; apply starts_refl. Qed.
Lemma g_err_mod a b c d e m : grows (ers_mod (add_error a b c d e m)).
Proof. intro s. split; cbn [fin ers_mod s_ers add_error e_errs e_recs]; [eexists; reflexivity|apply starts_refl]. Qed.
Lemma g_app_mod r : grows (ers_mod (append_element r)).
Proof. intro s. split; cbn [fin ers_mod s_ers append_element e_errs e_recs]; [apply starts_refl|]. rewrite map_app. eexists. reflexivity. Qed.
Lemma stay_keeps (t : token) : grows (o <- last_elem ;; i <- deref o ;; r <- rd i ;; r' <- lift (set_stay_time (t_text t) r) ;; upd i (fun _ => r')).
Proof.
  intro s. unfold bind. pose proof (g_get get_last_element s) as K. fold last_elem in K. destruct (last_elem s) as [o s1|e s1]; cbn [fin] in *; [|exact K]. apply (grown_trans _ s1); [exact K|]. clear K s.
  destruct o as [i|]; [|apply grown_refl]. cbn [deref opt_or ret]. unfold rd. destruct (nth_error (e_recs (s_ers s1)) i) as [r|] eqn:E; [|apply grown_refl].
  unfold set_stay_time. destruct (py_int _) as [h|]; [|apply grown_refl]. destruct (py_int _) as [m|]; [|apply grown_refl]. cbn [lift ret]. unfold upd. rewrite E. split; cbn [fin s_ers e_errs e_recs]; [apply starts_refl|].
  match goal with |- starts ?a ?b => assert (b = a) as ->; [|apply starts_refl] end. clear -E. revert i E. induction (e_recs (s_ers s1)) as [|a l IH]; intros [|i] E; cbn [nth_error list_upd map] in *; try discriminate; [injection E as ->; reflexivity|f_equal; now apply IH].
Qed.
Lemma good_assoc {A B C} (m : M A) (f : A -> M B) (g : B -> M C) : forall s, bind (bind m f) g s = bind m (fun a => bind (f a) g) s.
Proof. intro s. unfold bind. destruct (m s); reflexivity. Qed.
Ltac go :=
  repeat (cbv zeta beta; lazymatch goal with
    | |- good (bind _ _) (bind _ _) => apply good_bind; [|intro]
    | |- good (match ?x with _ => _ end) (match ?x with _ => _ end) => destruct x
    | |- good last_elem _ => apply good_same, g_get
    | |- good prev_elem _ => apply good_same, g_get
    | |- good (elem_at _) _ => apply good_same, g_get
    | |- good (deref _) _ => apply good_same, g_opt
    | |- good (ret _) _ => apply good_same, g_ret
    | |- good (lift _) _ => apply good_same, g_lift
    | |- good (opt_or _ _) _ => apply good_same, g_opt
    | |- good tok_next _ => apply good_same, g_next
    | |- good (tok_peek _) _ => apply good_same, g_peek
    | |- good n_elems _ => apply good_same, g_elems
    | |- good (rd _) _ => apply good_same, g_rd
    | |- good (ers_mod (add_error _ _ _ _ _ _)) _ => apply good_same, g_err_mod
    | |- good (ers_mod (append_element _)) _ => apply good_same, g_app_mod
    | |- good (upd _ _) _ => apply good_same, g_upd; intros []; unfold append_break_text; repeat (destruct (pstr_eqb _ _)); reflexivity
    end).
Lemma go_carry : good carry_speed_altitude_rules_forward carry_speed_altitude_rules_forward. Proof. unfold carry_speed_altitude_rules_forward. go. Qed.
Lemma go_err t n : good (add_error_no_re_sync t n) (add_error_no_re_sync t n). Proof. unfold add_error_no_re_sync. go. Qed.
Lemma go_add t : good (add_record t) (add_record t). Proof. unfold add_record, append_rec. go; try apply go_carry. Qed.
Lemma go_alt t i s c : good (assign_altitude t i s c) (assign_altitude t i s c).
Proof. unfold assign_altitude. destruct c; go; try (apply go_err). Qed.
Lemma go_speed i s : good (assign_speed i s) (assign_speed i s). Proof. unfold assign_speed. go. Qed.
Lemma go_lat i s : good (assign_latitude i s) (assign_latitude i s). Proof. unfold assign_latitude, py_float_m. go. Qed.
Lemma go_lon i s : good (assign_longitude i s) (assign_longitude i s). Proof. unfold assign_longitude, py_float_m. go. Qed.
Lemma go_set p q : good (set_azimuth_and_distance G p q) (set_azimuth_and_distance G p q). Proof. unfold set_azimuth_and_distance. go. Qed.
Lemma go_azi : good (assign_azimuth_distance_between_points G) (assign_azimuth_distance_between_points G).
Proof. unfold assign_azimuth_distance_between_points. go; try (apply go_set). Qed.
Lemma go_deg t i s : good (assign_ll_deg G t i s) (assign_ll_deg G t i s).
Proof. unfold assign_ll_deg. go; try (try apply go_lat; try apply go_lon; try apply go_err; apply go_azi). Qed.
Lemma go_min t i s : good (assign_ll_deg_min G t i s) (assign_ll_deg_min G t i s).
Proof. unfold assign_ll_deg_min. go; try (try apply go_lat; try apply go_lon; try apply go_err; apply go_azi). Qed.
Lemma go_brg t s : good (check_bearing t s) (check_bearing t s). Proof. unfold check_bearing. go; try (apply go_err). Qed.
Lemma go_res i s : good (resolve_from_text G i s) (resolve_from_text G i s).
Proof. unfold resolve_from_text, resolve_real_bd_point, py_float_m. go; try (apply go_azi). Qed.
Lemma go_llbd t : good (assign_lat_long_bearing_distance G t) (assign_lat_long_bearing_distance G t).
Proof. unfold assign_lat_long_bearing_distance. go; try (first [apply go_brg|apply go_deg|apply go_min|apply go_res]). Qed.
(** ** The methods *)
Definition after_stay (self : call -> M unit) (nt : token) : M unit :=
    match t_base nt with
    | F15_UNKNOWN => self (CErrSync nt 3)
    | F15_BREAK_START => self (CBreakStart nt)
    | F15_BREAK_END => self (CBreakEndError nt)
    | F15_DCT => self (CDct nt)
    | F15_TRUNCATE => self CTruncate
    | F15_C => self (CCruiseC nt)
    | F15_POINT => self (CPoint nt)
    | F15_ROUTE => self (CRoute nt)
    | F15_SID_STAR => self (CSidStar nt)
    | F15_TOO_LONG => self (CErrSync nt 4)
    | F15_SID => self (CSid nt)
    | F15_STAR => self (CStar nt)
    | _ => self (CErrSync nt 39)
    end.
Lemma good_ext {A} (m m' n n' : M A) : (forall s, n s = m s) -> (forall s, n' s = m' s) -> good m m' -> good n n'.
Proof. intros E E' H s. rewrite E, E'. apply H. Qed.
Lemma go_body self self' : (forall c, good (self c) (self' c)) -> forall c, good (body G self c) (body G self' c).
Proof.
  intros H c.
  assert (Nr : forall k k', (forall t, good (k t) (k' t)) -> good (next_or_return k) (next_or_return k')) by (intros k k' K; unfold next_or_return; go; try apply K).
  assert (Cp : forall t, good (check_point_semantics G t) (check_point_semantics G t)) by (intro t; unfold check_point_semantics; go; try apply go_llbd).
  Local Ltac all H Nr Cp := go; repeat first [apply H | apply go_add | apply go_err | apply go_alt | apply go_speed | apply go_llbd | apply Cp | (apply Nr; intro; go)].
  destruct c; cbn [body].
  - unfold b_add_error_and_re_sync. all H Nr Cp.
  - unfold b_re_sync. all H Nr Cp.
  - unfold b_assign_speed_altitude. all H Nr Cp.
  - unfold b_assign_speed_altitude_altitude. all H Nr Cp.
  - unfold b_assign_speed_altitude_plus. all H Nr Cp.
  - unfold b_assign_speed_vfr. all H Nr Cp.
  - unfold b_break_end. all H Nr Cp.
  - unfold b_break_end_error. all H Nr Cp.
  - unfold b_break_start. all H Nr Cp.
  - unfold b_break_text_save. all H Nr Cp.
  - unfold b_cruise_climb_c. all H Nr Cp.
  - unfold b_cruise_climb_point. all H Nr Cp.
  - unfold b_dct. all H Nr Cp.
  - unfold b_forward_slash. all H Nr Cp.
  - unfold b_post_adep. all H Nr Cp.
  - unfold b_post_point. all H Nr Cp.
  - unfold b_post_sid. all H Nr Cp.
  - unfold b_point. all H Nr Cp.
  - unfold b_route. all H Nr Cp.
  - unfold b_sid. all H Nr Cp.
  - unfold b_sid_star. all H Nr Cp.
  - unfold b_star. all H Nr Cp.
  - unfold b_stay. all H Nr Cp.
  - apply (good_ext (bind (o <- last_elem ;; i <- deref o ;; r <- rd i ;; r' <- lift (set_stay_time (t_text t) r) ;; upd i (fun _ => r')) (fun _ => next_or_return (after_stay self)))
                    (bind (o <- last_elem ;; i <- deref o ;; r <- rd i ;; r' <- lift (set_stay_time (t_text t) r) ;; upd i (fun _ => r')) (fun _ => next_or_return (after_stay self')))).
    + intro s. unfold b_stay_time, after_stay, bind. destruct (last_elem s) as [o s1|]; [|reflexivity]. destruct (deref o s1) as [i s2|]; [|reflexivity]. destruct (rd i s2) as [r s3|]; [|reflexivity]. destruct (lift _ s3); reflexivity.
    + intro s. unfold b_stay_time, after_stay, bind. destruct (last_elem s) as [o s1|]; [|reflexivity]. destruct (deref o s1) as [i s2|]; [|reflexivity]. destruct (rd i s2) as [r s3|]; [|reflexivity]. destruct (lift _ s3); reflexivity.
    + apply good_bind; [apply good_same, stay_keeps|]. intros _. unfold after_stay. all H Nr Cp.
  - unfold b_truncate. all H Nr Cp.
  - unfold b_v_to_i. all H Nr Cp.
  - unfold b_v_to_i_to_v. all H Nr Cp.
Qed.
Lemma good_run : forall d d' c, d <= d' -> good (run G d c) (run G d' c).
Proof.
  assert (R : forall d c, good (run G d c) (run G d c)).
  { induction d as [|d IH]; intro c; cbn [run]; [apply good_same, g_raise|]. apply good_bind; [apply good_same, g_tick|]. intros _. now apply go_body. }
  induction d as [|d IH]; intros [|d'] c L; try lia; [apply R| |].
  - intro s. destruct (R (S d') c s) as (_ & Gr). split; [|exact Gr]. right. exists s. split; [reflexivity|exact Gr].
  - cbn [run]. apply good_bind; [apply good_same, g_tick|]. intros _. apply go_body. intro c0. apply IH. lia.
Qed.
Theorem good_parse d d' : d <= d' -> good (parse_f15 G d) (parse_f15 G d').
Proof.
  intro L. unfold parse_f15, append_rec.
  apply good_bind; [apply good_same; intro s; split; apply starts_refl|]. intros _.
  apply good_bind; [apply good_same; intro s; unfold tok_first; destruct (get_first_token _); split; apply starts_refl|]. intros [t|].
  2:{ go. }
  apply good_bind.
  { destruct (t_base t); first [apply good_run; exact L|apply good_bind; [apply good_run; exact L|intros _]].
    - apply good_bind; [apply good_same, g_get|]. intro o. go.
    - apply good_bind; [apply good_same; intro s; apply grown_refl|]. intro n. destruct (Z.eqb n 1); [apply good_run; exact L|apply good_same, g_ret]. }
  intros _. go; try (apply good_same; intro s; apply grown_refl); try (apply good_same, g_get).
  all: apply good_same; intro s; split; apply starts_refl.
Qed.
(** ** The result *)
Lemma least (P : nat -> Prop) (dec : forall d, {P d} + {~ P d}) D : P D -> exists n, n <= D /\ P n /\ forall d, d < n -> ~ P d.
Proof.
  induction D as [D IH] using (well_founded_induction Wf_nat.lt_wf). intro H.
  destruct (Compare_dec.le_lt_dec D 0) as [Z|Z]; [exists D; repeat split; [lia|exact H|intros; lia]|].
  assert (K : (exists d, d < D /\ P d) \/ forall d, d < D -> ~ P d).
  { clear IH H Z. induction D as [|D IH]; [right; intros; lia|]. destruct IH as [(d & L & Q)|N]; [left; exists d; split; [lia|exact Q]|].
    destruct (dec D) as [Q|Q]; [left; exists D; split; [lia|exact Q]|]. right. intros d L. destruct (PeanoNat.Nat.eq_dec d D) as [->|E]; [exact Q|apply N; lia]. }
  destruct K as [(d & L & Q)|N]; [|exists D; auto]. destruct (IH d L Q) as (n & L' & R). exists n. split; [lia|exact R].
Qed.
Lemma raises_dec (o : out bool) e : {~ raises o e} + {~ ~ raises o e}.
Proof. destruct o as [b s|x s]; [left; intro K; exact K|]. destruct x, e; cbn; first [left; discriminate|right; intro K; apply K; reflexivity]. Qed.
Theorem same_or_limit d d' s : d <= d' -> parse_f15 G d s = parse_f15 G d' s \/ raises (parse_f15 G d s) RecursionError.
Proof. intro L. destruct (good_parse d d' L s) as ([E|(s1 & E & _)] & _); [now left|right]. rewrite E. reflexivity. Qed.
Theorem left_behind d d' s0 : d <= d' ->
  left_over (s_ers s0) (s_ers (final (parse_f15 G d s0))) /\ left_over (s_ers (final (parse_f15 G d s0))) (s_ers (final (parse_f15 G d' s0))).
Proof.
  intro L. split; [apply (good_parse d d ltac:(lia) s0)|].
  destruct (good_parse d d' L s0) as ([E|(s1 & E & K)] & _); rewrite E; [apply grown_refl|exact K].
Qed.
Theorem threshold f : exists o N, ~ raises o RecursionError /\ N <= 3 * n_tokens f - 1 /\
  forall depth, (N <= depth -> parse_field15 G depth f = o) /\ (depth < N -> raises (parse_field15 G depth f) RecursionError).
Proof.
  set (P := fun d => ~ raises (parse_field15 G d f) RecursionError).
  assert (PD : P (3 * n_tokens f - 1)).
  { unfold P, parse_field15, n_tokens. destruct (tokenize_string f15_whitespace f) as [l c]. cbn [tk_list]. destruct l as [|t l].
    - rewrite parse_empty. intro K; exact K.
    - apply no_recursion_error. cbn [length]. lia. }
  destruct (least P (fun d => raises_dec _ _) _ PD) as (N & L & PN & Q).
  exists (parse_field15 G N f), N. split; [exact PN|]. split; [exact L|]. intro d. split.
  - intro Ld. destruct (same_or_limit N d (mkSt (tokenize_string f15_whitespace f) new_ers 0) Ld) as [E|E]; [symmetry; exact E|destruct (PN E)].
  - intro Ld. specialize (Q d Ld). unfold P in Q. destruct (parse_field15 G d f) as [b s|e s]; [destruct Q; intro K; exact K|]. cbn in *. destruct e; try (exfalso; apply Q; discriminate); reflexivity.
Qed.
Lemma same_result d d' f b b' s s' : parse_field15 G d f = Ok b s -> parse_field15 G d' f = Ok b' s' -> parse_field15 G d f = parse_field15 G d' f.
Proof.
  intros E E'. unfold parse_field15 in *. destruct (Compare_dec.le_lt_dec d d') as [L|L].
  - destruct (same_or_limit d d' (mkSt (tokenize_string f15_whitespace f) new_ers 0) L) as [K|K]; [exact K|rewrite E in K; destruct K].
  - destruct (same_or_limit d' d (mkSt (tokenize_string f15_whitespace f) new_ers 0)) as [K|K]; [lia|now symmetry|rewrite E' in K; destruct K].
Qed.
End G.
