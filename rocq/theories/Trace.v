(** * Trace: every run of the parser methods is a sequence of elementary events.

    [cfg] is a parser state whose records are known to be non-empty, with two
    bookkeeping lists; [ev] lists the elementary events; [run_sat] shows that a method
    call is a sequence of events, and bounds its calls, its depth and its exceptions. *)
From Coq Require Import ZArith NArith List Bool String Lia.
From Coq Require Import Floats.SpecFloat.
From Coq Require Import ZifyBool ZifyNat ZifyN.
From Verif Require Import PyBase PyFloat Enums ErrorTable Regex SyntaxTable Syntax Tokenizer Ers Utils Parser.
From Verif Require Import TokenizerProofs RegexProofs SyntaxProofs SpecNum NumTables NumProofs ParserPrims PerfEq PointEq.
Import List ListNotations.
Local Open Scope list_scope.
Local Open Scope nat_scope.

(** ** Stay times *)
Definition stay_ok (sb : sub_type) (sh : shape) : bool :=
  (zlen sh =? 4)%Z && shape_incl (sl sh 0 (Some 2%Z)) [[(48, 50)]; [(48, 57)]]%N && shape_incl (sl sh 2 None) [[(48, 53)]; [(48, 57)]]%N
  && (shape_incl (sl sh 0 (Some 1%Z)) [[(48, 49)]]%N || shape_incl (sl sh 1 (Some 2%Z)) [[(48, 51)]]%N).
Lemma stay_all : all_rows F15_STAY_TIME stay_ok = true. Proof. vm_compute. reflexivity. Qed.
Definition hhmm (h1 h2 m1 m2 : N) : Z := ((digit_val h1 * 10 + digit_val h2) * 60 + (digit_val m1 * 10 + digit_val m2))%Z.
Definition stay_min (s : pstr) : Z := match s with [h1; h2; m1; m2] => hhmm h1 h2 m1 m2 | _ => 0%Z end.
Lemma shape1 a c : shape_in [a] [c] -> in_ranges c a = true.
Proof. intro H. inversion H. assumption. Qed.
Lemma shape2 a b c d : shape_in [a; b] [c; d] -> in_ranges c a = true /\ in_ranges d b = true.
Proof. intro H. inversion H as [|? ? ? ? H1 H2]. split; [assumption|]. now apply shape1. Qed.
Lemma stay_fields t : wt t -> t_base t = F15_STAY_TIME ->
  exists h1 h2 m1 m2, t_text t = [h1; h2; m1; m2] /\ forallb is_digit (t_text t) = true /\
    (0 <= stay_min (t_text t) <= 1439)%Z.
Proof.
  intros H Hb. destruct (all_rows_spec F15_STAY_TIME _ t ltac:(discriminate) ltac:(discriminate) H Hb stay_all) as (sh & Hs & K).
  unfold stay_ok in K. apply andb_true_iff in K as [K K4]. apply andb_true_iff in K as [K K3]. apply andb_true_iff in K as [K1 K2].
  assert (Ln : length (t_text t) = 4) by (rewrite <- (Forall2_len _ _ _ Hs); apply Z.eqb_eq in K1; apply Nat2Z.inj; exact K1).
  destruct (t_text t) as [|h1 [|h2 [|m1 [|m2 [|]]]]] eqn:E; try discriminate Ln.
  exists h1, h2, m1, m2. split; [reflexivity|].
  pose proof (shape_incl_sound _ _ _ K2 (shape_slice _ _ (Some 0%Z) (Some 2%Z) Hs)) as Q1.
  pose proof (shape_incl_sound _ _ _ K3 (shape_slice _ _ (Some 2%Z) None Hs)) as Q2.
  change (slice [h1; h2; m1; m2] (Some 0%Z) (Some 2%Z)) with [h1; h2] in Q1.
  change (slice [h1; h2; m1; m2] (Some 2%Z) None) with [m1; m2] in Q2.
  apply shape2 in Q1 as [A1 B1]. apply shape2 in Q2 as [C1 D1].
  unfold in_ranges in *. cbn in A1, B1, C1, D1. split; [cbn; unfold is_digit; lia|].
  assert (Hh : (h1 <= 49)%N \/ (h2 <= 51)%N).
  { apply orb_true_iff in K4 as [K4|K4].
    - left. pose proof (shape_incl_sound _ _ _ K4 (shape_slice _ _ (Some 0%Z) (Some 1%Z) Hs)) as Q.
      change (slice [h1; h2; m1; m2] (Some 0%Z) (Some 1%Z)) with [h1] in Q. apply shape1 in Q. unfold in_ranges in Q. cbn in Q. lia.
    - right. pose proof (shape_incl_sound _ _ _ K4 (shape_slice _ _ (Some 1%Z) (Some 2%Z) Hs)) as Q.
      change (slice [h1; h2; m1; m2] (Some 1%Z) (Some 2%Z)) with [h2] in Q. apply shape1 in Q. unfold in_ranges in Q. cbn in Q. lia. }
  cbn [stay_min]. unfold hhmm, digit_val. lia.
Qed.
Lemma set_stay_eq t r : wt t -> t_base t = F15_STAY_TIME -> set_stay_time (t_text t) r = inr (set_r_stay (stay_min (t_text t)) r).
Proof.
  intros H Hb. destruct (stay_fields t H Hb) as (h1 & h2 & m1 & m2 & E & D & _). rewrite E in *. unfold set_stay_time.
  change (slice [h1; h2; m1; m2] (Some 0%Z) (Some 2%Z)) with [h1; h2]. change (slice [h1; h2; m1; m2] (Some 2%Z) None) with [m1; m2].
  cbn [forallb] in D. repeat (apply andb_true_iff in D; let X := fresh "X" in destruct D as [X D]).
  rewrite !py_int_digits by (first [discriminate|cbn [forallb]; rewrite ?X, ?X0, ?X1, ?X2; reflexivity]).
  cbn [stay_min]. unfold hhmm, decimal, digit_val. cbn [fold_left]. do 2 f_equal; lia.
Qed.

Lemma azi_length G l p : length (azi G l p) = length l.
Proof.
  unfold azi. destruct (r_llv p); [|reflexivity]. rewrite <- (rev_length l). destruct (rev l) as [|q m] eqn:E; cbn [length].
  - apply (f_equal (@length rrec)) in E. now rewrite rev_length in E.
  - assert (E' : length l = S (length m)) by (rewrite <- rev_length, E; reflexivity).
    destruct (r_llv q); [rewrite app_length, rev_length; cbn [length]; lia|].
    destruct m as [|q2 m2]; [exact E'|]. destruct (r_llv q2); [rewrite app_length, rev_length; cbn [length]; lia|exact E'].
Qed.
Lemma pt_prev_length G t l p : length (pt_prev G t l p) = length l.
Proof. unfold pt_prev. destruct (t_sub t); rewrite ?azi_length; reflexivity. Qed.

(** ** Configurations and events *)
Record cfg := mkC { c_cur : nat; c_l : list rrec; c_p : rrec; c_errs : list rrec; c_us : list nat; c_k : nat }.
Definition with_p (x : cfg) (p : rrec) : cfg := mkC (c_cur x) (c_l x) p (c_errs x) (c_us x) (c_k x).
Definition with_p_errs (x : cfg) (p : rrec) (es : list rrec) : cfg := mkC (c_cur x) (c_l x) p (c_errs x ++ es) (c_us x) (c_k x).
Definition nextc (x : cfg) : cfg := mkC (S (c_cur x)) (c_l x) (c_p x) (c_errs x) (c_us x) (c_k x).
Definition tickc (x : cfg) : cfg := mkC (c_cur x) (c_l x) (c_p x) (c_errs x) (c_us x) (S (c_k x)).
Definition errc (x : cfg) (t : token) (n : Z) : cfg := mkC (c_cur x) (c_l x) (c_p x) (c_errs x ++ [err t n]) (c_us x) (c_k x).
Definition recc (x : cfg) (j : nat) (t : token) : cfg :=
  mkC (c_cur x) (c_l x ++ [c_p x]) (carry (c_p x) (tok_rec t)) (c_errs x) (c_us x ++ [j]) (c_k x).

(** Types the parser gives to the record of a SID or STAR, and the base types of such elements. *)
Definition sid_star_types : list (base_type * sub_type) :=
  [(F15_SID, F15_SB_SID); (F15_SID, F15_SB_SID_LITERAL); (F15_STAR, F15_SB_STAR); (F15_STAR, F15_SB_STAR_LITERAL)].
Definition proc_base (b : base_type) : bool :=
  match b with F15_SID | F15_STAR | F15_SID_STAR => true | _ => false end.
Definition a_rule (r : pstr) : Prop := r = RULE_I \/ r = RULE_V \/ r = RULE_O \/ r = RULE_S.

Section G.
Variable G : geodesic.
Variable L : list token.
Variable ru : pstr.
Hypothesis HL : Forall wt L.

Definition st_of (x : cfg) : st := stt L (Z.of_nat (c_cur x)) (c_l x) (c_p x) (c_errs x) ru (c_k x).
Definition ptc (x : cfg) (t : token) : cfg :=
  mkC (c_cur x) (pt_prev G t (c_l x) (c_p x)) (pt_rec G t (c_p x)) (c_errs x ++ pt_errs t) (c_us x) (c_k x).
Definition vfrc (x : cfg) (j : nat) (t : token) (a : Z) : cfg :=
  mkC (c_cur x) (c_l x ++ [copy_perf (vfr_rec a t (c_p x)) (c_p x)]) (vfr_rec a t (c_p x)) (c_errs x) (c_us x ++ [j]) (c_k x).

(** [t] is the token of the last record. *)
Definition last_tok (x : cfg) (t : token) : Prop := exists us j, c_us x = us ++ [j] /\ nth_error L j = Some t.

Inductive ev : cfg -> cfg -> Prop :=
| ev_tick x : ev x (tickc x)
| ev_next x : ev x (nextc x)
| ev_err x t n : In t L -> defined_error n = true -> ev x (errc x t n)
| ev_rec x j t : nth_error L j = Some t -> j <= c_cur x -> ~ In j (c_us x) -> ev x (recc x j t)
| ev_rule x r : a_rule r -> ev x (with_p x (set_r_rules r (c_p x)))
| ev_sa x t a : In t L -> t_base t = F15_SPEED_ALTITUDE -> sa_cut (t_sub t) = Some a ->
    spd_str (text_to a t) -> lvl_str (text_from a t) ->
    ev x (with_p_errs x (sa_rec a t (c_p x)) (lvl_errs t (text_from a t)))
| ev_sap x t a b : In t L -> t_base t = F15_SPEED_ALTITUDE_PLUS -> sap_cut (t_sub t) = Some (a, b) ->
    spd_str (text_to a t) -> lvl_str (text_mid a b t) ->
    ev x (with_p_errs x (sap_rec a b t (c_p x)) (lvl_errs t (text_mid a b t)))
| ev_saa x t a b c : In t L -> t_base t = F15_SPEED_ALTITUDE_ALTITUDE -> saa_cut (t_sub t) = Some (a, b, c) ->
    spd_str (text_to a t) -> lvl_str (text_mid a b t) -> lvl_str (text_from c t) ->
    ev x (with_p_errs x (saa_rec a b c t (c_p x)) (lvl_errs t (text_mid a b t) ++ lvl_errs t (text_from c t)))
| ev_vfr x j t a : nth_error L j = Some t -> j <= c_cur x -> ~ In j (c_us x) -> t_base t = F15_SPEED_VFR -> vfr_cut (t_sub t) = Some a ->
    spd_str (text_to a t) -> ev x (vfrc x j t a)
| ev_break x t : In t L -> ev x (with_p x (append_break_text (t_text t) (c_p x)))
| ev_stay x t : In t L -> t_base t = F15_STAY_TIME -> ev x (with_p x (set_r_stay (stay_min (t_text t)) (c_p x)))
| ev_retype x b sb : In (b, sb) sid_star_types -> proc_base (r_base (c_p x)) = true -> ev x (with_p x (retype b sb (c_p x)))
| ev_pt x t : In t L -> last_tok x t -> ev x (ptc x t).

(** The partial effect of a cruise-climb element whose second level raises ValueError. *)
Inductive evx : cfg -> cfg -> Prop :=
| ev_saa_exn x t : In t L -> t_base t = F15_SPEED_ALTITUDE_ALTITUDE -> is_na_sm (t_sub t) = true -> lvl_str (text_mid 5 9 t) ->
    evx x (with_p_errs x (set_r_cto (text_from 9 t) (set_alt (text_mid 5 9 t) (c_p x))) (lvl_errs t (text_mid 5 9 t))).

Inductive reach : cfg -> cfg -> Prop :=
| r_refl x : reach x x
| r_step x y z : ev x y -> reach y z -> reach x z.
Lemma r_one x y : ev x y -> reach x y.
Proof. intro H. eapply r_step; [exact H|constructor]. Qed.
Lemma r_trans x y z : reach x y -> reach y z -> reach x z.
Proof. induction 1; [auto|]. intro K. eapply r_step; [eassumption|auto]. Qed.

(** States in which an exception leaves the parser. *)
Definition reachx (x y : cfg) : Prop := reach x y \/ exists z, reach x z /\ evx z y.
Lemma rx_trans x y z : reach x y -> reachx y z -> reachx x z.
Proof. intros R [K|(w & K1 & K2)]; [left; now apply (r_trans x y)|right]. exists w. split; [now apply (r_trans x y)|exact K2]. Qed.

Lemma reach_ind_inv (P : cfg -> Prop) : (forall x y, P x -> ev x y -> P y) -> forall x y, reach x y -> P x -> P y.
Proof. intros H x y R. induction R; [auto|]. intro K. apply IHR. eapply H; eauto. Qed.

(** Monotonicity along a run. *)
Lemma ev_cur x y : ev x y -> c_cur x <= c_cur y.
Proof. destruct 1; cbn; lia. Qed.
Lemma reach_cur x y : reach x y -> c_cur x <= c_cur y.
Proof. induction 1; [lia|]. apply ev_cur in H. lia. Qed.
Lemma ev_errs x y : ev x y -> exists e, c_errs y = c_errs x ++ e.
Proof. destruct 1; cbn; try (exists []; now rewrite app_nil_r); eexists; reflexivity. Qed.
Lemma reach_errs x y : reach x y -> exists e, c_errs y = c_errs x ++ e.
Proof.
  induction 1; [exists []; now rewrite app_nil_r|]. apply ev_errs in H as [e E]. destruct IHreach as [e' E'].
  exists (e ++ e'). now rewrite E', E, app_assoc.
Qed.
Lemma ev_us_le x y : ev x y -> (forall i, In i (c_us x) -> i <= c_cur x) -> forall i, In i (c_us y) -> i <= c_cur y.
Proof.
  intros H K i Hi. pose proof (ev_cur _ _ H).
  destruct H; cbn in *; try (apply K in Hi; lia); apply in_app_or in Hi as [Hi|[->|[]]]; [apply K in Hi; lia|lia|apply K in Hi; lia|lia].
Qed.
Definition us_le (x : cfg) : Prop := forall i, In i (c_us x) -> i <= c_cur x.
Lemma reach_us_le x y : reach x y -> us_le x -> us_le y.
Proof. apply (reach_ind_inv us_le). intros a b K E i. exact (ev_us_le a b E K i). Qed.

(** ** Weakest preconditions *)
Definition sat {A} (m : M A) (x : cfg) (Q : A -> cfg -> Prop) (E : exn -> cfg -> Prop) : Prop :=
  match m (st_of x) with
  | Ok a s => exists y, s = st_of y /\ reach x y /\ Q a y
  | Exn e s => exists y, s = st_of y /\ reachx x y /\ E e y
  end.
Lemma sat_ret {A} (a : A) x (Q : A -> cfg -> Prop) E : Q a x -> sat (ret a) x Q E.
Proof. intro H. unfold sat, ret. exists x. split; [reflexivity|]. split; [constructor|exact H]. Qed.
Lemma sat_eq {A} (m : M A) x (a : A) y (Q : A -> cfg -> Prop) E : m (st_of x) = Ok a (st_of y) -> reach x y -> Q a y -> sat m x Q E.
Proof. intros H R K. unfold sat. rewrite H. now exists y. Qed.
Lemma sat_step {A B} (m : M A) (f : A -> M B) x a y Q E :
  m (st_of x) = Ok a (st_of y) -> reach x y -> sat (f a) y Q E -> sat (bind m f) x Q E.
Proof.
  intros H R K. unfold sat in *. rewrite (bind_ok _ _ _ _ _ H). destruct (f a (st_of y)) as [b s|e s];
    destruct K as (z & -> & Rz & Kz); exists z; (split; [reflexivity|]); (split; [first [exact (r_trans _ _ _ R Rz)|exact (rx_trans _ _ _ R Rz)]|exact Kz]).
Qed.
Lemma sat_bind {A B} (m : M A) (f : A -> M B) x (Q1 : A -> cfg -> Prop) (E1 : exn -> cfg -> Prop) Q E :
  sat m x Q1 E1 -> (forall a y, reach x y -> Q1 a y -> sat (f a) y Q E) -> (forall e y, E1 e y -> E e y) -> sat (bind m f) x Q E.
Proof.
  intros H K KE. unfold sat in H. destruct (m (st_of x)) as [a s|e s] eqn:Em; destruct H as (y & -> & R & H).
  - eapply sat_step; [exact Em|exact R|]. now apply K.
  - unfold sat. rewrite (bind_exn _ _ _ _ _ Em). exists y. split; [reflexivity|]. split; [exact R|]. now apply KE.
Qed.
Lemma sat_conseq {A} (m : M A) x (Q1 : A -> cfg -> Prop) (E1 : exn -> cfg -> Prop) (Q : A -> cfg -> Prop) (E : exn -> cfg -> Prop) :
  sat m x Q1 E1 -> (forall a y, reach x y -> Q1 a y -> Q a y) -> (forall e y, E1 e y -> E e y) -> sat m x Q E.
Proof.
  intros H K KE. unfold sat in *. destruct (m (st_of x)) as [a s|e s]; destruct H as (y & -> & R & H); exists y; auto.
Qed.

(** ** Steps *)
Lemma tok_at k : get_token_at (mkTokens L 0) (Z.of_nat k) = nth_error L k.
Proof.
  unfold get_token_at, zlen. cbn [tk_list]. destruct (_ || _)%bool eqn:E.
  - symmetry. apply nth_error_None. lia.
  - now rewrite Nat2Z.id.
Qed.
Lemma tok_next_st x : tok_next (st_of x) = Ok (nth_error L (S (c_cur x))) (st_of (nextc x)).
Proof.
  unfold st_of. rewrite tok_next_eq. cbn [nextc c_cur c_l c_p c_errs c_k]. rewrite <- tok_at, Nat2Z.inj_succ.
  replace (Z.succ (Z.of_nat (c_cur x))) with (Z.of_nat (c_cur x) + 1)%Z by lia. reflexivity.
Qed.
Lemma tok_peek_st x k : tok_peek (Z.of_nat k) (st_of x) = Ok (nth_error L (c_cur x + k)) (st_of x).
Proof. unfold st_of. rewrite tok_peek_eq. rewrite <- tok_at, Nat2Z.inj_add. reflexivity. Qed.

Definition n := length L.
Definition rem (x : cfg) : nat := n - Nat.min (S (c_cur x)) n.
Lemma nth_lt k t : nth_error L k = Some t -> k < n.
Proof. intro H. unfold n. apply nth_error_Some. congruence. Qed.
Lemma nth_in k t : nth_error L k = Some t -> In t L.
Proof. apply nth_error_In. Qed.
Lemma in_wt t : In t L -> wt t.
Proof. rewrite Forall_forall in HL. apply HL. Qed.

Lemma sat_next {B} (f : option token -> M B) x Q E :
  (forall t, nth_error L (S (c_cur x)) = Some t -> sat (f (Some t)) (nextc x) Q E) ->
  (n <= S (c_cur x) -> sat (f None) (nextc x) Q E) -> sat (bind tok_next f) x Q E.
Proof.
  intros H1 H2. eapply sat_step; [apply tok_next_st|apply r_one; constructor|].
  destruct (nth_error L (S (c_cur x))) as [t|] eqn:En; [now apply H1|]. apply H2. now apply nth_error_None in En.
Qed.
Lemma sat_nor (k : token -> M unit) x (Q : unit -> cfg -> Prop) E :
  (forall t, nth_error L (S (c_cur x)) = Some t -> sat (k t) (nextc x) Q E) ->
  (n <= S (c_cur x) -> Q tt (nextc x)) -> sat (next_or_return k) x Q E.
Proof. intros H1 H2. unfold next_or_return. apply sat_next; [exact H1|]. intro K. apply sat_ret. auto. Qed.
Lemma sat_err {B} (f : unit -> M B) x t m Q E : In t L -> defined_error m = true ->
  sat (f tt) (errc x t m) Q E -> sat (bind (add_error_no_re_sync t m) f) x Q E.
Proof. intros H D K. eapply (sat_step _ _ x tt (errc x t m)); [apply add_err_eq; exact D|apply r_one; now constructor|exact K]. Qed.
Lemma sat_rec {B} (f : option nat -> M B) x j t Q E : nth_error L j = Some t -> j <= c_cur x -> ~ In j (c_us x) ->
  sat (f (Some (length (c_l (recc x j t))))) (recc x j t) Q E -> sat (bind (add_record t) f) x Q E.
Proof. intros H1 H2 H3 K. eapply (sat_step _ _ x _ (recc x j t)); [apply add_record_eq|apply r_one; now apply (ev_rec x j t)|exact K]. Qed.
Lemma sat_last {B} (f : option nat -> M B) x Q E :
  sat (f (Some (length (c_l x)))) x Q E -> sat (bind last_elem f) x Q E.
Proof. intros K. eapply (sat_step _ _ x _ x); [apply last_elem_eq|constructor|exact K]. Qed.
Lemma sat_deref {B C} (f : C -> M B) x a Q E : sat (f a) x Q E -> sat (bind (deref (Some a)) f) x Q E.
Proof. intros K. eapply (sat_step _ _ x _ x); [reflexivity|constructor|exact K]. Qed.
Lemma sat_retb {B C} (f : C -> M B) x a Q E : sat (f a) x Q E -> sat (bind (ret a) f) x Q E.
Proof. intros K. eapply (sat_step _ _ x _ x); [reflexivity|constructor|exact K]. Qed.
Lemma sat_rdl {B} (f : rrec -> M B) x i Q E : i = length (c_l x) -> sat (f (c_p x)) x Q E -> sat (bind (rd i) f) x Q E.
Proof. intros -> K. eapply (sat_step _ _ x _ x); [apply rd_last_eq|constructor|exact K]. Qed.
Lemma sat_updl {B} (f : unit -> M B) x i g Q E : i = length (c_l x) -> ev x (with_p x (g (c_p x))) ->
  sat (f tt) (with_p x (g (c_p x))) Q E -> sat (bind (upd i g) f) x Q E.
Proof. intros -> H K. eapply (sat_step _ _ x _ (with_p x (g (c_p x)))); [apply upd_last_eq|apply r_one; exact H|exact K]. Qed.
Lemma sat_updl_end x i g (Q : unit -> cfg -> Prop) E : i = length (c_l x) -> ev x (with_p x (g (c_p x))) ->
  Q tt (with_p x (g (c_p x))) -> sat (upd i g) x Q E.
Proof. intros -> H K. eapply (sat_eq _ x _ (with_p x (g (c_p x)))); [apply upd_last_eq|apply r_one; exact H|exact K]. Qed.
Lemma sat_nel {B} (f : Z -> M B) x Q E : sat (f (Z.of_nat (length (c_l x)) + 1)%Z) x Q E -> sat (bind n_elems f) x Q E.
Proof. intros K. eapply (sat_step _ _ x _ x); [apply n_elems_eq|constructor|exact K]. Qed.
Lemma sat_peek {B} (f : option token -> M B) x k Q E : sat (f (nth_error L (c_cur x + k))) x Q E -> sat (bind (tok_peek (Z.of_nat k)) f) x Q E.
Proof. intros K. eapply (sat_step _ _ x _ x); [apply tok_peek_st|constructor|exact K]. Qed.
Lemma sat_pt {B} (f : unit -> M B) x t Q E : In t L -> last_tok x t -> sat (f tt) (ptc x t) Q E -> sat (bind (assign_lat_long_bearing_distance G t) f) x Q E.
Proof. intros H H' K. eapply (sat_step _ _ x _ (ptc x t)); [apply assign_ll_eq, in_wt; exact H|apply r_one; now constructor|exact K]. Qed.
Lemma sat_chk {B} (f : unit -> M B) x t Q E : In t L -> last_tok x t -> sat (f tt) (ptc x t) Q E -> sat (bind (check_point_semantics G t) f) x Q E.
Proof. intros H H' K. eapply (sat_step _ _ x _ (ptc x t)); [apply check_sem_eq, in_wt; exact H|apply r_one; now constructor|exact K]. Qed.

(** ** Specification of the method calls *)
Definition records_arg (c : call) : bool :=
  match c with
  | CSpdVfr _ | CBreakStart _ | CCruiseC _ | CCruisePoint _ | CDct _ | CPostAdep _ | CPostPoint _
  | CPoint _ | CRoute _ | CSid _ | CSidStar _ | CStar _ => true
  | _ => false
  end.
(** Preconditions of a call; [j] is the index of the token argument where it matters. *)
Definition pre (c : call) (j : nat) (x : cfg) : Prop :=
  match c with
  | CErrSync t m => In t L /\ defined_error m = true
  | CReSync | CPostSid | CTruncate => True
  | CVtoI => exists t1 t2 t3, nth_error L (c_cur x + 1) = Some t1 /\ nth_error L (c_cur x + 2) = Some t2 /\
      nth_error L (c_cur x + 3) = Some t3 /\ t_base t3 = F15_SPEED_ALTITUDE
  | CVtoItoV => exists t1 t2 t3, nth_error L (c_cur x + 1) = Some t1 /\ nth_error L (c_cur x + 2) = Some t2 /\
      nth_error L (c_cur x + 3) = Some t3 /\ t_base t3 = F15_SPEED_VFR
  | CSpdAlt t => In t L /\ t_base t = F15_SPEED_ALTITUDE
  | CSpdAltAlt t => In t L /\ t_base t = F15_SPEED_ALTITUDE_ALTITUDE
  | CSpdAltPlus t => In t L /\ t_base t = F15_SPEED_ALTITUDE_PLUS
  | CStayTime t => In t L /\ t_base t = F15_STAY_TIME
  | CBreakEnd t | CBreakEndError t | CBreakText t | CSlash t | CStay t => In t L
  | CSpdVfr t => nth_error L j = Some t /\ j <= c_cur x /\ ~ In j (c_us x) /\ t_base t = F15_SPEED_VFR
  | CSid t => nth_error L j = Some t /\ j <= c_cur x /\ ~ In j (c_us x) /\ t_base t = F15_SID
  | CSidStar t => nth_error L j = Some t /\ j <= c_cur x /\ ~ In j (c_us x) /\ t_base t = F15_SID_STAR
  | CStar t => nth_error L j = Some t /\ j <= c_cur x /\ ~ In j (c_us x) /\ t_base t = F15_STAR
  | CBreakStart t | CCruiseC t | CCruisePoint t | CDct t | CPostAdep t | CPostPoint t
  | CPoint t | CRoute t => nth_error L j = Some t /\ j <= c_cur x /\ ~ In j (c_us x)
  end.
(** Cost of a call: number of invocations beyond six per remaining token. *)
Definition cost (c : call) : nat :=
  match c with
  | CErrSync _ _ => 2 | CReSync => 1 | CSpdAlt _ | CSpdAltAlt _ | CSpdAltPlus _ | CSpdVfr _ => 1
  | CBreakEnd _ | CBreakEndError _ => 3 | CBreakStart _ => 1 | CBreakText _ => 6 | CCruiseC _ => 1 | CCruisePoint _ => 3
  | CDct _ => 1 | CSlash _ => 3 | CPostAdep _ | CPostPoint _ => 4 | CPostSid => 1 | CPoint _ | CRoute _ => 1
  | CSid _ | CSidStar _ | CStar _ | CStay _ => 3 | CStayTime _ => 1 | CTruncate => 1 | CVtoI | CVtoItoV => 2
  end.
(** Depth of a call beyond three per remaining token. *)
Definition height (c : call) : nat :=
  match c with
  | CErrSync _ _ => 2 | CReSync => 1 | CSpdAlt _ | CSpdAltAlt _ | CSpdAltPlus _ | CSpdVfr _ => 2
  | CBreakEnd _ | CBreakEndError _ => 3 | CBreakStart _ => 2 | CBreakText _ => 4 | CCruiseC _ => 1 | CCruisePoint _ => 3
  | CDct _ => 1 | CSlash _ => 3 | CPostAdep _ | CPostPoint _ => 4 | CPostSid => 1 | CPoint _ => 2 | CRoute _ => 1
  | CSid _ | CSidStar _ | CStar _ | CStay _ => 3 | CStayTime _ => 1 | CTruncate => 1 | CVtoI | CVtoItoV => 2
  end.
Definition fresh_ok (x y : cfg) (r : bool) (j : nat) : Prop :=
  forall i, In i (c_us y) -> In i (c_us x) \/ c_cur x < i \/ (r = true /\ i = j).
Definition budget (x y : cfg) (b : nat) : Prop := c_k y + 6 * rem y <= c_k x + 6 * rem x + b.
Definition has_na : Prop := exists t, In t L /\ is_na_sm (t_sub t) = true.
Definition post (x : cfg) (c : call) (j : nat) (a : unit) (y : cfg) : Prop :=
  budget x y (cost c) /\ fresh_ok x y (records_arg c) j.
Definition epost (d : nat) (x : cfg) (c : call) (e : exn) (y : cfg) : Prop :=
  budget x y (cost c) /\
  ((e = RecursionError /\ d < 3 * rem x + height c) \/ (e = ValueError /\ has_na)).

(** ** One unfolding of each method *)
Section Step.
Variable d : nat.
Hypothesis IH : forall c j x, us_le x -> pre c j x -> sat (run G d c) x (post x c j) (epost d x c).

Ltac simplc := cbn [tickc nextc errc recc with_p with_p_errs ptc vfrc c_cur c_l c_p c_errs c_us c_k records_arg cost height] in *.
Ltac hin Hi := repeat match type of Hi with
  | In _ (_ ++ _) => apply in_app_or in Hi as [Hi|Hi]
  | In _ [_] => destruct Hi as [Hi|[]]
  end.
Ltac us_go Hi := hin Hi; try subst;
  first [ lia
        | left; exact Hi
        | right; right; split; reflexivity
        | match goal with H : forall i, In i ?u -> i <= _ |- _ => match type of Hi with In ?i u => pose proof (H i Hi); lia end end
        | match goal with H : forall i, In i ?u -> _ \/ _ |- _ =>
            match type of Hi with In ?i u => let K := fresh "K" in destruct (H i Hi) as [K|[K|[K K']]]; clear Hi; [us_go K|lia|first [discriminate|subst; lia|subst; right; right; split; reflexivity]] end end ].
Ltac us_tac := unfold us_le, fresh_ok in *; simplc; let i := fresh "i" in let Hi := fresh "Hi" in intros i Hi; us_go Hi.

Lemma sat_tail c' j' z x c j :
  us_le z -> pre c' j' z -> c_cur x <= c_cur z ->
  c_k z + 6 * rem z + cost c' <= c_k x + 6 * rem x + cost c ->
  3 * rem z + height c' + 1 <= 3 * rem x + height c ->
  fresh_ok x z (records_arg c) j ->
  (records_arg c' = true -> c_cur x < j' \/ (records_arg c = true /\ j' = j)) ->
  sat (run G d c') z (post x c j) (epost (S d) x c).
Proof.
  intros US P C B Hh F J. eapply sat_conseq; [exact (IH c' j' z US P)| |].
  - intros [] y R [K1 K2]. split; [unfold budget in *; lia|]. intros i Hi. destruct (K2 i Hi) as [K|[K|[K ->]]]; [now apply F|right; left; lia|].
    destruct (J K) as [J'|J']; auto.
  - intros e y [K1 K2]. split; [unfold budget in *; lia|]. destruct K2 as [[-> K]|K]; [left; split; [reflexivity|lia]|now right].
Qed.
(** A call in the middle of a method. *)
Lemma sat_call c' j' z x c j (f : unit -> M unit) :
  us_le z -> pre c' j' z -> c_cur x <= c_cur z ->
  c_k z + 6 * rem z + cost c' <= c_k x + 6 * rem x + cost c ->
  3 * rem z + height c' + 1 <= 3 * rem x + height c ->
  (forall y, c_cur z <= c_cur y -> us_le y -> budget z y (cost c') -> fresh_ok z y (records_arg c') j' ->
     sat (f tt) y (post x c j) (epost (S d) x c)) ->
  sat (bind (run G d c') f) z (post x c j) (epost (S d) x c).
Proof.
  intros US P C B Hh K. eapply sat_bind; [exact (IH c' j' z US P)| |].
  - intros [] y R [K1 K2]. apply K; auto; [exact (reach_cur _ _ R)|exact (reach_us_le _ _ R US)].
  - intros e y [K1 K2]. split; [unfold budget in *; lia|]. destruct K2 as [[-> K2]|K2]; [left; split; [reflexivity|lia]|now right].
Qed.

Ltac arith := unfold budget, rem in *; simplc; lia.
Ltac in_tac := first [assumption | eapply nth_in; eassumption].
Ltac pre_tac := cbn [pre]; simplc; repeat match goal with
  | |- _ /\ _ => split
  | |- True => exact I
  | |- In _ L => in_tac
  | |- defined_error _ = true => reflexivity
  | |- _ <= _ => lia
  | |- nth_error L _ = Some _ => first [eassumption | reflexivity]
  | |- t_base _ = _ => assumption
  | |- ~ In _ _ => first [assumption | unfold us_le, fresh_ok in *; simplc; let Hi := fresh "Hi" in intro Hi; us_go Hi]
  end.
Ltac nths := repeat match goal with H : nth_error L _ = Some _ |- _ => let K := fresh "Lt" in pose proof (nth_lt _ _ H) as K; revert H end; intros.
Ltac tl jj := nths; apply (sat_tail _ jj); [us_tac|pre_tac|arith|arith|arith|us_tac|simplc; try discriminate; lia].
Ltac done_tac := nths; split; [arith|us_tac].

Ltac J x := constr:(S (c_cur x)).
Lemma step_errsync x j t m : us_le x -> pre (CErrSync t m) j x ->
  sat (b_add_error_and_re_sync (run G d) t m) (tickc x) (post x (CErrSync t m) j) (epost (S d) x (CErrSync t m)).
Proof.
  intros US [P1 P2]. unfold b_add_error_and_re_sync. apply sat_err; [assumption|assumption|]. tl 0.
Qed.
Lemma step_resync x j : us_le x -> pre CReSync j x ->
  sat (b_re_sync (run G d)) (tickc x) (post x CReSync j) (epost (S d) x CReSync).
Proof.
  intros US _. unfold b_re_sync. apply sat_nor; [|intro; done_tac]. intros t Ht.
  destruct (t_base t) eqn:Eb; try (tl (S (c_cur x))).
  apply sat_next; [|intro; tl 0]. intros nt Hnt. destruct (t_base nt) eqn:En; tl (S (S (c_cur x))).
Qed.

(** Equational steps: the method body equals a simpler computation in a later configuration. *)
Lemma sat_rewrite (m m' : M unit) z z' Q E : m (st_of z) = m' (st_of z') -> reach z z' -> sat m' z' Q E -> sat m z Q E.
Proof.
  intros H R K. unfold sat in *. rewrite H. destruct (m' (st_of z')) as [a s|e s]; destruct K as (y & -> & Ry & K);
    exists y; (split; [reflexivity|]); (split; [first [exact (r_trans _ _ _ R Ry)|exact (rx_trans _ _ _ R Ry)]|exact K]).
Qed.

Lemma step_spdalt x j t : us_le x -> pre (CSpdAlt t) j x ->
  sat (b_assign_speed_altitude (run G d) t) (tickc x) (post x (CSpdAlt t) j) (epost (S d) x (CSpdAlt t)).
Proof.
  intros US [P1 P2]. destruct (sa_fields t (in_wt t P1) P2) as (a & Ha & Hs & Hl).
  eapply (sat_rewrite _ _ _ (with_p_errs (tickc x) (sa_rec a t (c_p x)) (lvl_errs t (text_from a t)))).
  - unfold st_of at 1. exact (b_sa_eq (run G d) L _ _ _ _ ru _ t a Ha Hs Hl).
  - apply r_one. exact (ev_sa (tickc x) t a P1 P2 Ha Hs Hl).
  - apply sat_nor; [|intro; done_tac]. intros nt Hnt. apply sat_nel. destruct (_ =? _)%Z; tl (S (c_cur x)).
Qed.
Lemma step_spdaltplus x j t : us_le x -> pre (CSpdAltPlus t) j x ->
  sat (b_assign_speed_altitude_plus (run G d) t) (tickc x) (post x (CSpdAltPlus t) j) (epost (S d) x (CSpdAltPlus t)).
Proof.
  intros US [P1 P2]. destruct (sap_fields t (in_wt t P1) P2) as (a & b & Ha & Hs & Hl & _).
  eapply (sat_rewrite _ _ _ (with_p_errs (tickc x) (sap_rec a b t (c_p x)) (lvl_errs t (text_mid a b t)))).
  - unfold st_of at 1. exact (b_sap_eq (run G d) L _ _ _ _ ru _ t a b Ha Hs Hl).
  - apply r_one. exact (ev_sap (tickc x) t a b P1 P2 Ha Hs Hl).
  - apply sat_nor; [|intro; done_tac]. intros nt Hnt. tl (S (c_cur x)).
Qed.
Lemma step_spdaltalt x j t : us_le x -> pre (CSpdAltAlt t) j x ->
  sat (b_assign_speed_altitude_altitude (run G d) t) (tickc x) (post x (CSpdAltAlt t) j) (epost (S d) x (CSpdAltAlt t)).
Proof.
  intros US [P1 P2]. destruct (saa_fields t (in_wt t P1) P2) as (a & b & c & Ha & Hs & Hl & Hc).
  destruct (is_na_sm (t_sub t)) eqn:Ena.
  - unfold sat. rewrite (b_saa_exn (run G d) L _ _ _ _ ru _ t (in_wt t P1) P2 Ena : b_assign_speed_altitude_altitude (run G d) t (st_of (tickc x)) = _).
    exists (with_p_errs (tickc x) (set_r_cto (text_from 9 t) (set_alt (text_mid 5 9 t) (c_p x))) (lvl_errs t (text_mid 5 9 t))).
    split; [reflexivity|]. split.
    + right. exists (tickc x). split; [constructor|]. refine (ev_saa_exn (tickc x) t P1 P2 Ena _). unfold is_na_sm in Ena. destruct (t_sub t); try discriminate; cbn [saa_cut] in Ha; injection Ha as <- <- <-; exact Hl.
    + split; [arith|]. right. split; [reflexivity|]. now exists t.
  - specialize (Hc eq_refl).
    pose proof (b_saa_eq (run G d) L (Z.of_nat (c_cur x)) (c_l x) (c_p x) (c_errs x) ru (S (c_k x)) t a b c Ha Hs Hl Hc) as Eq.
    rewrite <- app_assoc in Eq.
    eapply (sat_rewrite _ _ _ (with_p_errs (tickc x) (saa_rec a b c t (c_p x)) (lvl_errs t (text_mid a b t) ++ lvl_errs t (text_from c t)))).
    + exact Eq.
    + apply r_one. exact (ev_saa (tickc x) t a b c P1 P2 Ha Hs Hl Hc).
    + apply sat_nor; [|intro; done_tac]. intros nt Hnt. tl (S (c_cur x)).
Qed.
Lemma step_spdvfr x j t : us_le x -> pre (CSpdVfr t) j x ->
  sat (b_assign_speed_vfr (run G d) t) (tickc x) (post x (CSpdVfr t) j) (epost (S d) x (CSpdVfr t)).
Proof.
  intros US (P1 & P2 & P3 & P4). destruct (vfr_fields t (in_wt t (nth_in _ _ P1)) P4) as (a & Ha & Hs & _ & Hv).
  eapply (sat_rewrite _ _ _ (vfrc (tickc x) j t a)).
  - unfold st_of at 1. exact (b_vfr_eq (run G d) L _ _ _ _ ru _ t a Ha Hs Hv).
  - apply r_one. exact (ev_vfr (tickc x) j t a P1 P2 P3 P4 Ha Hs).
  - apply sat_nor; [|intro; done_tac]. intros nt Hnt. tl (S (c_cur x)).
Qed.
Lemma step_breakend x j t : us_le x -> pre (CBreakEnd t) j x ->
  sat (b_break_end (run G d) t) (tickc x) (post x (CBreakEnd t) j) (epost (S d) x (CBreakEnd t)).
Proof.
  intros US P. unfold b_break_end. cbv zeta.
  assert (T : forall y, c_cur x <= c_cur y -> us_le y -> c_k y + 6 * rem y <= c_k x + 6 * rem x + 3 -> fresh_ok x y false j ->
     sat (next_or_return (fun nt => run G d (CPoint nt))) y (post x (CBreakEnd t) j) (epost (S d) x (CBreakEnd t))).
  { intros y C U B F. apply sat_nor; [|intro; done_tac]. intros nt Hnt. tl (S (c_cur y)). }
  apply (sat_peek _ _ 1). cbn [c_cur tickc]. destruct (nth_error L (c_cur x + 1)) as [rcp|] eqn:E1; [|apply sat_ret; done_tac].
  destruct (negb (base_eqb (t_base rcp) F15_POINT)); [apply sat_ret; done_tac|].
  destruct (sub_eqb (t_sub t) F15_SB_IFR); [|apply T; [arith|us_tac|arith|us_tac]].
  apply (sat_peek _ _ 2). cbn [c_cur tickc]. destruct (nth_error L (c_cur x + 2)) as [sl|] eqn:E2; [|tl 0].
  destruct (negb (base_eqb (t_base sl) F15_SLASH)); [apply sat_ret; done_tac|].
  apply (sat_peek _ _ 3). cbn [c_cur tickc]. destruct (nth_error L (c_cur x + 3)) as [sp|] eqn:E3; [|tl 0].
  destruct (base_eqb (t_base sp) F15_SPEED_ALTITUDE) eqn:B1.
  - cbn [negb andb]. apply base_eqb_eq in B1. apply (sat_call _ 0); [us_tac|cbn [pre]; simplc; eauto 10|arith|arith|arith|].
    intros y C U B F. apply T; [arith|assumption|arith|us_tac].
  - destruct (base_eqb (t_base sp) F15_SPEED_VFR) eqn:B2; cbn [negb andb]; [|tl 0].
    apply base_eqb_eq in B2. apply (sat_call _ 0); [us_tac|cbn [pre]; simplc; eauto 10|arith|arith|arith|].
    intros y C U B F. apply T; [arith|assumption|arith|us_tac].
Qed.
Lemma step_breakenderror x j t : us_le x -> pre (CBreakEndError t) j x ->
  sat (b_break_end_error (run G d) t) (tickc x) (post x (CBreakEndError t) j) (epost (S d) x (CBreakEndError t)).
Proof.
  intros US P. cbn [pre] in P. unfold b_break_end_error.
  repeat (destruct (sub_eqb _ _); [tl 0|]). apply sat_ret; done_tac.
Qed.
Lemma step_breakstart x j t : us_le x -> pre (CBreakStart t) j x ->
  sat (b_break_start (run G d) t) (tickc x) (post x (CBreakStart t) j) (epost (S d) x (CBreakStart t)).
Proof.
  intros US (P1 & P2 & P3). unfold b_break_start. apply (sat_rec _ _ j); [assumption|assumption|assumption|].
  apply sat_last.
  assert (T : forall y, c_cur y = c_cur x -> c_k y = S (c_k x) -> c_us y = c_us x ++ [j] ->
     sat (next_or_return (fun nt => if base_eqb (t_base nt) F15_TOO_LONG then run G d (CErrSync nt 4) else run G d (CBreakText nt))) y
       (post x (CBreakStart t) j) (epost (S d) x (CBreakStart t))).
  { intros y C K U. destruct y as [cy ly py ey uy ky]. cbn [c_cur c_k c_us] in C, K, U. subst cy ky uy.
    apply sat_nor; [|intro; done_tac]. intros nt Hnt. destruct (base_eqb _ _); tl 0. }
  destruct (t_sub t); try (apply sat_retb; apply T; reflexivity);
    (eapply sat_bind with (Q1 := fun _ y => c_cur y = c_cur x /\ c_k y = S (c_k x) /\ c_us y = c_us x ++ [j]) (E1 := fun _ _ => False);
     [apply sat_deref; apply sat_updl_end; [reflexivity|apply ev_rule; unfold a_rule; auto|auto]|
      intros _ y _ (C & K & U); now apply T|intros e y []]).
Qed.
Lemma step_breaktext x j t : us_le x -> pre (CBreakText t) j x ->
  sat (b_break_text_save (run G d) t) (tickc x) (post x (CBreakText t) j) (epost (S d) x (CBreakText t)).
Proof.
  intros US P. cbn [pre] in P. unfold b_break_text_save.
  assert (T : forall z y, c_cur x <= c_cur z -> c_cur z <= c_cur y -> us_le y -> c_k y + 6 * rem y <= c_k x + 6 * rem x + 6 -> fresh_ok x y false j ->
     sat (next_or_return (fun nt => run G d (CBreakText nt))) y (post x (CBreakText t) j) (epost (S d) x (CBreakText t))).
  { intros z y C1 C2 U B F. apply sat_nor; [|intro; done_tac]. intros nt Hnt. tl 0. }
  assert (T2 : forall z, c_cur x <= c_cur z -> us_le z -> c_k z + 6 * rem z <= c_k x + 6 * rem x + 3 -> fresh_ok x z false j ->
    sat (o <- last_elem ;; i <- deref o ;; upd i (append_break_text (t_text t)) ;;;
  o <- last_elem ;; i <- deref o ;; r <- rd i ;;
  (if (sub_eqb (t_sub t) F15_SB_IFR && pstr_eqb (r_rules r) RULE_V)%bool then run G d (CBreakEnd t)
   else if (sub_eqb (t_sub t) F15_SB_GAT && pstr_eqb (r_rules r) RULE_O)%bool then run G d (CBreakEnd t)
   else if (sub_eqb (t_sub t) F15_SB_IFPSTART && pstr_eqb (r_rules r) RULE_S)%bool then run G d (CBreakEnd t)
   else ret tt) ;;;
  next_or_return (fun nt => run G d (CBreakText nt))) z (post x (CBreakText t) j) (epost (S d) x (CBreakText t))).
  { intros z C U B F. apply sat_last. apply sat_deref. apply sat_updl; [reflexivity|now constructor|].
    apply sat_last. apply sat_deref. apply sat_rdl; [reflexivity|]. 
    repeat (destruct (_ && _)%bool; [apply (sat_call _ 0); [us_tac|pre_tac|arith|arith|arith|]; intros y C' U' B' F'; apply (T z); [assumption|assumption|assumption|arith|us_tac]|]).
    apply sat_retb. apply (T z); [assumption|simplc; lia|us_tac|arith|us_tac]. }
  destruct (base_eqb _ _).
  - apply (sat_call _ 0); [us_tac|pre_tac|arith|arith|arith|]. intros y C U B F. apply T2; [arith|assumption|arith|us_tac].
  - apply sat_retb. apply T2; [arith|us_tac|arith|us_tac].
Qed.
Lemma step_cruisec x j t : us_le x -> pre (CCruiseC t) j x ->
  sat (b_cruise_climb_c (run G d) t) (tickc x) (post x (CCruiseC t) j) (epost (S d) x (CCruiseC t)).
Proof.
  intros US (P1 & P2 & P3). unfold b_cruise_climb_c.
  apply sat_next; [|intro; apply (sat_rec _ _ j); [assumption|simplc; lia|assumption|]; apply sat_ret; done_tac].
  intros nt Hnt. destruct (t_base nt) eqn:Eb; try (tl (S (c_cur x)));
    try (apply (sat_rec _ _ j); [assumption|simplc; lia|assumption|]; tl (S (c_cur x))).
  apply sat_next; [|intro; apply (sat_rec _ _ j); [assumption|simplc; lia|assumption|]; tl 0].
  intros nt2 Hnt2. tl (S (S (c_cur x))).
Qed.
Lemma step_cruisepoint x j t : us_le x -> pre (CCruisePoint t) j x ->
  sat (b_cruise_climb_point G (run G d) t) (tickc x) (post x (CCruisePoint t) j) (epost (S d) x (CCruisePoint t)).
Proof.
  intros US (P1 & P2 & P3). unfold b_cruise_climb_point. apply (sat_rec _ _ j); [assumption|simplc; lia|assumption|].
  apply sat_pt; [in_tac|exists (c_us x), j; auto|].
  apply sat_next; [|intro; tl 0]. intros nt Hnt.
  assert (T2 : forall y, c_cur x < c_cur y -> us_le y -> c_k y + 6 * rem y <= c_k x + 6 * rem x + 3 -> fresh_ok x y true j ->
    sat (next_or_return (fun nt3 => run G d (CPoint nt3))) y (post x (CCruisePoint t) j) (epost (S d) x (CCruisePoint t))).
  { intros y C U B F. apply sat_nor; [|intro; done_tac]. intros nt3 Hnt3. tl (S (c_cur y)). }
  assert (T1 : forall y, c_cur x < c_cur y -> us_le y -> c_k y + 6 * rem y + 3 <= c_k x + 6 * rem x -> fresh_ok x y true j ->
    sat (o2 <- tok_next ;; match o2 with
      | None => run G d (CErrSync t 28)
      | Some nt2 => match t_base nt2 with
          | F15_SPEED_ALTITUDE_ALTITUDE => run G d (CSpdAltAlt nt2)
          | F15_SPEED_ALTITUDE_PLUS => run G d (CSpdAltPlus nt2)
          | _ => run G d (CErrSync nt2 29)
          end ;;;
          next_or_return (fun nt3 => run G d (CPoint nt3)) end) y (post x (CCruisePoint t) j) (epost (S d) x (CCruisePoint t))).
  { intros y C U B F. apply sat_next; [|intro; tl 0]. intros nt2 Hnt2.
    destruct (t_base nt2) eqn:En; nths; (apply (sat_call _ 0); [us_tac|pre_tac|arith|arith|arith|]; intros y' C' U' B' F'; apply T2; [arith|assumption|arith|us_tac]). }
  destruct (negb _).
  - nths. apply (sat_call _ 0); [us_tac|pre_tac|arith|arith|arith|]. intros y C U B F. apply T1; [arith|assumption|arith|us_tac].
  - nths. apply sat_retb. apply T1; [arith|us_tac|arith|us_tac].
Qed.
Lemma step_dct x j t : us_le x -> pre (CDct t) j x ->
  sat (b_dct (run G d) t) (tickc x) (post x (CDct t) j) (epost (S d) x (CDct t)).
Proof.
  intros US (P1 & P2 & P3). unfold b_dct. apply (sat_rec _ _ j); [assumption|simplc; lia|assumption|].
  apply sat_nor; [|intro; done_tac]. intros nt Hnt. destruct (t_base nt); tl (S (c_cur x)).
Qed.
Lemma step_slash x j t : us_le x -> pre (CSlash t) j x ->
  sat (b_forward_slash (run G d) t) (tickc x) (post x (CSlash t) j) (epost (S d) x (CSlash t)).
Proof.
  intros US P. cbn [pre] in P. unfold b_forward_slash.
  apply sat_next; [|intro; tl 0]. intros nt Hnt. destruct (t_base nt) eqn:Eb; tl (S (c_cur x)).
Qed.
Lemma step_postadep x j t : us_le x -> pre (CPostAdep t) j x ->
  sat (b_post_adep (run G d) t) (tickc x) (post x (CPostAdep t) j) (epost (S d) x (CPostAdep t)).
Proof. intros US (P1 & P2 & P3). unfold b_post_adep. destruct (t_base t) eqn:Eb; tl j. Qed.
Lemma step_postpoint x j t : us_le x -> pre (CPostPoint t) j x ->
  sat (b_post_point (run G d) t) (tickc x) (post x (CPostPoint t) j) (epost (S d) x (CPostPoint t)).
Proof.
  intros US (P1 & P2 & P3). unfold b_post_point. destruct (t_base t) eqn:Eb; try (tl j).
  apply sat_last. apply sat_deref. apply sat_rdl; [reflexivity|]. destruct (is_ll_or_bd _); tl j.
Qed.
Lemma step_postsid x j : us_le x -> pre CPostSid j x ->
  sat (b_post_sid (run G d)) (tickc x) (post x CPostSid j) (epost (S d) x CPostSid).
Proof.
  intros US _. unfold b_post_sid. apply sat_nor; [|intro; done_tac]. intros nt Hnt. destruct (t_base nt) eqn:Eb; tl (S (c_cur x)).
Qed.
Lemma step_point x j t : us_le x -> pre (CPoint t) j x ->
  sat (b_point G (run G d) t) (tickc x) (post x (CPoint t) j) (epost (S d) x (CPoint t)).
Proof.
  intros US (P1 & P2 & P3). unfold b_point. apply (sat_rec _ _ j); [assumption|simplc; lia|assumption|].
  apply sat_last. apply sat_deref. apply sat_updl; [reflexivity|apply ev_rule; unfold a_rule; auto|].
  apply sat_chk; [in_tac|exists (c_us x), j; auto|]. apply sat_nor; [|intro; done_tac]. intros nt Hnt. tl (S (c_cur x)).
Qed.
Lemma step_route x j t : us_le x -> pre (CRoute t) j x ->
  sat (b_route (run G d) t) (tickc x) (post x (CRoute t) j) (epost (S d) x (CRoute t)).
Proof.
  intros US (P1 & P2 & P3). unfold b_route. apply (sat_rec _ _ j); [assumption|simplc; lia|assumption|].
  apply sat_last. apply sat_deref. apply sat_updl; [reflexivity|apply ev_rule; unfold a_rule; auto|].
  apply sat_nor; [|intro; done_tac]. intros nt Hnt. destruct (t_base nt) eqn:Eb; try (tl (S (c_cur x))).
  destruct (is_ll_or_bd _).
  - nths. apply (sat_call _ 0); [us_tac|pre_tac|arith|arith|arith|]. intros y C U B F. tl (S (c_cur x)).
  - apply sat_retb. tl (S (c_cur x)).
Qed.
Lemma step_sid x j t : us_le x -> pre (CSid t) j x ->
  sat (b_sid (run G d) t) (tickc x) (post x (CSid t) j) (epost (S d) x (CSid t)).
Proof.
  intros US (P1 & P2 & P3 & P4). unfold b_sid. apply (sat_rec _ _ j); [assumption|simplc; lia|assumption|].
  apply sat_nel. destruct (_ =? 2)%Z eqn:E2; [|tl 0].
  assert (Ln : length (c_l (recc (tickc x) j t)) = 1) by lia.
  eapply (sat_step _ _ (recc (tickc x) j t) _ (recc (tickc x) j t)); [apply (elem_at_eq L _ _ _ _ _ _ 1); simplc; lia|constructor|].
  apply sat_deref. apply sat_rdl; [now rewrite Ln|]. apply sat_updl; [now rewrite Ln|apply ev_retype; [destruct (pstr_eqb _ _); cbn; tauto|cbn; now rewrite P4]|].
  tl 0.
Qed.
Lemma step_sidstar x j t : us_le x -> pre (CSidStar t) j x ->
  sat (b_sid_star (run G d) t) (tickc x) (post x (CSidStar t) j) (epost (S d) x (CSidStar t)).
Proof.
  intros US (P1 & P2 & P3 & P4). unfold b_sid_star. apply (sat_rec _ _ j); [assumption|simplc; lia|assumption|].
  apply sat_nel. destruct (_ =? 2)%Z eqn:E2.
  - apply sat_deref. apply sat_updl; [reflexivity|apply ev_retype; [destruct (pstr_eqb _ _); cbn; tauto|cbn; now rewrite P4]|]. tl 0.
  - apply (sat_peek _ _ 1). cbn [c_cur tickc recc]. destruct (nth_error L (c_cur x + 1)) as [nt|] eqn:E1.
    + tl 0.
    + apply sat_deref. apply sat_updl_end; [reflexivity|apply ev_retype; [destruct (pstr_eqb _ _); cbn; tauto|cbn; now rewrite P4]|]. done_tac.
Qed.
Lemma step_star x j t : us_le x -> pre (CStar t) j x ->
  sat (b_star (run G d) t) (tickc x) (post x (CStar t) j) (epost (S d) x (CStar t)).
Proof.
  intros US (P1 & P2 & P3 & P4). unfold b_star. apply (sat_rec _ _ j); [assumption|simplc; lia|assumption|].
  apply (sat_peek _ _ 1). cbn [c_cur tickc recc]. destruct (nth_error L (c_cur x + 1)) as [nt|] eqn:E1.
  - tl 0.
  - apply sat_deref. apply sat_updl_end; [reflexivity|apply ev_retype; [destruct (pstr_eqb _ _); cbn; tauto|cbn; now rewrite P4]|]. done_tac.
Qed.
Lemma step_stay x j t : us_le x -> pre (CStay t) j x ->
  sat (b_stay (run G d) t) (tickc x) (post x (CStay t) j) (epost (S d) x (CStay t)).
Proof.
  intros US P. cbn [pre] in P. unfold b_stay. apply sat_next; [|intro; tl 0]. intros nt Hnt.
  destruct (negb _); [tl 0|]. apply sat_next; [|intro; tl 0]. intros nt2 Hnt2.
  destruct (base_eqb (t_base nt2) F15_STAY_TIME) eqn:Eb; cbn [negb]; [|tl 0]. apply base_eqb_eq in Eb. tl 0.
Qed.
Lemma step_staytime x j t : us_le x -> pre (CStayTime t) j x ->
  sat (b_stay_time (run G d) t) (tickc x) (post x (CStayTime t) j) (epost (S d) x (CStayTime t)).
Proof.
  intros US (P1 & P2). unfold b_stay_time. apply sat_last. apply sat_deref. apply sat_rdl; [reflexivity|].
  rewrite (set_stay_eq t _ (in_wt t P1) P2). cbn [lift]. apply sat_retb.
  apply sat_updl; [reflexivity|now apply ev_stay|].
  apply sat_nor; [|intro; done_tac]. intros nt Hnt. destruct (t_base nt) eqn:Eb; tl (S (c_cur x)).
Qed.
Lemma step_truncate x j : us_le x -> pre CTruncate j x ->
  sat (b_truncate (run G d)) (tickc x) (post x CTruncate j) (epost (S d) x CTruncate).
Proof. intros US _. unfold b_truncate. apply sat_nor; [|intro; done_tac]. intros nt Hnt. tl 0. Qed.
Lemma plus1 x : c_cur x + 1 = S (c_cur x). Proof. lia. Qed.
Lemma plus2 x : c_cur x + 2 = S (S (c_cur x)). Proof. lia. Qed.
Lemma plus3 x : c_cur x + 3 = S (S (S (c_cur x))). Proof. lia. Qed.
Lemma step_vtoi x j : us_le x -> pre CVtoI j x ->
  sat (b_v_to_i G (run G d)) (tickc x) (post x CVtoI j) (epost (S d) x CVtoI).
Proof.
  intros US (t1 & t2 & t3 & H1 & H2 & H3 & H4). rewrite plus1 in H1. rewrite plus2 in H2. rewrite plus3 in H3. unfold b_v_to_i.
  apply sat_next; simplc; [|intro; nths; lia]. intros t Ht. replace t with t1 in * by congruence. apply sat_deref.
  apply (sat_rec _ _ (S (c_cur x))); [assumption|simplc; lia|simplc; intro K; apply US in K; lia|].
  apply sat_chk; [in_tac|exists (c_us x), (S (c_cur x)); auto|]. apply sat_deref.
  assert (Ll : forall G t l p, length (pt_prev G t l p) = length l) by exact pt_prev_length.
  apply sat_updl; [unfold ptc; cbn [c_l]; now rewrite Ll|apply ev_rule; unfold a_rule; auto|].
  apply sat_next; simplc; [|intro; nths; lia]. intros t' Ht'.
  apply sat_next; simplc; [|intro; nths; lia]. intros t'' Ht''. replace t'' with t3 in * by congruence. apply sat_deref. tl 0.
Qed.
Lemma step_vtoitov x j : us_le x -> pre CVtoItoV j x ->
  sat (b_v_to_i_to_v (run G d)) (tickc x) (post x CVtoItoV j) (epost (S d) x CVtoItoV).
Proof.
  intros US (t1 & t2 & t3 & H1 & H2 & H3 & H4). rewrite plus1 in H1. rewrite plus2 in H2. rewrite plus3 in H3. unfold b_v_to_i_to_v.
  apply sat_next; simplc; [|intro; nths; lia]. intros t Ht. replace t with t1 in * by congruence. apply sat_deref.
  apply (sat_rec _ _ (S (c_cur x))); [assumption|simplc; lia|simplc; intro K; apply US in K; lia|].
  apply sat_deref.
  apply sat_updl; [reflexivity|apply ev_rule; unfold a_rule; auto|].
  apply sat_next; simplc; [|intro; nths; lia]. intros t' Ht'.
  apply sat_next; simplc; [|intro; nths; lia]. intros t'' Ht''. replace t'' with t3 in * by congruence. apply sat_deref. tl (S (S (S (c_cur x)))).
Qed.
End Step.

(** Every call is a sequence of events within its bounds. *)
Theorem run_sat d : forall c j x, us_le x -> pre c j x -> sat (run G d c) x (post x c j) (epost d x c).
Proof.
  induction d as [|d IH]; intros c j x US P.
  - cbn [run]. unfold sat, raise. exists x. split; [reflexivity|]. split; [left; constructor|]. split; [unfold budget; lia|].
    left. split; [reflexivity|]. destruct c; cbn [height]; lia.
  - cbn [run]. eapply (sat_step _ _ x tt (tickc x)); [apply tick_eq|apply r_one; constructor|].
    destruct c; cbn [body];
    [ now apply step_errsync | now apply step_resync | now apply step_spdalt | now apply step_spdaltalt | now apply step_spdaltplus
    | now apply step_spdvfr | now apply step_breakend | now apply step_breakenderror | now apply step_breakstart | now apply step_breaktext
    | now apply step_cruisec | now apply step_cruisepoint | now apply step_dct | now apply step_slash | now apply step_postadep
    | now apply step_postpoint | now apply step_postsid | now apply step_point | now apply step_route | now apply step_sid
    | now apply step_sidstar | now apply step_star | now apply step_stay | now apply step_staytime | now apply step_truncate
    | now apply step_vtoi | now apply step_vtoitov ].
Qed.
End G.
