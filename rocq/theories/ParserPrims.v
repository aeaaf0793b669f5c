(** * ParserPrims: the effect of the primitive operations of the parser on a state of
    known shape, as equations. *)
From Coq Require Import ZArith NArith List Bool String Lia.
From Coq Require Import Floats.SpecFloat.
From Coq Require Import ZifyBool ZifyNat ZifyN.
From Verif Require Import PyBase PyFloat Enums ErrorTable SyntaxTable Syntax Tokenizer Ers Utils Parser TokenizerProofs SpecNum NumTables NumProofs.
Import List ListNotations.
Local Open Scope list_scope.
Local Open Scope nat_scope.

(** A state whose last record is [p] and whose earlier records are [l]. *)
Definition stt (L : list token) (cur : Z) (l : list rrec) (p : rrec) (errs : list rrec) (ru : pstr) (k : nat) : st :=
  mkSt (mkTokens L cur) (mkErs (l ++ [p]) errs ru) k.

Lemma stt_shape s : e_recs (s_ers s) <> [] ->
  exists l p, s = stt (tk_list (s_toks s)) (tk_cur (s_toks s)) l p (e_errs (s_ers s)) (e_rules (s_ers s)) (s_calls s).
Proof.
  destruct s as [[L cur] [recs errs ru] k]. simpl. intro H. destruct (exists_last H) as [l [p ->]]. now exists l, p.
Qed.

(** ** Monad *)
Lemma bind_ok {A B} (m : M A) (f : A -> M B) s a s' : m s = Ok a s' -> bind m f s = f a s'.
Proof. intro H. unfold bind. now rewrite H. Qed.
Lemma bind_exn {A B} (m : M A) (f : A -> M B) s e s' : m s = Exn e s' -> bind m f s = Exn e s'.
Proof. intro H. unfold bind. now rewrite H. Qed.
Lemma bind_assoc {A B C} (m : M A) (f : A -> M B) (g : B -> M C) s :
  bind (bind m f) g s = bind m (fun a => bind (f a) g) s.
Proof. unfold bind. destruct (m s); reflexivity. Qed.

(** ** Lists *)
Lemma nth_last {A} (l : list A) p q : nth_error (l ++ p :: q) (length l) = Some p.
Proof. rewrite nth_error_app2 by lia. now rewrite Nat.sub_diag. Qed.
Lemma upd_last {A} (l : list A) p q f : list_upd (length l) f (l ++ p :: q) = l ++ f p :: q.
Proof. induction l; simpl; congruence. Qed.
Lemma list_upd_length {A} (l : list A) : forall i f, length (list_upd i f l) = length l.
Proof. induction l as [|a l IH]; intros [|i] f; simpl; auto. Qed.

Section S.
Variables (L : list token) (cur : Z) (l : list rrec) (p : rrec) (errs : list rrec) (ru : pstr) (k : nat).
Notation s0 := (stt L cur l p errs ru k).

Lemma last_elem_eq : last_elem s0 = Ok (Some (length l)) s0.
Proof.
  unfold last_elem, ers_get, get_last_element, get_element_at, get_number_of_elements, stt. cbn [s_ers e_recs].
  unfold zlen. rewrite app_length. cbn [length].
  destruct (0 <? _)%Z eqn:E; [|lia].
  destruct (_ || _)%bool eqn:E1; [lia|]. destruct (_ =? _)%Z eqn:E2; [lia|].
  cbn [lift]. unfold ret. repeat f_equal. lia.
Qed.
Lemma rd_last_eq : rd (length l) s0 = Ok p s0.
Proof. unfold rd, stt. cbn [s_ers e_recs]. now rewrite nth_last. Qed.
Lemma upd_last_eq f : upd (length l) f s0 = Ok tt (stt L cur l (f p) errs ru k).
Proof. unfold upd, stt. cbn [s_ers e_recs s_toks s_calls e_errs e_rules]. now rewrite nth_last, upd_last. Qed.
Lemma n_elems_eq : n_elems s0 = Ok (Z.of_nat (length l) + 1)%Z s0.
Proof. unfold n_elems, get_number_of_elements, zlen, stt. cbn [s_ers e_recs]. rewrite app_length. cbn [length]. repeat f_equal. lia. Qed.
Lemma n_errors_eq : n_errors s0 = Ok (zlen errs) s0.
Proof. reflexivity. Qed.
Lemma first_elem_eq : first_elem s0 = Ok (Some 0) s0.
Proof.
  unfold first_elem, ers_get, get_first_element, get_element_at, get_number_of_elements, stt. cbn [s_ers e_recs].
  unfold zlen. rewrite app_length. cbn [length].
  destruct (_ || _)%bool eqn:E1; [lia|]. destruct (_ =? _)%Z eqn:E2; [lia|]. reflexivity.
Qed.
Lemma elem_at_eq (i : nat) : i <= length l -> elem_at (Z.of_nat i) s0 = Ok (Some i) s0.
Proof.
  intro Hi. unfold elem_at, ers_get, get_element_at, get_number_of_elements, stt. cbn [s_ers e_recs].
  unfold zlen. rewrite app_length. cbn [length].
  destruct (_ || _)%bool eqn:E1; [lia|]. destruct (_ =? _)%Z eqn:E2; [lia|]. cbn [lift]. unfold ret. repeat f_equal. lia.
Qed.
Lemma elem_at_neg (i : Z) : (i < 0)%Z -> elem_at i s0 = Ok None s0.
Proof.
  intro Hi. unfold elem_at, ers_get, get_element_at. destruct (_ || _)%bool eqn:E1; [reflexivity|lia].
Qed.
Lemma tok_next_eq : tok_next s0 = Ok (get_token_at (mkTokens L (cur + 1)) (cur + 1)) (stt L (cur + 1) l p errs ru k).
Proof. reflexivity. Qed.
Lemma tok_first_eq : tok_first s0 = Ok (get_token_at (mkTokens L 0) 0) (stt L 0 l p errs ru k).
Proof. reflexivity. Qed.
Lemma tok_peek_eq j : tok_peek j s0 = Ok (get_token_at (mkTokens L cur) (cur + j)) s0.
Proof. reflexivity. Qed.
Lemma tick_eq : tick s0 = Ok tt (stt L cur l p errs ru (S k)).
Proof. reflexivity. Qed.
Lemma append_rec_eq r : append_rec r s0 = Ok (Some (length (l ++ [p]))) (stt L cur (l ++ [p]) r errs ru k).
Proof.
  unfold append_rec, ers_mod. unfold bind. cbn [s_toks s_ers s_calls stt append_element e_recs e_errs e_rules].
  change (last_elem (stt L cur (l ++ [p]) r errs ru k) = Ok (Some (length (l ++ [p]))) (stt L cur (l ++ [p]) r errs ru k)).
  unfold last_elem, ers_get, get_last_element, get_element_at, get_number_of_elements, stt. cbn [s_ers e_recs].
  unfold zlen. rewrite !app_length. cbn [length].
  destruct (0 <? _)%Z eqn:E; [|lia].
  destruct (_ || _)%bool eqn:E1; [lia|]. destruct (_ =? _)%Z eqn:E2; [lia|].
  cbn [lift]. unfold ret. repeat f_equal. lia.
Qed.
Definition err_rec (t : token) (msg : pstr) : rrec :=
  append_error_text (replace_char 33%N (t_text t) msg) (new_rec (t_text t) (t_start t) (t_end t) (t_base t) (t_sub t)).
Lemma add_error_eq t n msg : error_message n = Some msg ->
  add_error_no_re_sync t n s0 = Ok tt (stt L cur l p (errs ++ [err_rec t msg]) ru k).
Proof. intro H. unfold add_error_no_re_sync. rewrite H. reflexivity. Qed.
End S.

Lemma prev_elem_none L cur p errs ru k :
  prev_elem (stt L cur [] p errs ru k) = Ok None (stt L cur [] p errs ru k).
Proof. reflexivity. Qed.
Lemma prev_elem_eq L cur l q p errs ru k :
  prev_elem (stt L cur (l ++ [q]) p errs ru k) = Ok (Some (length l)) (stt L cur (l ++ [q]) p errs ru k).
Proof.
  unfold prev_elem, ers_get, get_previous_to_last_element, get_element_at, get_number_of_elements, stt. cbn [s_ers e_recs].
  unfold zlen. rewrite !app_length. cbn [length].
  destruct (_ || _)%bool eqn:E1; [lia|]. destruct (_ =? _)%Z eqn:E2; [lia|].
  cbn [lift]. unfold ret. repeat f_equal. lia.
Qed.
Lemma rd_prev_eq L cur l q p errs ru k :
  rd (length l) (stt L cur (l ++ [q]) p errs ru k) = Ok q (stt L cur (l ++ [q]) p errs ru k).
Proof. unfold rd, stt. cbn [s_ers e_recs]. rewrite <- app_assoc. cbn [app]. now rewrite nth_last. Qed.
Lemma upd_prev_eq L cur l q p errs ru k f :
  upd (length l) f (stt L cur (l ++ [q]) p errs ru k) = Ok tt (stt L cur (l ++ [f q]) p errs ru k).
Proof.
  unfold upd, stt. cbn [s_ers e_recs s_toks s_calls e_errs e_rules]. rewrite <- !app_assoc. cbn [app]. now rewrite nth_last, upd_last.
Qed.

(** carry_speed_altitude_rules_forward as a function on the two last records. *)
Definition carry (q r : rrec) : rrec :=
  set_r_rules (r_rules q) (set_r_speed_si (r_speed_si q) (set_r_speed (r_speed q)
    (set_r_alt_si (r_alt_si q) (set_r_alt (r_alt q) r)))).
Lemma carry_eq L cur l q p errs ru k :
  carry_speed_altitude_rules_forward (stt L cur (l ++ [q]) p errs ru k) = Ok tt (stt L cur (l ++ [q]) (carry q p) errs ru k).
Proof.
  unfold carry_speed_altitude_rules_forward, carry.
  rewrite (bind_ok _ _ _ _ _ (last_elem_eq _ _ _ _ _ _ _)).
  rewrite (bind_ok _ _ _ _ _ (prev_elem_eq _ _ _ _ _ _ _ _)). cbn [deref opt_or].
  repeat (rewrite (bind_ok _ _ _ _ _ (eq_refl : ret _ _ = _))).
  repeat (rewrite (bind_ok _ _ _ _ _ (rd_prev_eq _ _ _ _ _ _ _ _)); try rewrite (bind_ok _ _ _ _ _ (upd_last_eq _ _ _ _ _ _ _ _))).
  apply upd_last_eq.
Qed.
Definition tok_rec (t : token) : rrec := new_rec (t_text t) (t_start t) (t_end t) (t_base t) (t_sub t).
Lemma add_record_eq t L cur l p errs ru k :
  add_record t (stt L cur l p errs ru k) = Ok (Some (length (l ++ [p]))) (stt L cur (l ++ [p]) (carry p (tok_rec t)) errs ru k).
Proof.
  unfold add_record. rewrite (bind_ok _ _ _ _ _ (append_rec_eq _ _ _ _ _ _ _ _)).
  rewrite (bind_ok _ _ _ _ _ (carry_eq _ _ _ _ _ _ _ _)). reflexivity.
Qed.

(** ** Errors *)
Definition msg (n : Z) : pstr := match error_message n with Some m => m | None => [] end.
Definition err (t : token) (n : Z) : rrec := err_rec t (msg n).
Definition defined_error (n : Z) : bool := match error_message n with Some _ => true | None => false end.
Lemma add_err_eq t n L cur l p errs ru k : defined_error n = true ->
  add_error_no_re_sync t n (stt L cur l p errs ru k) = Ok tt (stt L cur l p (errs ++ [err t n]) ru k).
Proof. unfold defined_error, err, msg. intro H. apply add_error_eq. now destruct (error_message n). Qed.

(** ** Slices of a letter followed by digits *)
Lemma slice_tail1 (c : N) s : slice (c :: s) (Some 1%Z) None = s.
Proof.
  unfold slice, slice_bound. rewrite zlen_cons. pose proof (zlen_nonneg _ s). 
  destruct (1 <? 0)%Z eqn:E; [lia|]. replace (Z.max 0 (Z.min (zlen s + 1) 1)) with 1%Z by lia.
  change (Z.to_nat 1) with 1. cbn [skipn]. apply firstn_all2. unfold zlen in *. lia.
Qed.
Lemma slice_head1 (c : N) s : slice (c :: s) (Some 0%Z) (Some 1%Z) = [c].
Proof.
  unfold slice, slice_bound. rewrite zlen_cons. pose proof (zlen_nonneg _ s).
  destruct (0 <? 0)%Z eqn:E; [lia|]. destruct (1 <? 0)%Z eqn:E1; [lia|].
  replace (Z.max 0 (Z.min (zlen s + 1) 1)) with 1%Z by lia. replace (Z.max 0 (Z.min (zlen s + 1) 0)) with 0%Z by lia. reflexivity.
Qed.
Lemma is_letter_eq c d : is_letter [c] d = N.eqb c d.
Proof. unfold is_letter. simpl. now rewrite andb_true_r. Qed.

(** A level or speed string: a character followed by at most four digits (three for F and A). *)
Definition lvl_str (s : pstr) : Prop :=
  exists c ds, s = c :: ds /\ ds <> [] /\ forallb is_digit ds = true /\ (zlen ds <= (if is_feet c then 3 else 4))%Z.
Definition spd_str (s : pstr) : Prop :=
  exists c ds, s = c :: ds /\ ds <> [] /\ forallb is_digit ds = true /\ (zlen ds <= (if N.eqb c 77 then 3 else 4))%Z.
(** SI values of such strings. *)
Definition lvl_si (s : pstr) : Z := match s with c :: ds => level_metres c (decimal ds) | [] => 0 end.
Definition spd_si (s : pstr) (alt : Z) : Z :=
  match s with c :: ds => if N.eqb c 77 then mach_ms (decimal ds) alt else speed_ms c (decimal ds) | [] => 0 end.
Definition lvl_errs (t : token) (s : pstr) : list rrec :=
  match s with
  | c :: ds => if N.eqb c 70 && negb (decimal ds mod 5 =? 0)%Z then [err t 40] else []
  | [] => []
  end.
Definition set_alt (s : pstr) (r : rrec) : rrec := set_r_alt_si (PyInt (lvl_si s)) (set_r_alt s r).
Definition set_cto (s : pstr) (r : rrec) : rrec := set_r_cto_si (PyInt (lvl_si s)) (set_r_cto s r).
Definition set_spd (s : pstr) (r : rrec) : rrec := set_r_speed_si (PyInt (spd_si s (num_z (r_alt_si r)))) (set_r_speed s r).

Lemma pow10_le ds n : (zlen ds <= n)%Z -> forallb is_digit ds = true -> (0 <= decimal ds < 10 ^ n)%Z.
Proof.
  intros H Hd. pose proof (decimal_bound ds Hd). assert (10 ^ zlen ds <= 10 ^ n)%Z by (apply Z.pow_le_mono_r; lia). lia.
Qed.

Ltac bok H := rewrite (bind_ok _ _ _ _ _ H).
Ltac bret := rewrite (bind_ok _ _ _ _ _ (eq_refl : ret _ _ = Ok _ _)).

Lemma assign_altitude_eq t s b L cur l p errs ru k : lvl_str s ->
  assign_altitude t (length l) s b (stt L cur l p errs ru k)
  = Ok tt (stt L cur l ((if b then set_cto s else set_alt s) p) (errs ++ lvl_errs t s) ru k).
Proof.
  intros (c & ds & -> & Hne & Hd & Hl). unfold assign_altitude.
  bok (upd_last_eq L cur l p errs ru k (if b then set_r_cto (c :: ds) else set_r_alt (c :: ds))).
  rewrite slice_tail1, slice_head1, py_int_digits by assumption. cbn [opt_or]. bret. cbv zeta.
  rewrite !is_letter_eq. unfold set_cto, set_alt, lvl_errs, lvl_si, level_metres. unfold is_feet, is_metric in *.
  change (flit 1 2) with half.
  destruct (N.eqb c 65) eqn:EA.
  - assert (c = 65%N) as -> by lia. cbn [N.eqb Pos.eqb orb andb] in *. bret.
    rewrite feet_conv by (apply (pow10_le ds 3); assumption). cbn [lift]. bret. rewrite upd_last_eq, app_nil_r. destruct b; reflexivity.
  - destruct (N.eqb c 70) eqn:EF.
    + cbn [orb andb] in *. rewrite bind_assoc.
      pose proof (feet_conv (decimal ds) ltac:(apply (pow10_le ds 3); assumption)) as FC.
      destruct (negb (decimal ds mod 5 =? 0)%Z) eqn:E5.
      * bok (add_err_eq t 40 L cur l ((if b then set_r_cto (c :: ds) else set_r_alt (c :: ds)) p) errs ru k eq_refl). bret. rewrite FC. cbn [lift]. bret.
        rewrite upd_last_eq. destruct b; reflexivity.
      * bret. bret. rewrite FC. cbn [lift]. bret. rewrite upd_last_eq, app_nil_r. destruct b; reflexivity.
    + cbn [orb andb] in *.
      assert (H4 : (0 <= decimal ds < 10000)%Z) by (apply (pow10_le ds 4); assumption).
      destruct (N.eqb c 83 || N.eqb c 77)%bool; cbn [orb]; bret;
        rewrite ?(metric_conv _ H4), ?(plain_conv _ H4); cbn [lift]; bret; rewrite upd_last_eq, app_nil_r; destruct b; reflexivity.
Qed.

Lemma assign_speed_eq s L cur l p errs ru k : spd_str s -> (0 <= num_z (r_alt_si p))%Z ->
  assign_speed (length l) s (stt L cur l p errs ru k) = Ok tt (stt L cur l (set_spd s p) errs ru k).
Proof.
  intros (c & ds & -> & Hne & Hd & Hl) Ha. unfold assign_speed.
  bok (upd_last_eq L cur l p errs ru k (set_r_speed (c :: ds))).
  bok (rd_last_eq L cur l (set_r_speed (c :: ds) p) errs ru k).
  rewrite slice_tail1, slice_head1, py_int_digits by assumption. cbn [opt_or]. bret. cbv zeta.
  rewrite !is_letter_eq. unfold set_spd, spd_si, speed_ms. change (flit 1 2) with half.
  change (r_alt_si (set_r_speed (c :: ds) p)) with (r_alt_si p).
  destruct (N.eqb c 77) eqn:EM.
  - assert (c = 77%N) as -> by lia. cbn [N.eqb Pos.eqb].
    destruct (mach_conv (decimal ds) (num_z (r_alt_si p)) ltac:(apply (pow10_le ds 3); assumption) Ha) as [f [E1 E2]].
    rewrite E1. cbn [lift]. bret. rewrite E2. cbn [lift]. bret. apply upd_last_eq.
  - assert (H4 : (0 <= decimal ds < 10000)%Z) by (apply (pow10_le ds 4); assumption).
    destruct (N.eqb c 75); [|destruct (N.eqb c 78)]; bret; rewrite ?(kmh_conv _ H4), ?(knots_conv _ H4), ?(plain_conv _ H4); cbn [lift]; bret; apply upd_last_eq.
Qed.
