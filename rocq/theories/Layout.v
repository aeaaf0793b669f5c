(** * Layout: the positions of the tokens do not influence the run (lemmas behind PropsLayout).

    [er] sets every position in a state to zero; it commutes with every method. *)
From Coq Require Import ZArith NArith List Bool String Lia.
From Coq Require Import Floats.SpecFloat.
From Coq Require Import ZifyBool ZifyNat ZifyN.
From Verif Require Import PyBase PyFloat Enums ErrorTable Tokenizer Ers Utils Parser SpecTokenizer TokenizerProofs SpecParser SpecLayout.
Import List ListNotations.
Local Open Scope list_scope.
Local Open Scope nat_scope.

Definition er_tok (t : token) : token := mkToken (t_text t) 0 0 (t_base t) (t_sub t).
Definition er_rec (r : rrec) : rrec :=
  mkR (r_name r) 0 0 (r_base r) (r_sub r) (r_alt r) (r_alt_si r) (r_speed r) (r_speed_si r) (r_break r) (r_rules r) (r_err r) (r_stay r)
      (r_cto r) (r_cto_si r) (r_lat r) (r_lon r) (r_brg r) (r_dist r) (r_llv r).
Definition er_toks (ts : tokens) : tokens := mkTokens (map er_tok (tk_list ts)) (tk_cur ts).
Definition er_ers (x : ers) : ers := mkErs (map er_rec (e_recs x)) (map er_rec (e_errs x)) (e_rules x).
Definition er (s : st) : st := mkSt (er_toks (s_toks s)) (er_ers (s_ers s)) (s_calls s).
Definition er_call (c : call) : call :=
  match c with
  | CErrSync t n => CErrSync (er_tok t) n
  | CReSync => CReSync
  | CSpdAlt t => CSpdAlt (er_tok t)
  | CSpdAltAlt t => CSpdAltAlt (er_tok t)
  | CSpdAltPlus t => CSpdAltPlus (er_tok t)
  | CSpdVfr t => CSpdVfr (er_tok t)
  | CBreakEnd t => CBreakEnd (er_tok t)
  | CBreakEndError t => CBreakEndError (er_tok t)
  | CBreakStart t => CBreakStart (er_tok t)
  | CBreakText t => CBreakText (er_tok t)
  | CCruiseC t => CCruiseC (er_tok t)
  | CCruisePoint t => CCruisePoint (er_tok t)
  | CDct t => CDct (er_tok t)
  | CSlash t => CSlash (er_tok t)
  | CPostAdep t => CPostAdep (er_tok t)
  | CPostPoint t => CPostPoint (er_tok t)
  | CPostSid => CPostSid
  | CPoint t => CPoint (er_tok t)
  | CRoute t => CRoute (er_tok t)
  | CSid t => CSid (er_tok t)
  | CSidStar t => CSidStar (er_tok t)
  | CStar t => CStar (er_tok t)
  | CStay t => CStay (er_tok t)
  | CStayTime t => CStayTime (er_tok t)
  | CTruncate => CTruncate
  | CVtoI => CVtoI
  | CVtoItoV => CVtoItoV
  end.

Definition er_out {A} (f : A -> A) (o : out A) : out A :=
  match o with Ok a s => Ok (f a) (er s) | Exn e s => Exn e (er s) end.
(** [m'] does on erased states what [m] does. *)
Definition com {A} (f : A -> A) (m m' : M A) : Prop := forall s, m' (er s) = er_out f (m s).
Definition idf {A} (a : A) : A := a.

Lemma com_bind {A B} (f : A -> A) (g : B -> B) (m m' : M A) (k k' : A -> M B) :
  com f m m' -> (forall a, com g (k a) (k' (f a))) -> com g (bind m k) (bind m' k').
Proof. intros H K s. unfold bind. rewrite H. destruct (m s); cbn [er_out]; [apply K|reflexivity]. Qed.
Lemma com_ret {A} (f : A -> A) a a' : f a = a' -> com f (ret a) (ret a').
Proof. intros <- s. reflexivity. Qed.
Lemma com_raise {A} (f : A -> A) e : com f (raise e) (raise e).
Proof. intro s. reflexivity. Qed.
Lemma com_opt {A} e (o : option A) : com idf (opt_or e o) (opt_or e o).
Proof. intro s. destruct o; reflexivity. Qed.
Lemma com_opt_tok (o : option token) : com er_tok (deref o) (deref (option_map er_tok o)).
Proof. intro s. destruct o; reflexivity. Qed.
Lemma com_deref {A} (o : option A) : com idf (deref o) (deref o).
Proof. apply com_opt. Qed.
Lemma com_lift {A} (r : exn + A) : com idf (lift r) (lift r).
Proof. intro s. destruct r; reflexivity. Qed.
Lemma zlen_map {A B} (f : A -> B) l : zlen (map f l) = zlen l.
Proof. unfold zlen. now rewrite map_length. Qed.
Lemma at_er ts i : get_token_at (er_toks ts) i = option_map er_tok (get_token_at ts i).
Proof. unfold get_token_at, er_toks. cbn [tk_list]. rewrite zlen_map. destruct (_ || _)%bool; [reflexivity|]. apply nth_error_map. Qed.
Lemma com_next : com (option_map er_tok) tok_next tok_next.
Proof. intro s. unfold tok_next, get_next_token. cbn [er s_toks s_ers s_calls er_toks tk_list tk_cur er_out]. f_equal. exact (at_er (mkTokens (tk_list (s_toks s)) (tk_cur (s_toks s) + 1)) _). Qed.
Lemma com_first : com (option_map er_tok) tok_first tok_first.
Proof. intro s. unfold tok_first, get_first_token. cbn [er s_toks s_ers s_calls er_toks tk_list tk_cur er_out]. f_equal. exact (at_er (mkTokens (tk_list (s_toks s)) 0) _). Qed.
Lemma com_peek k : com (option_map er_tok) (tok_peek k) (tok_peek k).
Proof. intro s. unfold tok_peek, peek_next_token. cbn [er s_toks er_out]. now rewrite at_er. Qed.
Lemma com_count : com idf tok_count tok_count.
Proof. intro s. unfold tok_count, get_number_of_tokens. cbn [er s_toks er_out er_toks tk_list]. now rewrite zlen_map. Qed.
Lemma get_at_er x i : get_element_at (er_ers x) i = get_element_at x i.
Proof. unfold get_element_at, get_number_of_elements, er_ers. cbn [e_recs]. now rewrite zlen_map. Qed.
Lemma com_get {A} (f : ers -> exn + A) : (forall x, f (er_ers x) = f x) -> com idf (ers_get f) (ers_get f).
Proof. intros H s. unfold ers_get. cbn [er s_ers]. rewrite H. destruct (f (s_ers s)); reflexivity. Qed.
Lemma n_er x : get_number_of_elements (er_ers x) = get_number_of_elements x.
Proof. unfold get_number_of_elements, er_ers. cbn [e_recs]. now rewrite zlen_map. Qed.
Lemma com_last : com idf last_elem last_elem.
Proof. apply com_get. intro x. unfold get_last_element. now rewrite !n_er, get_at_er. Qed.
Lemma com_prev : com idf prev_elem prev_elem.
Proof. apply com_get. intro x. unfold get_previous_to_last_element. now rewrite !n_er, get_at_er. Qed.
Lemma com_first_elem : com idf first_elem first_elem.
Proof. apply com_get. intro x. unfold get_first_element. now rewrite get_at_er. Qed.
Lemma com_elem_at i : com idf (elem_at i) (elem_at i).
Proof. apply com_get. intro x. apply get_at_er. Qed.
Lemma com_n : com idf n_elems n_elems.
Proof. intro s. unfold n_elems. cbn [er s_ers er_out]. now rewrite n_er. Qed.
Lemma com_nerr : com idf n_errors n_errors.
Proof. intro s. unfold n_errors, get_number_of_errors. cbn [er s_ers er_out er_ers e_errs]. now rewrite zlen_map. Qed.
Lemma com_rd i : com er_rec (rd i) (rd i).
Proof. intro s. unfold rd. cbn [er s_ers er_ers e_recs]. rewrite nth_error_map. destruct (nth_error _ i); reflexivity. Qed.
Lemma upd_er (f f' : rrec -> rrec) : (forall r, f' (er_rec r) = er_rec (f r)) -> forall l i, list_upd i f' (map er_rec l) = map er_rec (list_upd i f l).
Proof. intros H l. induction l as [|a l IH]; intros [|i]; cbn [list_upd map]; rewrite ?H, ?IH; reflexivity. Qed.
Lemma com_upd i (f f' : rrec -> rrec) : (forall r, f' (er_rec r) = er_rec (f r)) -> com idf (upd i f) (upd i f').
Proof.
  intros H s. unfold upd. cbn [er s_ers er_ers e_recs e_errs e_rules s_toks s_calls]. rewrite nth_error_map.
  destruct (nth_error _ i); cbn [option_map er_out]; [|reflexivity]. unfold er, er_ers. cbn [s_toks s_ers s_calls e_recs e_errs e_rules]. now rewrite (upd_er f f' H).
Qed.
Lemma com_mod (f f' : ers -> ers) : (forall x, f' (er_ers x) = er_ers (f x)) -> com idf (ers_mod f) (ers_mod f').
Proof. intros H s. unfold ers_mod. cbn [er s_ers s_toks s_calls er_out]. unfold er. cbn [s_ers s_toks s_calls]. now rewrite H. Qed.
Lemma com_append r : com idf (append_rec r) (append_rec (er_rec r)).
Proof.
  unfold append_rec. eapply com_bind; [|intros; apply com_last]. apply com_mod. intro x. unfold append_element, er_ers. cbn [e_recs e_errs e_rules].
  now rewrite map_app.
Qed.
Lemma er_break t r : append_break_text t (er_rec r) = er_rec (append_break_text t r).
Proof. unfold append_break_text. cbn [er_rec r_break]. destruct (pstr_eqb _ _); reflexivity. Qed.

Lemma com_err t n : com idf (add_error_no_re_sync t n) (add_error_no_re_sync (er_tok t) n).
Proof.
  unfold add_error_no_re_sync. eapply com_bind; [apply com_opt|]. intro m. apply com_mod. intro x.
  unfold add_error, er_ers. cbn [e_recs e_errs e_rules er_tok t_text t_start t_end t_base t_sub idf]. rewrite map_app. reflexivity.
Qed.

Ltac cm1 := first
  [ apply com_ret; reflexivity | apply com_raise | apply com_next | apply com_first | apply com_peek | apply com_count | apply com_last | apply com_prev | apply com_first_elem
  | apply com_elem_at | apply com_n | apply com_nerr | apply com_rd | apply com_append | apply com_err | apply com_opt_tok | apply com_deref | apply com_opt | apply com_lift
  | apply com_upd; first [reflexivity | intro; apply er_break] ].
Lemma com_bind1 {A B} (g : B -> B) (m m' : M A) (k k' : A -> M B) :
  com idf m m' -> (forall a, com g (k a) (k' a)) -> com g (bind m k) (bind m' k').
Proof. intros H K. exact (com_bind idf g m m' k k' H K). Qed.
Ltac cmb := match goal with
  | |- com _ (bind tok_next _) _ => apply (com_bind (option_map er_tok)); [apply com_next|intros [?|]]
  | |- com _ (bind tok_first _) _ => apply (com_bind (option_map er_tok)); [apply com_first|intros [?|]]
  | |- com _ (bind (tok_peek _) _) _ => apply (com_bind (option_map er_tok)); [apply com_peek|intros [?|]]
  | |- com _ (bind (rd _) _) _ => apply (com_bind er_rec); [apply com_rd|intro]
  | |- com _ (bind (@deref token _) _) _ => apply (com_bind er_tok); [apply com_opt_tok|intro]
  | |- com _ (bind _ _) _ => apply com_bind1; [|intro]
  end.
Ltac cm2 := fail.
Ltac cmr := cbv zeta; cbn [er_tok er_rec t_text t_start t_end t_base t_sub option_map r_name r_base r_sub r_alt r_alt_si r_speed r_speed_si r_rules r_lat r_lon r_llv].
Ltac cm := first [ cm2 | cm1 | cmb; cmr; cm | progress cmr; cm
  | match goal with |- com _ (if ?b then _ else _) _ => destruct b; cm end
  | match goal with |- com _ (match ?x with _ => _ end) _ => destruct x; cm end ].
Lemma com_carry : com idf carry_speed_altitude_rules_forward carry_speed_altitude_rules_forward.
Proof. unfold carry_speed_altitude_rules_forward. cm. Qed.
Lemma com_add t : com idf (add_record t) (add_record (er_tok t)).
Proof. unfold add_record. eapply com_bind; [exact (com_append (new_rec (t_text t) (t_start t) (t_end t) (t_base t) (t_sub t)))|]. intro a. eapply com_bind; [apply com_carry|]. intros _. apply com_ret. reflexivity. Qed.
Ltac cm2 ::= apply com_add.
Ltac cmx := cm.
Lemma com_alt t i s c : com idf (assign_altitude t i s c) (assign_altitude (er_tok t) i s c).
Proof. unfold assign_altitude. eapply com_bind; [apply com_upd; destruct c; reflexivity|]. intro. eapply com_bind; [cmx|intro]. eapply com_bind; [|intro].
  - instantiate (1 := idf). cbv zeta. destruct (is_letter _ 65); [cmx|]. destruct (is_letter _ 70).
    + eapply com_bind; [instantiate (1 := idf)|intro; cmx]. destruct (negb _); [apply com_err|cmx].
    + cmx.
  - eapply com_bind; [cmx|intro]. apply com_upd; destruct c; reflexivity.
Qed.
Lemma com_speed i s : com idf (assign_speed i s) (assign_speed i s).
Proof. unfold assign_speed. cmx. Qed.
Lemma com_pyf s : com idf (py_float_m s) (py_float_m s).
Proof. apply com_opt. Qed.
Ltac cm2 ::= first [ apply com_add | apply com_alt | apply com_speed | apply com_pyf ].
Lemma com_lat i l : com idf (assign_latitude i l) (assign_latitude i l).
Proof. unfold assign_latitude. cbv zeta. eapply com_bind; [instantiate (1 := idf); cmx|intro; cmx]. Qed.
Lemma com_lon i l : com idf (assign_longitude i l) (assign_longitude i l).
Proof. unfold assign_longitude. cbv zeta. eapply com_bind; [instantiate (1 := idf); cmx|intro; cmx]. Qed.

Section G.
Variable G : geodesic.
Lemma com_set p q : com idf (set_azimuth_and_distance G p q) (set_azimuth_and_distance G p q).
Proof. unfold set_azimuth_and_distance. cmx. Qed.
Lemma com_az : com idf (assign_azimuth_distance_between_points G) (assign_azimuth_distance_between_points G).
Proof. unfold assign_azimuth_distance_between_points. 
  eapply com_bind; [cmx|intros [l|]; [|cmx]]. cbn [idf]. eapply com_bind; [cmx|intros [p|]; [|cmx]]. cbn [idf].
  eapply com_bind; [cmx|intro a]. cbn [er_rec r_llv]. destruct (r_llv a); [|cmx]. eapply com_bind; [cmx|intro b]. cbn [er_rec r_llv]. destruct (r_llv b); [apply com_set|].
  eapply com_bind; [cmx|intro n]. eapply com_bind; [cmx|intros [q|]; [|cmx]]. cbn [idf]. eapply com_bind; [cmx|intro c]. cbn [er_rec r_llv]. destruct (r_llv c); [apply com_set|cmx].
Qed.
Lemma com_res i a b : com idf (resolve_real_bd_point G i a b) (resolve_real_bd_point G i a b).
Proof.
  unfold resolve_real_bd_point. eapply com_bind; [cmx|intro r]. cbn [er_rec r_lat r_lon]. destruct (geo_direct _ _ _ _ _) as [la lo].
  eapply com_bind; [cmx|intro]. eapply com_bind; [cmx|intro]. apply com_az.
Qed.
Lemma com_bit (b : bool) t n : com idf (if b then ret tt else add_error_no_re_sync t n) (if b then ret tt else add_error_no_re_sync (er_tok t) n).
Proof. destruct b; [apply com_ret; reflexivity|apply com_err]. Qed.
Lemma com_deg t i s : com idf (assign_ll_deg G t i s) (assign_ll_deg G (er_tok t) i s).
Proof.
  unfold assign_ll_deg. eapply com_bind; [apply com_lat|intro]. eapply com_bind; [apply com_lon|intro]. eapply com_bind; [apply com_lift|intro].
  eapply com_bind; [apply com_bit|intro]. eapply com_bind; [apply com_lift|intro]. eapply com_bind; [apply com_bit|intro].
  eapply com_bind; [cmx|intro]. apply com_az.
Qed.
Lemma com_min t i s : com idf (assign_ll_deg_min G t i s) (assign_ll_deg_min G (er_tok t) i s).
Proof.
  unfold assign_ll_deg_min. eapply com_bind; [apply com_lat|intro]. eapply com_bind; [apply com_lon|intro]. eapply com_bind; [apply com_lift|intro].
  eapply com_bind; [apply com_bit|intro]. eapply com_bind; [apply com_lift|intro]. eapply com_bind; [apply com_bit|intro].
  eapply com_bind; [cmx|intro]. apply com_az.
Qed.
Lemma com_brg t s : com idf (check_bearing t s) (check_bearing (er_tok t) s).
Proof. unfold check_bearing. eapply com_bind; [apply com_lift|intro]. apply com_bit. Qed.
Lemma com_text i s : com idf (resolve_from_text G i s) (resolve_from_text G i s).
Proof. unfold resolve_from_text. eapply com_bind; [apply com_pyf|intro]. eapply com_bind; [apply com_pyf|intro]. apply com_res. Qed.
Lemma com_llbd t : com idf (assign_lat_long_bearing_distance G t) (assign_lat_long_bearing_distance G (er_tok t)).
Proof.
  unfold assign_lat_long_bearing_distance. cbv zeta. change (t_sub (er_tok t)) with (t_sub t). change (t_text (er_tok t)) with (t_text t).
  eapply com_bind; [apply com_last|intro o]. unfold idf at 2.
  destruct (t_sub t); try (apply com_ret; reflexivity); try apply com_brg; (eapply com_bind; [apply com_deref|intro i]; unfold idf at 2).
  all: first [apply com_deg | apply com_min | eapply com_bind; [apply com_deg|intro]; eapply com_bind; [apply com_brg|intro]; apply com_text
     | eapply com_bind; [apply com_min|intro]; eapply com_bind; [apply com_brg|intro]; apply com_text].
Qed.

Section B.
Variable self : call -> M unit.
Hypothesis Hs : forall c, com idf (self c) (self (er_call c)).
Lemma com_nor (k k' : token -> M unit) : (forall t, com idf (k t) (k' (er_tok t))) -> com idf (next_or_return k) (next_or_return k').
Proof. intro H. unfold next_or_return. eapply com_bind; [apply com_next|intros [t|]]; [apply H|apply com_ret; reflexivity]. Qed.
Lemma com_sem t : com idf (check_point_semantics G t) (check_point_semantics G (er_tok t)).
Proof. unfold check_point_semantics. change (t_sub (er_tok t)) with (t_sub t). destruct (_ && _)%bool; [apply com_llbd|apply com_ret; reflexivity]. Qed.
Ltac cm2 ::= first
  [ match goal with H : forall c, com idf (?f c) _ |- com _ (?f ?c) _ => exact (H c) end
  | apply com_alt | apply com_speed | apply com_llbd | apply com_sem
  | match goal with |- com _ (add_record ?t) _ => exact (com_add t) end
  | apply com_nor; intro; cmr; cm ].
Lemma com_stay_time t : com idf (b_stay_time self t) (b_stay_time self (er_tok t)).
Proof.
  unfold b_stay_time. cmb; [cm|]. cmb; [cm|]. cmb. change (t_text (er_tok t)) with (t_text t).
  apply (com_bind er_rec).
  - unfold set_stay_time. destruct (py_int _); [|apply com_raise]. destruct (py_int _); [|apply com_raise]. apply com_ret. reflexivity.
  - intro r'. apply com_bind1; [apply com_upd; reflexivity|intro]. cm.
Qed.
Lemma com_body c : com idf (body G self c) (body G self (er_call c)).
Proof. destruct c; cbn [er_call body].
  - unfold b_add_error_and_re_sync; cm.
  - unfold b_re_sync; cm.
  - unfold b_assign_speed_altitude. cm.
  - unfold b_assign_speed_altitude_altitude. cm.
  - unfold b_assign_speed_altitude_plus. cm.
  - unfold b_assign_speed_vfr. cm.
  - unfold b_break_end. cm.
  - unfold b_break_end_error; cm.
  - unfold b_break_start; cm.
  - unfold b_break_text_save; cm.
  - unfold b_cruise_climb_c; cm.
  - unfold b_cruise_climb_point; cm.
  - unfold b_dct; cm.
  - unfold b_forward_slash; cm.
  - unfold b_post_adep; cm.
  - unfold b_post_point; cm.
  - unfold b_post_sid; cm.
  - unfold b_point; cm.
  - unfold b_route; cm.
  - unfold b_sid; cm.
  - unfold b_sid_star; cm.
  - unfold b_star; cm.
  - unfold b_stay; cm.
  - apply com_stay_time.
  - unfold b_truncate; cm.
  - unfold b_v_to_i; cm.
  - unfold b_v_to_i_to_v; cm.
Qed.
End B.

Lemma com_tick : com idf tick tick.
Proof. intro s. reflexivity. Qed.
Lemma com_run depth : forall c, com idf (run G depth c) (run G depth (er_call c)).
Proof.
  induction depth as [|d IH]; intro c; cbn [run]; [apply com_raise|]. apply com_bind1; [apply com_tick|intros _]. apply com_body. exact IH.
Qed.
Lemma com_assign : com idf assign_syntax_descriptions assign_syntax_descriptions.
Proof.
  intro s. unfold assign_syntax_descriptions, er_out, er, er_toks. cbn [s_toks s_ers s_calls tk_list tk_cur idf]. rewrite !map_map. do 2 f_equal. f_equal.
  apply map_ext. intro t. unfold assign_syntax. cbn [er_tok t_text]. destruct (classify (t_text t)) as [b sb]. reflexivity.
Qed.
Lemma some_er p l : some_rules p (map er_rec l) = some_rules p l.
Proof. unfold some_rules. induction l as [|a l IH]; [reflexivity|]. cbn [map existsb]. rewrite IH. reflexivity. Qed.
Lemma com_parse depth : com idf (parse_f15 G depth) (parse_f15 G depth).
Proof.
  unfold parse_f15. apply com_bind1; [apply com_assign|intros _]. cmb.
  - cbn [option_map]. apply com_bind1.
    + change (t_base (er_tok t)) with (t_base t). pose proof (com_run depth) as R.
      assert (R1 : com idf (run G depth (CErrSync t 1)) (run G depth (CErrSync (er_tok t) 1))) by exact (R (CErrSync t 1)).
      destruct (t_base t); try exact R1.
      * apply com_bind1; [exact (R (CSpdVfr t))|intros _]. cm.
      * apply com_bind1; [exact (R (CSpdAlt t))|intros _]. apply com_bind1; [cm|intro n]. destruct (n =? 1)%Z; [exact (R (CErrSync t 49))|cm].
    + intros _. apply com_bind1; [exact (com_append (dummy ($"ADES")))|intro o]. apply com_bind1; [cm|intros [p|]]; [|cm].
      cmb. apply com_bind1; [cm|intro i]. apply com_bind1; [apply com_upd; reflexivity|intros _]. apply com_bind1; [cm|intro of_]. apply com_bind1; [cm|intro f].
      cmb. apply com_bind1; [|intros _; cm].
      intro s. cbn [er s_ers er_ers e_recs e_errs s_toks s_calls er_rec r_rules]. rewrite !some_er. reflexivity.
  - cbn [option_map]. apply com_bind1; [cm|intro m]. apply com_bind1; [|intros _; apply com_bind1; [exact (com_append (dummy ($"ADES")))|intros _; cm]].
    apply com_mod. intro x. unfold add_error, er_ers. cbn [e_recs e_errs e_rules]. rewrite map_app. reflexivity.
Qed.
End G.

Lemma er_start w a b : texts w a = texts w b -> er (mkSt (tokenize_string w a) new_ers 0) = er (mkSt (tokenize_string w b) new_ers 0).
Proof.
  intro H. unfold er, er_toks. cbn [s_toks s_ers s_calls].
  assert (E : forall l l', (forall t, In t l -> t = new_token (t_text t) (t_start t) (t_end t)) -> (forall t, In t l' -> t = new_token (t_text t) (t_start t) (t_end t)) ->
    map t_text l = map t_text l' -> map er_tok l = map er_tok l').
  { induction l as [|x l IH]; intros [|y l'] U V E; try discriminate; [reflexivity|]. cbn [map] in *. injection E as E1 E2. f_equal.
    - rewrite (U x), (V y) by (left; reflexivity). unfold er_tok, new_token. cbn [t_text t_base t_sub]. now rewrite E1.
    - apply IH; [| |exact E2]; intros; [apply U|apply V]; now right. }
  pose proof (toks_tokenization w a) as TA. pose proof (toks_tokenization w b) as TB. change (toks w 0 [] a) with (tk_list (mkTokens (toks w 0 [] a) 0)) in TA. change (toks w 0 [] b) with (tk_list (mkTokens (toks w 0 [] b) 0)) in TB. rewrite <- tokenize_string_toks in TA, TB.
  rewrite (E _ _ (fun t K => untyped_new t (tkz_untyped _ _ _ TA t K)) (fun t K => untyped_new t (tkz_untyped _ _ _ TB t K)) H). rewrite !tokenize_string_toks. reflexivity.
Qed.
Lemma layout G depth a b : texts f15_whitespace a = texts f15_whitespace b ->
  er_out idf (parse_field15 G depth a) = er_out idf (parse_field15 G depth b).
Proof.
  intro H. unfold parse_field15. rewrite <- !(com_parse G depth). now rewrite (er_start _ _ _ H).
Qed.

Lemma er_same r r' : er_rec r = er_rec r' -> same_but_place r r'.
Proof. unfold er_rec, same_but_place. intro H. injection H. intros. repeat split; assumption. Qed.
Lemma er_same_list l : forall l', map er_rec l = map er_rec l' -> Forall2 same_but_place l l'.
Proof. induction l as [|a l IH]; intros [|b l'] H; try discriminate; constructor; [apply er_same|apply IH]; cbn [map] in H; congruence. Qed.
Lemma er_seq s s' : er s = er s' -> same_sequence (s_ers s) (s_ers s').
Proof.
  intro Q. assert (Q1 : er_ers (s_ers s) = er_ers (s_ers s')) by exact (f_equal s_ers Q).
  unfold same_sequence. split; [|split].
  - apply er_same_list. exact (f_equal e_recs Q1).
  - apply er_same_list. exact (f_equal e_errs Q1).
  - exact (f_equal e_rules Q1).
Qed.
Lemma layout_same G depth a b : texts f15_whitespace a = texts f15_whitespace b -> same_outcome (parse_field15 G depth a) (parse_field15 G depth b).
Proof.
  intro H. pose proof (layout G depth a b H) as E.
  pose proof (f_equal (fun o => match o with Ok _ s | Exn _ s => s end) E) as Q.
  unfold same_outcome. destruct (parse_field15 G depth a) as [v s|e s], (parse_field15 G depth b) as [v' s'|e' s'];
    cbn [er_out] in E, Q; try discriminate E; (split; [|now apply er_seq]).
  - exact (f_equal (fun o => match o with Ok v _ => v | Exn _ _ => true end) E).
  - exact (f_equal (fun o => match o with Ok _ _ => e | Exn x _ => x end) E).
Qed.
Lemma sep_blank c : blank c -> separator f15_whitespace c /\ c <> slash.
Proof. unfold blank, separator, f15_whitespace, slash. intros [ -> | [ -> | [ -> | -> ] ] ]; split; try discriminate; cbn; tauto. Qed.
Lemma texts_sep a c b : blank c -> texts f15_whitespace (a ++ c :: b) = texts f15_whitespace a ++ texts f15_whitespace b.
Proof. intro B. destruct (sep_blank c B). now apply texts_blank. Qed.
Lemma texts_nil w : texts w [] = [].
Proof. reflexivity. Qed.
Lemma texts_blanks bs : Forall blank bs -> texts f15_whitespace bs = [].
Proof. intro F. induction F as [|c l B F IH]; [reflexivity|]. change (c :: l) with ([] ++ c :: l). rewrite (texts_sep [] c l B), IH. reflexivity. Qed.
Lemma texts_blanks_app bs b : Forall blank bs -> texts f15_whitespace (bs ++ b) = texts f15_whitespace b.
Proof. intro F. induction F as [|c l B F IH]; [reflexivity|]. cbn [app]. change (c :: l ++ b) with ([] ++ c :: (l ++ b)). rewrite (texts_sep [] c _ B), IH. reflexivity. Qed.
Lemma texts_app_blanks a bs : Forall blank bs -> texts f15_whitespace (a ++ bs) = texts f15_whitespace a.
Proof. intro F. destruct F as [|c l B F]; [now rewrite app_nil_r|]. rewrite (texts_sep _ _ _ B), (texts_blanks l F). apply app_nil_r. Qed.
Lemma texts_gap a bs cs b : Forall blank bs -> Forall blank cs -> bs <> [] -> cs <> [] -> texts f15_whitespace (a ++ bs ++ b) = texts f15_whitespace (a ++ cs ++ b).
Proof.
  intros [|c l B F] [|d m D K] N1 N2; try congruence. cbn [app]. rewrite (texts_sep _ _ _ B), (texts_sep _ _ _ D), !texts_blanks_app; trivial.
Qed.
Lemma texts_around a bs cs b : Forall blank bs -> Forall blank cs ->
  texts f15_whitespace (a ++ bs ++ slash :: cs ++ b) = texts f15_whitespace (a ++ slash :: b).
Proof.
  intros F K. rewrite app_assoc. assert (S0 : separator f15_whitespace slash) by (cbn; tauto). rewrite !(texts_slash _ _ _ S0), texts_app_blanks, texts_blanks_app; trivial.
Qed.
