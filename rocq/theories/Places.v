(** * Places: moving the positions of the tokens moves those of the result (lemmas behind PropsPlaces).

    [mv] moves every position in a state by [h]; like [er] in Layout.v it commutes with every method. *)
From Coq Require Import ZArith NArith List Bool String Lia.
From Coq Require Import Floats.SpecFloat.
From Coq Require Import ZifyBool ZifyNat ZifyN.
From Verif Require Import PyBase PyFloat Enums ErrorTable Tokenizer Ers Utils Parser SpecTokenizer TokenizerProofs SpecParser SpecLayout SpecPlaces.
Import List ListNotations.
Local Open Scope list_scope.
Local Open Scope nat_scope.

Section H.
Variable h : moving.
Hypothesis h0 : h (0, 0)%Z = (0, 0)%Z.
Definition mv_tok (t : token) : token := mkToken (t_text t) (fst (h (t_start t, t_end t))) (snd (h (t_start t, t_end t))) (t_base t) (t_sub t).
Definition mv_rec (r : rrec) : rrec :=
  mkR (r_name r) (fst (h (r_start r, r_end r))) (snd (h (r_start r, r_end r))) (r_base r) (r_sub r) (r_alt r) (r_alt_si r) (r_speed r) (r_speed_si r) (r_break r) (r_rules r) (r_err r) (r_stay r)
      (r_cto r) (r_cto_si r) (r_lat r) (r_lon r) (r_brg r) (r_dist r) (r_llv r).
Definition mv_toks (ts : tokens) : tokens := mkTokens (map mv_tok (tk_list ts)) (tk_cur ts).
Definition mv_ers (x : ers) : ers := mkErs (map mv_rec (e_recs x)) (map mv_rec (e_errs x)) (e_rules x).
Definition mv (s : st) : st := mkSt (mv_toks (s_toks s)) (mv_ers (s_ers s)) (s_calls s).
Definition mv_call (c : call) : call :=
  match c with
  | CErrSync t n => CErrSync (mv_tok t) n
  | CReSync => CReSync
  | CSpdAlt t => CSpdAlt (mv_tok t)
  | CSpdAltAlt t => CSpdAltAlt (mv_tok t)
  | CSpdAltPlus t => CSpdAltPlus (mv_tok t)
  | CSpdVfr t => CSpdVfr (mv_tok t)
  | CBreakEnd t => CBreakEnd (mv_tok t)
  | CBreakEndError t => CBreakEndError (mv_tok t)
  | CBreakStart t => CBreakStart (mv_tok t)
  | CBreakText t => CBreakText (mv_tok t)
  | CCruiseC t => CCruiseC (mv_tok t)
  | CCruisePoint t => CCruisePoint (mv_tok t)
  | CDct t => CDct (mv_tok t)
  | CSlash t => CSlash (mv_tok t)
  | CPostAdep t => CPostAdep (mv_tok t)
  | CPostPoint t => CPostPoint (mv_tok t)
  | CPostSid => CPostSid
  | CPoint t => CPoint (mv_tok t)
  | CRoute t => CRoute (mv_tok t)
  | CSid t => CSid (mv_tok t)
  | CSidStar t => CSidStar (mv_tok t)
  | CStar t => CStar (mv_tok t)
  | CStay t => CStay (mv_tok t)
  | CStayTime t => CStayTime (mv_tok t)
  | CTruncate => CTruncate
  | CVtoI => CVtoI
  | CVtoItoV => CVtoItoV
  end.

Definition mv_out {A} (f : A -> A) (o : out A) : out A :=
  match o with Ok a s => Ok (f a) (mv s) | Exn e s => Exn e (mv s) end.
(** [m'] does on erased states what [m] does. *)
Definition com {A} (f : A -> A) (m m' : M A) : Prop := forall s, m' (mv s) = mv_out f (m s).
Definition idf {A} (a : A) : A := a.

Lemma com_bind {A B} (f : A -> A) (g : B -> B) (m m' : M A) (k k' : A -> M B) :
  com f m m' -> (forall a, com g (k a) (k' (f a))) -> com g (bind m k) (bind m' k').
Proof. intros H K s. unfold bind. rewrite H. destruct (m s); cbn [mv_out]; [apply K|reflexivity]. Qed.
Lemma com_ret {A} (f : A -> A) a a' : f a = a' -> com f (ret a) (ret a').
Proof. intros <- s. reflexivity. Qed.
Lemma com_raise {A} (f : A -> A) e : com f (raise e) (raise e).
Proof. intro s. reflexivity. Qed.
Lemma com_opt {A} e (o : option A) : com idf (opt_or e o) (opt_or e o).
Proof. intro s. destruct o; reflexivity. Qed.
Lemma com_opt_tok (o : option token) : com mv_tok (deref o) (deref (option_map mv_tok o)).
Proof. intro s. destruct o; reflexivity. Qed.
Lemma com_deref {A} (o : option A) : com idf (deref o) (deref o).
Proof. apply com_opt. Qed.
Lemma com_lift {A} (r : exn + A) : com idf (lift r) (lift r).
Proof. intro s. destruct r; reflexivity. Qed.
Lemma zlen_map {A B} (f : A -> B) l : zlen (map f l) = zlen l.
Proof. unfold zlen. now rewrite map_length. Qed.
Lemma at_mv ts i : get_token_at (mv_toks ts) i = option_map mv_tok (get_token_at ts i).
Proof. unfold get_token_at, mv_toks. cbn [tk_list]. rewrite zlen_map. destruct (_ || _)%bool; [reflexivity|]. apply nth_error_map. Qed.
Lemma com_next : com (option_map mv_tok) tok_next tok_next.
Proof. intro s. unfold tok_next, get_next_token. cbn [mv s_toks s_ers s_calls mv_toks tk_list tk_cur mv_out]. f_equal. exact (at_mv (mkTokens (tk_list (s_toks s)) (tk_cur (s_toks s) + 1)) _). Qed.
Lemma com_first : com (option_map mv_tok) tok_first tok_first.
Proof. intro s. unfold tok_first, get_first_token. cbn [mv s_toks s_ers s_calls mv_toks tk_list tk_cur mv_out]. f_equal. exact (at_mv (mkTokens (tk_list (s_toks s)) 0) _). Qed.
Lemma com_peek k : com (option_map mv_tok) (tok_peek k) (tok_peek k).
Proof. intro s. unfold tok_peek, peek_next_token. cbn [mv s_toks mv_out]. now rewrite at_mv. Qed.
Lemma com_count : com idf tok_count tok_count.
Proof. intro s. unfold tok_count, get_number_of_tokens. cbn [mv s_toks mv_out mv_toks tk_list]. now rewrite zlen_map. Qed.
Lemma get_at_mv x i : get_element_at (mv_ers x) i = get_element_at x i.
Proof. unfold get_element_at, get_number_of_elements, mv_ers. cbn [e_recs]. now rewrite zlen_map. Qed.
Lemma com_get {A} (f : ers -> exn + A) : (forall x, f (mv_ers x) = f x) -> com idf (ers_get f) (ers_get f).
Proof. intros H s. unfold ers_get. cbn [mv s_ers]. rewrite H. destruct (f (s_ers s)); reflexivity. Qed.
Lemma n_mv x : get_number_of_elements (mv_ers x) = get_number_of_elements x.
Proof. unfold get_number_of_elements, mv_ers. cbn [e_recs]. now rewrite zlen_map. Qed.
Lemma com_last : com idf last_elem last_elem.
Proof. apply com_get. intro x. unfold get_last_element. now rewrite !n_mv, get_at_mv. Qed.
Lemma com_prev : com idf prev_elem prev_elem.
Proof. apply com_get. intro x. unfold get_previous_to_last_element. now rewrite !n_mv, get_at_mv. Qed.
Lemma com_first_elem : com idf first_elem first_elem.
Proof. apply com_get. intro x. unfold get_first_element. now rewrite get_at_mv. Qed.
Lemma com_elem_at i : com idf (elem_at i) (elem_at i).
Proof. apply com_get. intro x. apply get_at_mv. Qed.
Lemma com_n : com idf n_elems n_elems.
Proof. intro s. unfold n_elems. cbn [mv s_ers mv_out]. now rewrite n_mv. Qed.
Lemma com_nerr : com idf n_errors n_errors.
Proof. intro s. unfold n_errors, get_number_of_errors. cbn [mv s_ers mv_out mv_ers e_errs]. now rewrite zlen_map. Qed.
Lemma com_rd i : com mv_rec (rd i) (rd i).
Proof. intro s. unfold rd. cbn [mv s_ers mv_ers e_recs]. rewrite nth_error_map. destruct (nth_error _ i); reflexivity. Qed.
Lemma upd_mv (f f' : rrec -> rrec) : (forall r, f' (mv_rec r) = mv_rec (f r)) -> forall l i, list_upd i f' (map mv_rec l) = map mv_rec (list_upd i f l).
Proof. intros H l. induction l as [|a l IH]; intros [|i]; cbn [list_upd map]; rewrite ?H, ?IH; reflexivity. Qed.
Lemma com_upd i (f f' : rrec -> rrec) : (forall r, f' (mv_rec r) = mv_rec (f r)) -> com idf (upd i f) (upd i f').
Proof.
  intros H s. unfold upd. cbn [mv s_ers mv_ers e_recs e_errs e_rules s_toks s_calls]. rewrite nth_error_map.
  destruct (nth_error _ i); cbn [option_map mv_out]; [|reflexivity]. unfold mv, mv_ers. cbn [s_toks s_ers s_calls e_recs e_errs e_rules]. now rewrite (upd_mv f f' H).
Qed.
Lemma com_mod (f f' : ers -> ers) : (forall x, f' (mv_ers x) = mv_ers (f x)) -> com idf (ers_mod f) (ers_mod f').
Proof. intros H s. unfold ers_mod. cbn [mv s_ers s_toks s_calls mv_out]. unfold mv. cbn [s_ers s_toks s_calls]. now rewrite H. Qed.
Lemma com_append r : com idf (append_rec r) (append_rec (mv_rec r)).
Proof.
  unfold append_rec. eapply com_bind; [|intros; apply com_last]. apply com_mod. intro x. unfold append_element, mv_ers. cbn [e_recs e_errs e_rules].
  now rewrite map_app.
Qed.
Lemma mv_break t r : append_break_text t (mv_rec r) = mv_rec (append_break_text t r).
Proof. unfold append_break_text. cbn [mv_rec r_break]. destruct (pstr_eqb _ _); reflexivity. Qed.

Lemma com_err t n : com idf (add_error_no_re_sync t n) (add_error_no_re_sync (mv_tok t) n).
Proof.
  unfold add_error_no_re_sync. eapply com_bind; [apply com_opt|]. intro m. apply com_mod. intro x.
  unfold add_error, mv_ers. cbn [e_recs e_errs e_rules mv_tok t_text t_start t_end t_base t_sub idf]. rewrite map_app. reflexivity.
Qed.

Ltac cm1 := first
  [ apply com_ret; reflexivity | apply com_raise | apply com_next | apply com_first | apply com_peek | apply com_count | apply com_last | apply com_prev | apply com_first_elem
  | apply com_elem_at | apply com_n | apply com_nerr | apply com_rd | apply com_append | apply com_err | apply com_opt_tok | apply com_deref | apply com_opt | apply com_lift
  | apply com_upd; first [reflexivity | intro; apply mv_break] ].
Lemma com_bind1 {A B} (g : B -> B) (m m' : M A) (k k' : A -> M B) :
  com idf m m' -> (forall a, com g (k a) (k' a)) -> com g (bind m k) (bind m' k').
Proof. intros H K. exact (com_bind idf g m m' k k' H K). Qed.
Ltac cmb := match goal with
  | |- com _ (bind tok_next _) _ => apply (com_bind (option_map mv_tok)); [apply com_next|intros [?|]]
  | |- com _ (bind tok_first _) _ => apply (com_bind (option_map mv_tok)); [apply com_first|intros [?|]]
  | |- com _ (bind (tok_peek _) _) _ => apply (com_bind (option_map mv_tok)); [apply com_peek|intros [?|]]
  | |- com _ (bind (rd _) _) _ => apply (com_bind mv_rec); [apply com_rd|intro]
  | |- com _ (bind (@deref token _) _) _ => apply (com_bind mv_tok); [apply com_opt_tok|intro]
  | |- com _ (bind _ _) _ => apply com_bind1; [|intro]
  end.
Ltac cm2 := fail.
Ltac cmr := cbv zeta; cbn [mv_tok mv_rec t_text t_start t_end t_base t_sub option_map r_name r_base r_sub r_alt r_alt_si r_speed r_speed_si r_rules r_lat r_lon r_llv].
Ltac cm := first [ cm2 | cm1 | cmb; cmr; cm | progress cmr; cm
  | match goal with |- com _ (if ?b then _ else _) _ => destruct b; cm end
  | match goal with |- com _ (match ?x with _ => _ end) _ => destruct x; cm end ].
Lemma com_carry : com idf carry_speed_altitude_rules_forward carry_speed_altitude_rules_forward.
Proof. unfold carry_speed_altitude_rules_forward. cm. Qed.
Lemma com_add t : com idf (add_record t) (add_record (mv_tok t)).
Proof. unfold add_record. eapply com_bind; [exact (com_append (new_rec (t_text t) (t_start t) (t_end t) (t_base t) (t_sub t)))|]. intro a. eapply com_bind; [apply com_carry|]. intros _. apply com_ret. reflexivity. Qed.
Ltac cm2 ::= apply com_add.
Ltac cmx := cm.
Lemma com_alt t i s c : com idf (assign_altitude t i s c) (assign_altitude (mv_tok t) i s c).
Proof. unfold assign_altitude. eapply com_bind; [apply com_upd; destruct c; reflexivity|]. intro. eapply com_bind; [cmx|intro]. eapply com_bind; [|intro].
  - instantiate (1 := idf). cbv zeta. destruct (is_letter _ 65); [cmx|]. destruct (is_letter _ 70).
    + eapply com_bind; [instantiate (1 := idf)|intro; cmx]. destruct (negb _); [apply com_err|cmx].
    + cmx.
  - eapply com_bind; [cmx|intro]. apply com_upd; destruct c; reflexivity.
Qed.
Lemma com_speed i s : com idf (assign_speed i s) (assign_speed i s).
Proof. unfold assign_speed. cmx. Qed.
Lemma com_pyf s : com idf (py_float_m s) (py_float_m s).
Proof. apply com_opt. Qed.
Ltac cm2 ::= first [ apply com_add | apply com_alt | apply com_speed | apply com_pyf ].
Lemma com_lat i l : com idf (assign_latitude i l) (assign_latitude i l).
Proof. unfold assign_latitude. cbv zeta. eapply com_bind; [instantiate (1 := idf); cmx|intro; cmx]. Qed.
Lemma com_lon i l : com idf (assign_longitude i l) (assign_longitude i l).
Proof. unfold assign_longitude. cbv zeta. eapply com_bind; [instantiate (1 := idf); cmx|intro; cmx]. Qed.

Section G.
Variable G : geodesic.
Lemma com_set p q : com idf (set_azimuth_and_distance G p q) (set_azimuth_and_distance G p q).
Proof. unfold set_azimuth_and_distance. cmx. Qed.
Lemma com_az : com idf (assign_azimuth_distance_between_points G) (assign_azimuth_distance_between_points G).
Proof. unfold assign_azimuth_distance_between_points. 
  eapply com_bind; [cmx|intros [l|]; [|cmx]]. cbn [idf]. eapply com_bind; [cmx|intros [p|]; [|cmx]]. cbn [idf].
  eapply com_bind; [cmx|intro a]. cbn [mv_rec r_llv]. destruct (r_llv a); [|cmx]. eapply com_bind; [cmx|intro b]. cbn [mv_rec r_llv]. destruct (r_llv b); [apply com_set|].
  eapply com_bind; [cmx|intro n]. eapply com_bind; [cmx|intros [q|]; [|cmx]]. cbn [idf]. eapply com_bind; [cmx|intro c]. cbn [mv_rec r_llv]. destruct (r_llv c); [apply com_set|cmx].
Qed.
Lemma com_res i a b : com idf (resolve_real_bd_point G i a b) (resolve_real_bd_point G i a b).
Proof.
  unfold resolve_real_bd_point. eapply com_bind; [cmx|intro r]. cbn [mv_rec r_lat r_lon]. destruct (geo_direct _ _ _ _ _) as [la lo].
  eapply com_bind; [cmx|intro]. eapply com_bind; [cmx|intro]. apply com_az.
Qed.
Lemma com_bit (b : bool) t n : com idf (if b then ret tt else add_error_no_re_sync t n) (if b then ret tt else add_error_no_re_sync (mv_tok t) n).
Proof. destruct b; [apply com_ret; reflexivity|apply com_err]. Qed.
Lemma com_deg t i s : com idf (assign_ll_deg G t i s) (assign_ll_deg G (mv_tok t) i s).
Proof.
  unfold assign_ll_deg. eapply com_bind; [apply com_lat|intro]. eapply com_bind; [apply com_lon|intro]. eapply com_bind; [apply com_lift|intro].
  eapply com_bind; [apply com_bit|intro]. eapply com_bind; [apply com_lift|intro]. eapply com_bind; [apply com_bit|intro].
  eapply com_bind; [cmx|intro]. apply com_az.
Qed.
Lemma com_min t i s : com idf (assign_ll_deg_min G t i s) (assign_ll_deg_min G (mv_tok t) i s).
Proof.
  unfold assign_ll_deg_min. eapply com_bind; [apply com_lat|intro]. eapply com_bind; [apply com_lon|intro]. eapply com_bind; [apply com_lift|intro].
  eapply com_bind; [apply com_bit|intro]. eapply com_bind; [apply com_lift|intro]. eapply com_bind; [apply com_bit|intro].
  eapply com_bind; [cmx|intro]. apply com_az.
Qed.
Lemma com_brg t s : com idf (check_bearing t s) (check_bearing (mv_tok t) s).
Proof. unfold check_bearing. eapply com_bind; [apply com_lift|intro]. apply com_bit. Qed.
Lemma com_text i s : com idf (resolve_from_text G i s) (resolve_from_text G i s).
Proof. unfold resolve_from_text. eapply com_bind; [apply com_pyf|intro]. eapply com_bind; [apply com_pyf|intro]. apply com_res. Qed.
Lemma com_llbd t : com idf (assign_lat_long_bearing_distance G t) (assign_lat_long_bearing_distance G (mv_tok t)).
Proof.
  unfold assign_lat_long_bearing_distance. cbv zeta. change (t_sub (mv_tok t)) with (t_sub t). change (t_text (mv_tok t)) with (t_text t).
  eapply com_bind; [apply com_last|intro o]. unfold idf at 2.
  destruct (t_sub t); try (apply com_ret; reflexivity); try apply com_brg; (eapply com_bind; [apply com_deref|intro i]; unfold idf at 2).
  all: first [apply com_deg | apply com_min | eapply com_bind; [apply com_deg|intro]; eapply com_bind; [apply com_brg|intro]; apply com_text
     | eapply com_bind; [apply com_min|intro]; eapply com_bind; [apply com_brg|intro]; apply com_text].
Qed.

Section B.
Variable self : call -> M unit.
Hypothesis Hs : forall c, com idf (self c) (self (mv_call c)).
Lemma com_nor (k k' : token -> M unit) : (forall t, com idf (k t) (k' (mv_tok t))) -> com idf (next_or_return k) (next_or_return k').
Proof. intro H. unfold next_or_return. eapply com_bind; [apply com_next|intros [t|]]; [apply H|apply com_ret; reflexivity]. Qed.
Lemma com_sem t : com idf (check_point_semantics G t) (check_point_semantics G (mv_tok t)).
Proof. unfold check_point_semantics. change (t_sub (mv_tok t)) with (t_sub t). destruct (_ && _)%bool; [apply com_llbd|apply com_ret; reflexivity]. Qed.
Ltac cm2 ::= first
  [ match goal with H : forall c, com idf (?f c) _ |- com _ (?f ?c) _ => exact (H c) end
  | apply com_alt | apply com_speed | apply com_llbd | apply com_sem
  | match goal with |- com _ (add_record ?t) _ => exact (com_add t) end
  | apply com_nor; intro; cmr; cm ].
Lemma com_stay_time t : com idf (b_stay_time self t) (b_stay_time self (mv_tok t)).
Proof.
  unfold b_stay_time. cmb; [cm|]. cmb; [cm|]. cmb. change (t_text (mv_tok t)) with (t_text t).
  apply (com_bind mv_rec).
  - unfold set_stay_time. destruct (py_int _); [|apply com_raise]. destruct (py_int _); [|apply com_raise]. apply com_ret. reflexivity.
  - intro r'. apply com_bind1; [apply com_upd; reflexivity|intro]. cm.
Qed.
Lemma com_body c : com idf (body G self c) (body G self (mv_call c)).
Proof. destruct c; cbn [mv_call body].
  - unfold b_add_error_and_re_sync; cm.
  - unfold b_re_sync; cm.
  - unfold b_assign_speed_altitude. cm.
  - unfold b_assign_speed_altitude_altitude. cm.
  - unfold b_assign_speed_altitude_plus. cm.
  - unfold b_assign_speed_vfr. cm.
  - unfold b_break_end. cm.
  - unfold b_break_end_error; cm.
  - unfold b_break_start; cm.
  - unfold b_break_text_save; cm.
  - unfold b_cruise_climb_c; cm.
  - unfold b_cruise_climb_point; cm.
  - unfold b_dct; cm.
  - unfold b_forward_slash; cm.
  - unfold b_post_adep; cm.
  - unfold b_post_point; cm.
  - unfold b_post_sid; cm.
  - unfold b_point; cm.
  - unfold b_route; cm.
  - unfold b_sid; cm.
  - unfold b_sid_star; cm.
  - unfold b_star; cm.
  - unfold b_stay; cm.
  - apply com_stay_time.
  - unfold b_truncate; cm.
  - unfold b_v_to_i; cm.
  - unfold b_v_to_i_to_v; cm.
Qed.
End B.

Lemma com_tick : com idf tick tick.
Proof. intro s. reflexivity. Qed.
Lemma com_run depth : forall c, com idf (run G depth c) (run G depth (mv_call c)).
Proof.
  induction depth as [|d IH]; intro c; cbn [run]; [apply com_raise|]. apply com_bind1; [apply com_tick|intros _]. apply com_body. exact IH.
Qed.
Lemma com_assign : com idf assign_syntax_descriptions assign_syntax_descriptions.
Proof.
  intro s. unfold assign_syntax_descriptions, mv_out, mv, mv_toks. cbn [s_toks s_ers s_calls tk_list tk_cur idf]. rewrite !map_map. do 2 f_equal. f_equal.
  apply map_ext. intro t. unfold assign_syntax. cbn [mv_tok t_text]. destruct (classify (t_text t)) as [b sb]. reflexivity.
Qed.
Lemma some_mv p l : some_rules p (map mv_rec l) = some_rules p l.
Proof. unfold some_rules. induction l as [|a l IH]; [reflexivity|]. cbn [map existsb]. rewrite IH. reflexivity. Qed.
Lemma com_ades : com idf (append_rec (dummy ($"ADES"))) (append_rec (dummy ($"ADES"))).
Proof. pose proof (com_append (dummy ($"ADES"))) as K. assert (E : mv_rec (dummy ($"ADES")) = dummy ($"ADES")) by (unfold mv_rec, dummy, new_rec; cbn; now rewrite h0). rewrite E in K. exact K. Qed.
Lemma com_parse depth : com idf (parse_f15 G depth) (parse_f15 G depth).
Proof.
  unfold parse_f15. apply com_bind1; [apply com_assign|intros _]. cmb.
  - cbn [option_map]. apply com_bind1.
    + change (t_base (mv_tok t)) with (t_base t). pose proof (com_run depth) as R.
      assert (R1 : com idf (run G depth (CErrSync t 1)) (run G depth (CErrSync (mv_tok t) 1))) by exact (R (CErrSync t 1)).
      destruct (t_base t); try exact R1.
      * apply com_bind1; [exact (R (CSpdVfr t))|intros _]. cm.
      * apply com_bind1; [exact (R (CSpdAlt t))|intros _]. apply com_bind1; [cm|intro n]. destruct (n =? 1)%Z; [exact (R (CErrSync t 49))|cm].
    + intros _. apply com_bind1; [exact com_ades|intro o]. apply com_bind1; [cm|intros [p|]]; [|cm].
      cmb. apply com_bind1; [cm|intro i]. apply com_bind1; [apply com_upd; reflexivity|intros _]. apply com_bind1; [cm|intro of_]. apply com_bind1; [cm|intro f].
      cmb. apply com_bind1; [|intros _; cm].
      intro s. cbn [mv s_ers mv_ers e_recs e_errs s_toks s_calls mv_rec r_rules]. rewrite !some_mv. reflexivity.
  - cbn [option_map]. apply com_bind1; [cm|intro m]. apply com_bind1; [|intros _; apply com_bind1; [exact com_ades|intros _; cm]].
    apply com_mod. intro x. unfold add_error, mv_ers. cbn [e_recs e_errs e_rules]. rewrite map_app. do 2 f_equal. cbn [map]. unfold mv_rec at 1. cbn. now rewrite h0.
Qed.
End G.

Lemma mv_same r : moved h r (mv_rec r).
Proof. split; [repeat split|]. cbn [mv_rec r_start r_end]. symmetry. apply surjective_pairing. Qed.
Lemma mv_seq x : moved_sequence h x (mv_ers x).
Proof. split; [|split]; [| |reflexivity]; cbn [mv_ers e_recs e_errs]; [induction (e_recs x)|induction (e_errs x)]; constructor; trivial; apply mv_same. Qed.
Lemma mv_start a b : texts f15_whitespace a = texts f15_whitespace b -> takes h a b ->
  mv (mkSt (tokenize_string f15_whitespace a) new_ers 0) = mkSt (tokenize_string f15_whitespace b) new_ers 0.
Proof.
  intros T (_ & K). unfold mv. cbn [s_toks s_ers s_calls]. f_equal.
  2:{ unfold mv_ers, new_ers. cbn [e_recs e_errs e_rules map append_element app]. unfold mv_rec. cbn. now rewrite h0. }
  unfold texts in T. pose proof (toks_tokenization f15_whitespace a) as TA. pose proof (toks_tokenization f15_whitespace b) as TB.
  rewrite !tokenize_string_toks in *. unfold mv_toks. cbn [tk_list tk_cur] in *. f_equal.
  pose proof (tkz_untyped _ _ _ TA) as U. pose proof (tkz_untyped _ _ _ TB) as V. clear TA TB.
  revert T K U V. generalize (toks f15_whitespace 0 [] a), (toks f15_whitespace 0 [] b). clear a b.
  induction l as [|x l IH]; intros [|y l'] T K U V; try discriminate; [reflexivity|]. cbn [map] in *. injection T as T1 T2. f_equal.
  - pose proof (K 0 x y eq_refl eq_refl) as E. rewrite (untyped_new x (U x (or_introl eq_refl))), (untyped_new y (V y (or_introl eq_refl))).
    unfold mv_tok, new_token. cbn [t_text t_start t_end t_base t_sub]. now rewrite E, T1.
  - apply IH; [exact T2|intro k; exact (K (S k))| |]; intros; [apply U|apply V]; now right.
Qed.
Theorem places G depth a b : texts f15_whitespace a = texts f15_whitespace b -> takes h a b ->
  moved_outcome h (parse_field15 G depth a) (parse_field15 G depth b).
Proof.
  intros T K. unfold parse_field15. rewrite <- (mv_start a b T K), (com_parse G depth).
  destruct (parse_f15 G depth _) as [v s|e s]; split; trivial; apply mv_seq.
Qed.
End H.

(** ** Some movement always exists *)
Lemma exists_h (l l' : list token) : length l = length l' -> (forall t, In t l -> (0 < t_end t)%Z) -> in_order l -> (forall t, In t l -> (t_start t < t_end t)%Z) ->
  exists h : moving, h (0, 0)%Z = (0, 0)%Z /\ forall k t t', nth_error l k = Some t -> nth_error l' k = Some t' -> h (t_start t, t_end t) = (t_start t', t_end t').
Proof.
  revert l'. induction l as [|x l IH]; intros [|y l'] E P O W; try discriminate.
  - exists (fun p => p). split; [reflexivity|]. intros [|k] t t' Q; discriminate Q.
  - cbn [length] in E. injection E as E. inversion O as [|? ? O1 O2]; subst.
    destruct (IH l' E (fun t K => P t (or_intror K)) O1 (fun t K => W t (or_intror K))) as (h & H0 & H).
    exists (fun p => if ((fst p =? t_start x) && (snd p =? t_end x))%Z%bool then (t_start y, t_end y) else h p). split.
    + cbn [fst snd]. pose proof (P x (or_introl eq_refl)). replace (0 =? t_end x)%Z with false by lia. now rewrite andb_false_r.
    + intros [|k] t t' Q Q'; cbn [nth_error] in Q, Q'.
      * injection Q as <-. injection Q' as <-. cbn [fst snd]. now rewrite !Z.eqb_refl.
      * cbn [fst snd]. rewrite Forall_forall in O2. pose proof (O2 t (nth_error_In _ _ Q)). pose proof (W x (or_introl eq_refl)).
        replace (t_start t =? t_start x)%Z with false by lia. cbn [andb]. exact (H k t t' Q Q').
Qed.
Theorem takes_exists a b : texts f15_whitespace a = texts f15_whitespace b -> exists h, takes h a b.
Proof.
  intro T. pose proof (f_equal (@length _) T) as L. unfold texts in L. rewrite !map_length in L.
  pose proof (toks_tokenization f15_whitespace a) as TA. change (toks f15_whitespace 0 [] a) with (tk_list (mkTokens (toks f15_whitespace 0 [] a) 0)) in TA. rewrite <- tokenize_string_toks in TA.
  apply (exists_h _ _ L).
  - intros t K. pose proof (tkz_addresses _ _ _ TA t K) as (A & _). lia.
  - exact (tkz_order _ _ _ TA).
  - intros t K. pose proof (tkz_addresses _ _ _ TA t K) as (A & _). lia.
Qed.

(** ** Blanks *)
Definition later (k : Z) (t : token) : token := mkToken (t_text t) (t_start t + k) (t_end t + k) (t_base t) (t_sub t).
Lemma new_later text a b k : new_token text (a + k) (b + k) = later k (new_token text a b).
Proof. reflexivity. Qed.
Lemma toks_later w k s : forall idx text, toks w (idx + k) text s = map (later k) (toks w idx text s).
Proof.
  induction s as [|c s IH]; intros idx text; cbn [toks].
  - destruct text as [|x text]; [reflexivity|]. cbn [map]. rewrite <- new_later. do 2 f_equal. lia.
  - replace (idx + k + 1)%Z with (idx + 1 + k)%Z by lia. destruct (char_in c w); [|apply IH]. rewrite !map_app, IH. f_equal; [|f_equal].
    + destruct text as [|x text]; [reflexivity|]. cbn [map]. rewrite <- new_later. do 2 f_equal. lia.
    + destruct (N.eqb c slash); [|reflexivity]. cbn [map]. rewrite <- new_later. reflexivity.
Qed.
Lemma toks_cut w c b : In c w -> forall a idx text,
  toks w idx text (a ++ c :: b) = toks w idx text a ++ toks w (idx + zlen a) [] (c :: b).
Proof.
  intro I. apply char_in_spec in I. induction a as [|d a IH]; intros idx text.
  - cbn [app]. rewrite zlen_nil, Z.add_0_r. cbn [toks]. rewrite I. reflexivity.
  - cbn [app toks]. rewrite zlen_cons. replace (idx + (zlen a + 1))%Z with (idx + 1 + zlen a)%Z by lia. destruct (char_in d w).
    + rewrite IH, <- !app_assoc. reflexivity.
    + apply IH.
Qed.
Lemma toks_snoc w c a : In c w -> forall b idx text,
  toks w idx text (a ++ c :: b) = toks w idx text (a ++ [c]) ++ toks w (idx + zlen (a ++ [c])) [] b.
Proof.
  intros I b idx text. rewrite !(toks_cut w c _ I), <- app_assoc. f_equal. rewrite zlen_app, zlen_cons. cbn [zlen length]. apply char_in_spec in I. cbn [toks]. rewrite I. cbn [app].
  rewrite app_nil_r. rewrite zlen_nil. replace (idx + (zlen a + (0 + 1)))%Z with (idx + zlen a + 1)%Z by lia. reflexivity.
Qed.
Lemma toks_apart a b : apart a b -> toks f15_whitespace 0 [] (a ++ b) = toks f15_whitespace 0 [] a ++ toks f15_whitespace (zlen a) [] b.
Proof.
  intros [ -> |[ -> |[(a' & c & -> & I)|(c & b' & -> & I)]]].
  - reflexivity.
  - rewrite app_nil_r. cbn [toks]. now rewrite app_nil_r.
  - rewrite <- app_assoc. cbn [app]. rewrite (toks_snoc _ _ _ I). reflexivity.
  - rewrite (toks_cut _ _ _ I). reflexivity.
Qed.
Lemma blank_sep c : blank c -> In c f15_whitespace /\ N.eqb c slash = false.
Proof. intros [ -> |[ -> |[ -> | -> ]]]; split; trivial; cbn; tauto. Qed.
Lemma toks_blanks bs b : Forall blank bs -> forall idx, toks f15_whitespace idx [] (bs ++ b) = toks f15_whitespace (idx + zlen bs) [] b.
Proof.
  intro F. induction F as [|c bs B F IH]; intro idx; [cbn [app]; now rewrite zlen_nil, Z.add_0_r|]. destruct (blank_sep c B) as (I & S). apply char_in_spec in I.
  cbn [app toks]. rewrite I, S. cbn [app]. rewrite IH, zlen_cons. f_equal. lia.
Qed.
Lemma toks_inserted a bs b : apart a b -> Forall blank bs ->
  toks f15_whitespace 0 [] (a ++ bs ++ b) = toks f15_whitespace 0 [] a ++ map (later (zlen bs)) (toks f15_whitespace (zlen a) [] b).
Proof.
  intros A F. rewrite <- toks_later. destruct bs as [|c bs].
  - cbn [app]. rewrite zlen_nil, Z.add_0_r. now apply toks_apart.
  - rewrite toks_apart, (toks_blanks _ _ F); [reflexivity|]. right. right. right. inversion F as [|? ? B F']; subst. exists c, (bs ++ b). split; [reflexivity|exact (proj1 (blank_sep c B))].
Qed.
Lemma toks_from w b : forall idx text, (forall t, In t (toks w idx text b) -> (idx - zlen text <= t_start t)%Z).
Proof.
  induction b as [|c b IH]; intros idx text t K; cbn [toks] in K.
  - destruct text; [destruct K|]. destruct K as [<-|[]]. cbn [new_token t_start]. lia.
  - pose proof (zlen_nonneg _ text). destruct (char_in c w).
    + apply in_app_or in K. destruct K as [K|K]; [|apply in_app_or in K; destruct K as [K|K]].
      * destruct text; [destruct K|]. destruct K as [<-|[]]. cbn [new_token t_start]. lia.
      * destruct (N.eqb c slash); [|destruct K]. destruct K as [<-|[]]. cbn [new_token t_start]. lia.
      * apply IH in K. rewrite ?zlen_nil in K. lia.
    + apply IH in K. rewrite zlen_app, zlen_cons in K. rewrite ?zlen_nil in K. lia.
Qed.
Theorem blanks_put_in G depth a bs b : apart a b -> Forall blank bs ->
  moved_outcome (shift (zlen a) (zlen bs)) (parse_field15 G depth (a ++ b)) (parse_field15 G depth (a ++ bs ++ b)).
Proof.
  intros A F. apply places; [reflexivity| |].
  - unfold texts. rewrite !tokenize_string_toks. cbn [tk_list]. rewrite (toks_apart a b A), (toks_inserted a bs b A F), !map_app, map_map. reflexivity.
  - split; [reflexivity|]. rewrite !tokenize_string_toks. cbn [tk_list]. rewrite (toks_apart a b A), (toks_inserted a bs b A F).
    pose proof (tkz_addresses _ _ _ (toks_tokenization f15_whitespace a)) as P.
    pose proof (toks_from f15_whitespace b (zlen a) []) as Q.
    assert (W : forall t, In t (toks f15_whitespace (zlen a) [] b) -> (0 < t_end t)%Z).
    { intros t K. replace (zlen a) with (0 + zlen a)%Z in K by lia. rewrite toks_later in K. apply in_map_iff in K. destruct K as (u & <- & K).
      pose proof (tkz_addresses _ _ _ (toks_tokenization f15_whitespace b) u K) as (L & _). pose proof (zlen_nonneg _ a). cbn [later t_end]. lia. }
    intros k t t' K K'. destruct (Compare_dec.le_lt_dec (length (toks f15_whitespace 0 [] a)) k) as [L|L].
    + rewrite nth_error_app2 in K by exact L. rewrite nth_error_app2, nth_error_map, K in K' by exact L. injection K' as <-. apply nth_error_In in K.
      pose proof (Q t K) as Q'. rewrite zlen_nil in Q'. pose proof (W t K). unfold shift. cbn [fst snd later t_start t_end].
      replace (t_end t =? 0)%Z with false by lia. replace (t_start t <? zlen a)%Z with false by lia. reflexivity.
    + rewrite nth_error_app1 in K, K' by exact L. rewrite K in K'. injection K' as <-. apply nth_error_In in K. destruct (P t K) as (P1 & P2 & _).
      unfold shift. cbn [fst snd]. replace (t_end t =? 0)%Z with false by lia. replace (t_start t <? zlen a)%Z with true by lia. reflexivity.
Qed.
Theorem blanks_replaced G depth a bs cs b : Forall blank bs -> Forall blank cs -> length bs = length cs ->
  parse_field15 G depth (a ++ bs ++ b) = parse_field15 G depth (a ++ cs ++ b).
Proof.
  intros B C L. unfold parse_field15. do 2 f_equal. rewrite !tokenize_string_toks. f_equal.
  assert (R : forall ds, Forall blank ds -> ds <> [] -> toks f15_whitespace 0 [] (a ++ ds ++ b) = toks f15_whitespace 0 [] a ++ toks f15_whitespace (zlen a + zlen ds) [] b).
  { intros [|d ds] D N; [congruence|]. rewrite toks_apart, (toks_blanks _ _ D); [reflexivity|]. inversion D as [|? ? D1 D2]; subst. right. right. right. exists d, (ds ++ b). split; [reflexivity|apply blank_sep, D1]. }
  destruct bs as [|x bs], cs as [|y cs]; try discriminate L; [reflexivity|]. rewrite !R by (trivial; discriminate). unfold zlen. now rewrite L.
Qed.
