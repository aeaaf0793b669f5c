(** * PrintLines: the lines of the printed report. *)
From Coq Require Import ZArith NArith List Bool String Lia.
From Coq Require Import Floats.SpecFloat.
From Coq Require Import ZifyBool ZifyNat ZifyN.
From Verif Require Import PyBase PyFloat Enums ErrorTable Tokenizer Ers Xml Utils Parser Print.
From Verif Require Import SpecTokenizer TokenizerProofs SpecNum SpecXml XmlFacts.
From Verif Require Import ParserPrims PerfEq PointEq Trace ParseTrace SpecParser ParserInv ParserFacts SpecPrint.
Import List ListNotations.
Local Open Scope list_scope.
Local Open Scope nat_scope.

(** A text of one line. *)
Definition one (s : pstr) : Prop := forall c, In c s -> c <> 10%N.
Lemma one_nil : one [].
Proof. intros c []. Qed.
Lemma one_app a b : one a -> one b -> one (a ++ b).
Proof. intros A B c H. apply in_app_or in H as [H|H]; auto. Qed.
Lemma one_blank n : one (repeat 32%N n).
Proof. intros c H. apply repeat_spec in H. now subst. Qed.
Lemma one_left w s : one s -> one (pad_left w s).
Proof. intro H. apply one_app; [apply one_blank|exact H]. Qed.
Lemma one_right w s : one s -> one (pad_right w s).
Proof. intro H. apply one_app; [exact H|apply one_blank]. Qed.
Lemma one_oks s : oks s -> one s.
Proof. intros H c I ->. rewrite oks_In in H. specialize (H _ I). discriminate H. Qed.
Lemma one_infix a s : infix a s -> one s -> one a.
Proof. intros (x & y & ->) H c I. apply H. apply in_or_app. right. apply in_or_app. now left. Qed.
Lemma one_slice s a b : one s -> one (slice s a b).
Proof. apply one_infix, slice_infix. Qed.
Lemma one_Z z : one (str_of_Z z).
Proof. apply one_oks, str_of_Z_ok. Qed.
Lemma one_2f f : one (fmt_2f f).
Proof. apply one_oks, fmt_2f_ok. Qed.
Lemma one_plain x : one (fmt_plain x).
Proof. destruct x; [apply one_oks; reflexivity|apply one_Z]. Qed.
Lemma one_replace t m : one t -> one m -> one (replace_char 33%N t m).
Proof.
  intros H K c I. unfold replace_char in I. apply in_flat_map in I as (d & J & I). destruct (N.eqb d 33); [now apply H|]. destruct I as [<-|[]]. now apply K.
Qed.
Lemma one_msg n : defined_error n = true -> one (msg n).
Proof. intros D c I ->. destruct (message_spec n D) as (_ & _ & M). destruct (M _ I); discriminate. Qed.
Ltac onec := apply one_oks; reflexivity.

(** ** The strings of a record *)
Definition flat (r : rrec) : Prop := one (r_name r) /\ one (r_alt r) /\ one (r_speed r) /\ one (r_break r) /\ one (r_rules r) /\ one (r_err r) /\ one (r_cto r).
Lemma flat_eq r r' : strs r = strs r' -> flat r -> flat r'.
Proof. unfold strs, flat. intro E. injection E as -> -> -> -> -> -> ->. auto. Qed.
Lemma flat_map_eq l l' : map strs l = map strs l' -> Forall flat l -> Forall flat l'.
Proof.
  revert l'. induction l as [|a l IH]; intros [|b l'] E H; try discriminate; [constructor|]. inversion H; subst.
  assert (E1 : strs a = strs b) by (cbn [map] in E; congruence). assert (E2 : map strs l = map strs l') by (cbn [map] in E; congruence).
  constructor; [now apply (flat_eq a)|now apply IH].
Qed.
Lemma to_string_one e r : flat r -> one (to_string e r).
Proof.
  intros (F1 & F2 & F3 & F4 & F5 & F6 & F7). unfold to_string. assert (T : one (if e then r_err r else r_break r)) by (destruct e; assumption).
  apply one_app; [now apply one_right|]. do 16 (apply one_app; [apply one_left; auto using one_Z, one_2f, one_plain|]). apply one_app; [onec|]. now apply one_right.
Qed.

Section Runs.
Variable G : geodesic.
Variable L : list token.
Hypothesis HL : Forall (fun t => one (t_text t)) L.
Lemma tok_one t : In t L -> one (t_text t).
Proof. rewrite Forall_forall in HL. apply HL. Qed.
Lemma ev_flat x y : all_recs flat x -> ev G L x y -> all_recs flat y.
Proof.
  intros [Hl Hp] E. pose proof Hp as Hp0. destruct Hp as (P1 & P2 & P3 & P4 & P5 & P6 & P7).
  assert (Sl : forall t a b, In t L -> one (slice (t_text t) a b)) by (intros t a b Ht; apply one_slice; now apply tok_one).
  destruct E; unfold all_recs in *; cbn [tickc nextc errc recc with_p with_p_errs ptc vfrc c_l c_p] in *; try (split; [exact Hl|exact Hp0]).
  - split; [apply Forall_app; split; [exact Hl|now constructor]|]. assert (Ht : one (t_text t)) by (apply tok_one; eapply nth_error_In; eauto).
    unfold flat. cbn. repeat (split; [assumption || apply one_nil|]). assumption || apply one_nil.
  - split; [exact Hl|]. unfold flat. cbn. assert (one r) by (apply one_oks, rule_ok; now apply a_rule_ok). tauto.
  - split; [exact Hl|]. unfold flat. cbn. unfold text_to, text_from. repeat (split; [first [assumption|now apply Sl|onec]|]). assumption || now apply Sl.
  - split; [exact Hl|]. unfold flat. cbn. unfold text_to, text_from, text_mid. repeat (split; [first [assumption|now apply Sl|onec]|]). assumption || now apply Sl.
  - split; [exact Hl|]. unfold flat. cbn. unfold text_to, text_from, text_mid. repeat (split; [first [assumption|now apply Sl|onec]|]). assumption || now apply Sl.
  - assert (Ht : In t L) by (eapply nth_error_In; eauto). split.
    + apply Forall_app. split; [exact Hl|]. constructor; [|constructor]. unfold flat. cbn. unfold text_to.
      repeat (split; [first [assumption|now apply Sl|onec]|]). assumption || now apply Sl.
    + unfold flat. cbn. unfold text_to. repeat (split; [first [assumption|now apply Sl|onec]|]). first [assumption|now apply Sl|onec].
  - split; [exact Hl|]. unfold append_break_text. assert (Ht : one (t_text t)) by now apply tok_one.
    destruct (pstr_eqb _ _); unfold flat; cbn [set_r_break r_name r_alt r_speed r_break r_rules r_err r_cto]; [tauto|].
    assert (one (r_break (c_p x) ++ $" " ++ t_text t)) by (apply one_app; [assumption|apply one_app; [onec|exact Ht]]). tauto.
  - split; [|apply (flat_eq (c_p x)); [symmetry; apply (keeps_pt _ G keeps_strs)|exact Hp0]].
    eapply flat_map_eq; [|exact Hl]. symmetry. apply (keeps_prev _ G keeps_strs).
Qed.
Lemma dummy_flat nm : one nm -> flat (dummy nm).
Proof. intro H. unfold flat. cbn. repeat (split; [assumption || apply one_nil|]). apply one_nil. Qed.
Lemma reach_flat k y : reach G L (cfg0 k) y -> Forall flat (recs y).
Proof.
  intro R. apply all_recs_recs. apply (reach_ind_inv G L (all_recs flat) ev_flat _ _ R). split; [constructor|]. apply dummy_flat. onec.
Qed.
End Runs.

Lemma field_one field : Forall (fun t => one (t_text t)) (field_tokens field).
Proof.
  apply Forall_forall. intros t Ht. unfold field_tokens in Ht. apply in_map_iff in Ht as (t0 & <- & Ht). cbn [typed t_text].
  rewrite tokenize_string_toks in Ht. cbn [tk_list] in Ht. pose proof (toks_tokenization f15_whitespace field) as T.
  intros c Hc ->. destruct (tkz_shape _ _ _ T _ Ht) as [[_ E]|(E & _)].
  - rewrite E in Hc. destruct Hc as [K|[]]. discriminate K.
  - apply E in Hc. unfold separator in Hc. apply Hc. cbn. tauto.
Qed.
Lemma err_flat t n : one (t_text t) -> defined_error n = true -> flat (err t n).
Proof.
  intros H D. unfold flat, err, err_rec, append_error_text. cbn [new_rec r_err pstr_eqb set_r_err r_name r_alt r_speed r_break r_rules r_cto].
  pose proof (one_replace _ _ H (one_msg n D)). repeat (split; [assumption || apply one_nil|]). apply one_nil.
Qed.
Lemma rules_flat r s : flat r -> one s -> flat (set_r_rules s r).
Proof. unfold flat. cbn. tauto. Qed.
Lemma field_flat G depth field b s : parse_field15 G depth field = Ok b s -> Forall flat (e_recs (s_ers s)) /\ Forall flat (e_errs (s_ers s)).
Proof.
  intro H. pose proof (field_one field) as HT. destruct (empty_or field) as [E|E].
  - destruct (parsed_empty _ _ _ _ _ H E) as [_ ->]. cbn [e_recs e_errs]. split; repeat constructor; try (apply one_nil); onec.
  - destruct (parsed _ _ _ _ _ H E) as (HL & y & R & -> & _). cbn [e_recs e_errs]. set (L := field_tokens field) in *.
    pose proof (reach_flat G L HT _ _ R) as Rs.
    assert (F : Forall flat (field_recs (is_vfr_first L) y)).
    { unfold field_recs. destruct (is_vfr_first L); [apply list_upd_Forall; [|exact Rs]; intros r Hr; apply rules_flat; [exact Hr|onec]|exact Rs]. }
    split.
    + unfold final_recs. apply Forall_app. split; [exact F|]. constructor; [|constructor]. unfold ades_rec. apply rules_flat; [apply dummy_flat; onec|].
      assert (Q : flat (last (field_recs (is_vfr_first L) y) adep0)) by (apply last_Forall; [exact F|apply dummy_flat; onec]). apply Q.
    + eapply Forall_impl; [|exact (reach_err_ok G L _ _ R)]. intros e (t & m & T & D & ->). rewrite Forall_forall in HT. apply err_flat; [exact (HT _ T)|exact D].
Qed.

(** ** Lines *)
Lemma lines_from_line cur s rest : one s -> lines_from cur (s ++ nl ++ rest) = (cur ++ s) :: lines rest.
Proof.
  revert cur. induction s as [|c s IH]; intros cur H; [cbn; now rewrite app_nil_r|]. cbn [app lines_from].
  destruct (N.eqb_spec c 10) as [->|_]; [exfalso; apply (H 10%N); [now left|reflexivity]|]. rewrite IH by (intros d I; apply H; now right). now rewrite <- app_assoc.
Qed.
Lemma lines_line s rest : one s -> lines (print_line s ++ rest) = s :: lines rest.
Proof. intro H. unfold print_line. rewrite <- app_assoc. unfold lines at 1. now rewrite lines_from_line. Qed.
Lemma lines_list {A} (f : A -> pstr) l rest : Forall (fun a => one (f a)) l -> lines (flat_map (fun a => print_line (f a)) l ++ rest) = map f l ++ lines rest.
Proof. induction 1 as [|a l H F IH]; [reflexivity|]. cbn [flat_map map app]. rewrite <- app_assoc, lines_line by exact H. now rewrite IH. Qed.
Lemma header_one_1 : one header_1.
Proof. onec. Qed.
Lemma header_one_2 e : one (header_2 e).
Proof. destruct e; onec. Qed.
Lemma ers_lines x : Forall flat (e_recs x) -> Forall flat (e_errs x) ->
  lines (print_ers x) =
    ($"Total Number of Extracted Route Records: " ++ str_of_Z (zlen (e_recs x))) :: header_1 :: header_2 false :: map (to_string false) (e_recs x) ++
    [] :: ($"Total Number of Errors: " ++ str_of_Z (zlen (e_errs x))) ::
    match e_errs x with [] => [] | _ => header_1 :: header_2 true :: map (to_string true) (e_errs x) end.
Proof.
  intros F E. unfold print_ers, print_header_lines. rewrite lines_line by (apply one_app; [onec|apply one_Z]). rewrite <- !app_assoc.
  rewrite lines_line by apply header_one_1. rewrite lines_line by apply header_one_2. do 3 f_equal.
  rewrite (lines_list (to_string false)) by (eapply Forall_impl; [|exact F]; intros r H; now apply to_string_one). f_equal.
  unfold print_line at 1. rewrite <- !app_assoc.
  match goal with |- lines (nl ++ ?x) = _ => change (lines (nl ++ x)) with ([] :: lines x) end. f_equal.
  match goal with |- lines (?a ++ ?z ++ nl ++ ?r) = _ => replace (a ++ z ++ nl ++ r) with (print_line (a ++ z) ++ r) by (unfold print_line; now rewrite <- !app_assoc) end.
  rewrite lines_line by (apply one_app; [onec|apply one_Z]). f_equal. unfold get_number_of_errors. destruct (e_errs x) as [|e es] eqn:Ee; [reflexivity|].
  replace (0 <? zlen (e :: es))%Z with true by (unfold zlen; cbn [List.length]; lia).
  rewrite lines_line by apply header_one_1. rewrite lines_line by apply header_one_2.
  rewrite <- (app_nil_r (flat_map _ _)). rewrite (lines_list (to_string true)) by (eapply Forall_impl; [|exact E]; intros r H; now apply to_string_one).
  unfold lines at 1. cbn [lines_from]. now rewrite app_nil_r.
Qed.
