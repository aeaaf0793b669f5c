(** * PrintReport: the printed report of every result. *)
From Coq Require Import ZArith NArith List Bool String Lia.
From Coq Require Import Floats.SpecFloat.
From Coq Require Import ZifyBool ZifyNat ZifyN.
From Verif Require Import PyBase PyFloat Enums ErrorTable Syntax Tokenizer Ers Xml Utils Parser Print.
From Verif Require Import SpecTokenizer TokenizerProofs SyntaxProofs SpecNum SpecText TextProofs.
From Verif Require Import ParserPrims PerfEq PointEq Trace ParseTrace SpecParser ParserInv ParserFacts SpecPrint PrintFacts PrintRuns PrintLines.
Import List ListNotations.
Local Open Scope list_scope.
Local Open Scope Z_scope.

Lemma record_columns G depth field b s : sane G -> zlen field < 10 ^ 6 -> parse_field15 G depth field = Ok b s ->
  (forall r, In r (e_recs (s_ers s)) -> zlen (r_name r) <= 17 -> record_line r (r_break r) (to_string false r)) /\
  (forall e, In e (e_errs (s_ers s)) -> zlen (r_name e) <= 17 -> record_line e (r_err e) (to_string true e)).
Proof.
  intros HG HF H. pose proof (record_fit G HG _ _ _ _ H HF) as A. pose proof (error_fit G _ _ _ _ H HF) as B. rewrite Forall_forall in A, B.
  split; intros r I N; [exact (record_fits false r (A r I N))|exact (record_fits true r (B r I N))].
Qed.

(** ** Names of a recognised type *)
Lemma typed_short field t : In t (field_tokens field) -> t_base t <> F15_UNKNOWN -> t_base t <> F15_TOO_LONG -> zlen (t_text t) <= 17.
Proof.
  unfold field_tokens. intro I. apply in_map_iff in I as (t0 & <- & _). cbn [typed t_base t_text]. intros A B.
  exact (proj2 (proj1 (classify_recognised _ A B))).
Qed.
Lemma known_short G depth field b s : parse_field15 G depth field = Ok b s ->
  forall r, In r (e_recs (s_ers s) ++ e_errs (s_ers s)) -> r_base r <> F15_UNKNOWN -> r_base r <> F15_TOO_LONG -> zlen (r_name r) <= 17.
Proof.
  intros H r I B1 B2. apply in_app_or in I as [I|I].
  - destruct (adep_ades G _ _ _ _ H) as (a & mid & z & E & (A & _) & (Z & _) & F). rewrite E in I. destruct I as [<-|I]; [rewrite A; vm_compute; discriminate|].
    apply in_app_or in I as [I|[<-|[]]]; [|rewrite Z; vm_compute; discriminate]. rewrite Forall_forall in F.
    destruct (F r I) as (t & T & _ & _ & N & Ty). destruct N as [N|[_ N]]; [|rewrite N; vm_compute; discriminate]. rewrite N.
    apply (typed_short field t T); destruct Ty as [Ty|[Ty _]]; [injection Ty; congruence|intro K; rewrite K in Ty; cbn [In] in Ty; intuition discriminate
      |injection Ty; congruence|intro K; rewrite K in Ty; cbn [In] in Ty; intuition discriminate].
  - destruct (empty_or field) as [E|E].
    + destruct (parsed_empty G _ _ _ _ H E) as [_ Q]. rewrite Q in I. cbn [e_errs In] in I. destruct I as [<-|[]]. vm_compute. discriminate.
    + pose proof (errors_report G _ _ _ _ H E) as F. rewrite Forall_forall in F. destruct (F r I) as (t & m & T & N & _ & _ & Bt & _).
      rewrite N. apply (typed_short field t T); congruence.
Qed.

(** ** The report *)
Lemma header_text_1 : header_1 = titles_1.
Proof. vm_compute. reflexivity. Qed.
Lemma header_text_2 e : header_2 e = titles_2 (if e then $"Error Text" else $"Break Text").
Proof. destruct e; vm_compute; reflexivity. Qed.
Lemma mapped {A} (P : A -> pstr -> Prop) (f : A -> pstr) l : (forall a, In a l -> P a (f a)) -> Forall2 P l (map f l).
Proof. induction l as [|a l IH]; intro H; constructor; [apply H; now left|]. apply IH. intros x I. apply H. now right. Qed.
Lemma report_lines G depth field b s : sane G -> zlen field < 10 ^ 6 -> parse_field15 G depth field = Ok b s ->
  printed_report (s_ers s) (lines (print_ers (s_ers s))).
Proof.
  intros HG HF H. destruct (record_columns G _ _ _ _ HG HF H) as [R E]. destruct (field_flat G _ _ _ _ H) as [FR FE].
  rewrite (ers_lines _ FR FE). rewrite header_text_1, !header_text_2.
  exists (str_of_Z (zlen (e_recs (s_ers s)))), (str_of_Z (zlen (e_errs (s_ers s)))), (map (to_string false) (e_recs (s_ers s))), (map (to_string true) (e_errs (s_ers s))).
  split; [apply integer_Z|]. split; [apply integer_Z|]. split; [now apply mapped|]. split; [now apply mapped|].
  f_equal. f_equal. f_equal. f_equal. f_equal. f_equal. now destruct (e_errs (s_ers s)).
Qed.

(** ** Tokens *)
Lemma token_one t : one (t_text t) -> one (token_line t).
Proof.
  intro H. unfold token_line. do 4 (apply one_app; [apply one_left; auto using one_Z|]). apply one_left, one_Z.
Qed.
Lemma tokens_lines ts : Forall (fun t => one (t_text t)) (tk_list ts) ->
  lines (print_tokens ts) = ($"Total Number of Tokens: " ++ str_of_Z (zlen (tk_list ts))) :: token_titles_1 :: token_titles_2 :: map token_line (tk_list ts).
Proof.
  intro F. unfold print_tokens. rewrite lines_line by (apply one_app; [onec|apply one_Z]). rewrite lines_line by onec. rewrite lines_line by onec.
  rewrite <- (app_nil_r (flat_map _ _)). rewrite (lines_list token_line) by (eapply Forall_impl; [|exact F]; intros t H; now apply token_one).
  unfold lines at 1. cbn [lines_from]. now rewrite app_nil_r.
Qed.
Lemma token_report field k : zlen field < 10 ^ 5 ->
  printed_tokens (field_tokens field) (lines (print_tokens (mkTokens (field_tokens field) k))).
Proof.
  intro HF. rewrite tokens_lines by apply field_one. cbn [tk_list]. eexists _, _. split; [|split; [|reflexivity]]; [apply integer_Z|].
  apply mapped. intros t I N. destruct (token_place field t I) as [A B]. assert (10 ^ 5 <= 10 ^ 6) by (vm_compute; discriminate). apply token_fits; lia.
Qed.

(** ** Lines that do not fit *)
Lemma long_name_out r x line : 17 < zlen (r_name r) -> ~ record_line r x line.
Proof. intros N [(k & _ & K) _]. lia. Qed.
Definition long_climb : pstr := $"N0450F350 DCT ABC DCT C/ABCDEFGHIJKLMNOPQRSTUV/N0450F350F370".
Lemma long_witness G : exists s r, parse_field15 G 100 long_climb = Ok true s /\ In r (e_recs (s_ers s)) /\ ~ record_line r (r_break r) (to_string false r).
Proof.
  eexists. eexists. split; [vm_compute; reflexivity|]. split; [cbn [s_ers e_recs]; do 4 right; left; reflexivity|].
  apply long_name_out. reflexivity.
Qed.
Definition main_field : pstr := $"N0450M0825 00N000E B9 00N001E VFR IFR 00N001W/N0350F100 01N001W 01S001W 02S001W180060".
Lemma token_witness : exists t, In t (field_tokens main_field) /\ ~ token_printed t (token_line t).
Proof.
  assert (E : nth_error (field_tokens main_field) 0 = Some (mkToken ($"N0450M0825") 0 10 F15_SPEED_ALTITUDE F15_SB_SPEED_ALTITUDE_NM)) by (vm_compute; reflexivity).
  eexists. split; [exact (nth_error_In _ _ E)|]. intros [_ [(k & _ & K) _]]. cbn [t_text] in K. change (zlen ($"N0450M0825")) with 10 in K. lia.
Qed.
