(** * XmlUnique: the XML output determines the result. *)
From Coq Require Import ZArith NArith List Bool String Lia ZifyBool.
From Verif Require Import PyBase PyFloat Enums Tokenizer Ers Utils Parser Xml SpecText SpecXml SpecXmlUnique SpecParser TextProofs ParserPrims Trace ParseTrace XmlFacts.
Import List ListNotations.
Local Open Scope list_scope.
Local Open Scope nat_scope.

Lemma cut (c : N) a b x y : ~ In c a -> ~ In c b -> a ++ c :: x = b ++ c :: y -> a = b /\ x = y.
Proof.
  revert b. induction a as [|u a IH]; intros [|v b] Ha Hb E; cbn [app] in E.
  - injection E as E. auto.
  - injection E as E _. subst v. destruct Hb. now left.
  - injection E as E _. subst u. destruct Ha. now left.
  - injection E as -> E. destruct (IH b) as [-> ->]; auto; intro X; [apply Ha|apply Hb]; now right.
Qed.
Lemma oks_not c s : okc c = false -> oks s -> ~ In c s.
Proof. intros H K X. unfold oks in K. rewrite forallb_forall in K. rewrite (K c X) in H. discriminate. Qed.
Lemma attr_cut n a b x y : ~ In 34%N a -> ~ In 34%N b -> attr n a ++ x = attr n b ++ y -> a = b /\ x = y.
Proof.
  intros Ha Hb E. unfold attr, dq in E. rewrite <- !app_assoc in E. do 4 apply app_inv_head in E. cbn [app] in E. now apply (cut 34%N).
Qed.
Definition plain_atts (l : list (pstr * pstr)) : Prop := Forall (fun p => ~ In 34%N (snd p)) l.
Lemma attrs_cut l : forall l' x y, plain_atts l -> plain_atts l' -> map fst l = map fst l' ->
  flat_map (fun p => attr (fst p) (snd p)) l ++ x = flat_map (fun p => attr (fst p) (snd p)) l' ++ y -> map snd l = map snd l' /\ x = y.
Proof.
  induction l as [|[n a] l IH]; intros [|[n' a'] l'] x y H H' M E; try discriminate; [auto|].
  cbn [map fst] in M. injection M as <- M. inversion H; subst. inversion H'; subst. cbn [flat_map fst snd] in E. rewrite <- !app_assoc in E.
  apply attr_cut in E as [-> E]; [|assumption|assumption]. destruct (IH l' x y) as [A B]; auto. cbn [map snd]. split; [congruence|exact B].
Qed.

(** ** Values *)
Lemma digit_not_minus t : SpecNum.all_digits (45%N :: t) -> False.
Proof. intro H. specialize (H 45%N (or_introl eq_refl)). revert H. vm_compute. intuition congruence. Qed.
Lemma integer_inj z z' s : integer_text z s -> integer_text z' s -> z = z'.
Proof.
  unfold integer_text. destruct (Z.ltb_spec z 0), (Z.ltb_spec z' 0).
  - intros (t & -> & A) (t' & E & B). injection E as <-. destruct A as (_ & _ & A & _), B as (_ & _ & B & _). lia.
  - intros (t & -> & A) (B & _). now destruct (digit_not_minus t).
  - intros (A & _) (t & -> & B). now destruct (digit_not_minus t).
  - intros (_ & _ & A & _) (_ & _ & B & _). lia.
Qed.
Lemma str_inj z z' : str_of_Z z = str_of_Z z' -> z = z'.
Proof. intro E. eapply integer_inj; [apply integer_Z|rewrite E; apply integer_Z]. Qed.
Lemma fmt_inj x y : fmt_num x = fmt_num y -> num_z x = num_z y.
Proof.
  intro E. destruct (si_text x) as (t & A & B), (si_text y) as (t' & A' & B'). rewrite A, A' in E. apply app_inv_tail in E as <-. eapply integer_inj; eauto.
Qed.
Definition codes : list Z := map Z.of_nat (seq 0 150).
Definition base_named (s : pstr) : option base_type :=
  match find (fun z => match base_decode z with Some y => pstr_eqb (base_name y) s | None => false end) codes with Some z => base_decode z | None => None end.
Definition sub_named (s : pstr) : option sub_type :=
  match find (fun z => match sub_decode z with Some y => pstr_eqb (sub_name y) s | None => false end) codes with Some z => sub_decode z | None => None end.
Lemma base_named_name b : base_named (base_name b) = Some b.
Proof. destruct b; vm_compute; reflexivity. Qed.
Lemma sub_named_name b : sub_named (sub_name b) = Some b.
Proof. destruct b; vm_compute; reflexivity. Qed.
Lemma base_inj v b b' : str_base v b = str_base v b' -> b = b'.
Proof.
  destruct v; cbn [str_base]; intro E.
  - apply app_inv_head in E. assert (K : Some b = Some b') by now rewrite <- !base_named_name, E. congruence.
  - apply str_inj in E. assert (K : Some b = Some b') by now rewrite <- !base_decode_code, E. congruence.
Qed.
Lemma sub_inj v b b' : str_sub v b = str_sub v b' -> b = b'.
Proof.
  destruct v; cbn [str_sub]; intro E.
  - apply app_inv_head in E. assert (K : Some b = Some b') by now rewrite <- !sub_named_name, E. congruence.
  - apply str_inj in E. assert (K : Some b = Some b') by now rewrite <- !sub_decode_code, E. congruence.
Qed.

(** ** Records *)
Definition clear (error : bool) (r : rrec) : Prop :=
  ~ In 60%N (r_name r) /\ ~ In 34%N (r_speed r) /\ ~ In 34%N (r_alt r) /\ ~ In 34%N (r_rules r) /\ ~ In 34%N (r_cto r) /\
  ~ In 34%N (if error then r_err r else r_break r).
Lemma clear_atts v e r : clear e r -> plain_atts (rec_attrs v e r).
Proof.
  intros (A & B & C & D & E & F). unfold rec_attrs, plain_atts. pose proof (fun z => oks_not 34 _ eq_refl (str_of_Z_ok z)). pose proof (fun z => oks_not 34 _ eq_refl (fmt_num_ok z)).
  pose proof (fun z => oks_not 34 _ eq_refl (fmt_2f_ok z)). pose proof (oks_not 34 _ eq_refl (str_base_ok v (r_base r))). pose proof (oks_not 34 _ eq_refl (str_sub_ok v (r_sub r))).
  repeat constructor; cbn [snd]; auto; destruct e; exact F.
Qed.
Lemma rec_cut v e r r' x y : clear e r -> clear e r' -> rec_as_xml v e r ++ x = rec_as_xml v e r' ++ y -> agree e r r' /\ x = y.
Proof.
  intros H H' E. unfold rec_as_xml in E. rewrite <- !app_assoc in E. do 2 apply app_inv_head in E.
  apply attrs_cut in E as [M E]; [|now apply clear_atts|now apply clear_atts|destruct e; reflexivity].
  apply app_inv_head in E. destruct H as (H & _), H' as (H' & _). change ($"</" ++ ?a) with (60%N :: 47%N :: a) in E.
  apply (cut 60%N) in E as [N E]; [|exact H|exact H']. change (47%N :: ?a) with ([47%N] ++ a) in E. apply app_inv_head in E. do 2 apply app_inv_head in E. split; [|exact E].
  unfold rec_attrs in M. cbn [map snd] in M. injection M as M1 M2 M3 M4 M5 M6 M7 M8 M9 M10 M11 M12 M13 M14 M15 M16 M17.
  unfold agree. repeat split; auto using str_inj, fmt_inj; [exact (base_inj v _ _ M3)|exact (sub_inj v _ _ M4)|destruct e; exact M17].
Qed.
(** A list of lines, each of which begins with a space after the three first ones. *)
Lemma recs_cut v e w l : forall l' x y, Forall (clear e) l -> Forall (clear e) l' ->
  firstn 4 w = $"    " \/ w = $"   " -> hd_error (skipn 3 x) = Some 60%N -> hd_error (skipn 3 y) = Some 60%N ->
  flat_map (fun r => w ++ rec_as_xml v e r ++ nl) l ++ x = flat_map (fun r => w ++ rec_as_xml v e r ++ nl) l' ++ y -> Forall2 (agree e) l l' /\ x = y.
Proof.
  assert (No : forall w r z u, firstn 4 w = $"    " \/ w = $"   " -> hd_error (skipn 3 u) = Some 60%N -> (w ++ rec_as_xml v e r ++ nl) ++ z = u -> False).
  { intros w0 r z u W X E. rewrite <- E in X. destruct W as [W| ->].
    - destruct w0 as [|a [|b [|c [|d w0]]]]; try discriminate W. injection W as -> -> -> ->. discriminate X.
    - unfold rec_as_xml in X. rewrite <- !app_assoc in X. discriminate X. }
  induction l as [|r l IH]; intros [|r' l'] x y H H' W X Y E; cbn [flat_map] in E.
  - split; [constructor|exact E].
  - exfalso. rewrite <- app_assoc in E. eapply No; [exact W|exact X|]. symmetry. exact E.
  - exfalso. rewrite <- app_assoc in E. eapply No; [exact W|exact Y|]. exact E.
  - inversion H; subst. inversion H'; subst. rewrite <- !app_assoc in E. apply app_inv_head in E. apply rec_cut in E as [A E]; auto. apply app_inv_head in E.
    apply IH in E as [B C]; auto.
Qed.
Lemma ers_cut v x y : ~ In 60%N (e_rules x) -> ~ In 60%N (e_rules y) -> Forall (clear false) (e_recs x) -> Forall (clear false) (e_recs y) ->
  Forall (clear true) (e_errs x) -> Forall (clear true) (e_errs y) -> ers_as_xml v x = ers_as_xml v y ->
  e_rules x = e_rules y /\ Forall2 (agree false) (e_recs x) (e_recs y) /\ Forall2 (agree true) (e_errs x) (e_errs y).
Proof.
  intros R1 R2 A1 A2 B1 B2 E. unfold ers_as_xml in E. do 3 apply app_inv_head in E. 
  change ($"</derived_flight_rules>" ++ ?a) with (60%N :: $"/derived_flight_rules>" ++ a) in E. apply (cut 60%N) in E as [Er E]; [|exact R1|exact R2].
  do 2 apply app_inv_head in E. split; [exact Er|].
  apply recs_cut in E as [F E]; [|exact A1|exact A2|right; reflexivity|match goal with |- context [if ?c then _ else _] => destruct c end; reflexivity..]. split; [exact F|].
  unfold get_number_of_errors in E.
  assert (P : forall u : list rrec, (0 <? zlen u)%Z = match u with [] => false | _ => true end) by (intros [|]; unfold zlen; cbn [List.length]; lia).
  rewrite !P in E. destruct (e_errs x) as [|a l], (e_errs y) as [|b l']; [constructor|discriminate E|discriminate E|].
  rewrite <- !app_assoc in E. do 2 apply app_inv_head in E. apply recs_cut in E as [K _]; [exact K|exact B1|exact B2|left; reflexivity|reflexivity|reflexivity].
Qed.

(** ** Fields *)
Lemma strs_clear r : strs_ok r -> clear false r /\ clear true r.
Proof. intros (A & B & C & D & E & F & H & _). repeat split; apply oks_not; auto. Qed.
Lemma shape_clear r : err_shape r -> clear true r.
Proof.
  intros [H|(t & m & [H _] & D & _ & ->)]; [now apply strs_clear|]. destruct (message_spec m D) as (_ & _ & M).
  unfold clear, err, err_rec, append_error_text. cbn [new_rec r_err pstr_eqb set_r_err r_name r_alt r_speed r_break r_rules r_cto].
  split; [now apply oks_not|]. do 4 (split; [intros []|]). intro X. unfold replace_char in X. apply in_flat_map in X as (c & C1 & C2).
  destruct (N.eqb c 33); [revert C2; now apply oks_not|]. destruct C2 as [->|[]]. destruct (M _ C1) as [K|K]; discriminate K.
Qed.
Lemma xml_unique v G G' depth depth' field field' b b' s s' : no_escape field -> no_escape field' ->
  parse_field15 G depth field = Ok b s -> parse_field15 G' depth' field' = Ok b' s' ->
  ers_as_xml v (s_ers s) = ers_as_xml v (s_ers s') ->
  e_rules (s_ers s) = e_rules (s_ers s') /\ Forall2 (agree false) (e_recs (s_ers s)) (e_recs (s_ers s')) /\ Forall2 (agree true) (e_errs (s_ers s)) (e_errs (s_ers s')).
Proof.
  intros N N' H H' E. destruct (field_strs G depth field b s N H) as (A & B & C & _), (field_strs G' depth' field' b' s' N' H') as (A' & B' & C' & _).
  apply (ers_cut v); try exact E; try (apply oks_not; [reflexivity|assumption]).
  - eapply Forall_impl; [|exact A]. apply strs_clear.
  - eapply Forall_impl; [|exact A']. apply strs_clear.
  - eapply Forall_impl; [|exact B]. apply shape_clear.
  - eapply Forall_impl; [|exact B']. apply shape_clear.
Qed.
