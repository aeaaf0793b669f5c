(** * XmlFacts: lemmas about the XML output (lemmas behind PropsErs). *)
From Coq Require Import ZArith NArith List Bool String Lia.
From Coq Require Import Floats.SpecFloat.
From Coq Require Import ZifyBool ZifyNat ZifyN.
From Verif Require Import PyBase PyFloat Enums ErrorTable Regex SyntaxTable Syntax Tokenizer Ers Xml Utils Parser.
From Verif Require Import SpecTokenizer TokenizerProofs ParserPrims PerfEq PointEq Trace ParseTrace SpecParser ParserInv ParserFacts SpecXml.
Import List ListNotations.
Local Open Scope list_scope.
Local Open Scope nat_scope.

(** ** Characters that stand for themselves in attribute values and in text *)
Definition okc (c : N) : bool := xml_char c && negb (in_ranges c [(60, 60); (38, 38); (34, 34); (9, 10); (13, 13)]%N).
Definition oks (s : pstr) : Prop := forallb okc s = true.
Lemma okc_spec c : okc c = true -> xml_char c = true /\ c <> 60%N /\ c <> 38%N /\ c <> 34%N /\ c <> 9%N /\ c <> 10%N /\ c <> 13%N.
Proof. unfold okc. intro H. apply andb_true_iff in H as [H1 H2]. split; [exact H1|]. unfold in_ranges in H2. cbn in H2. lia. Qed.
Lemma oks_app a b : oks a -> oks b -> oks (a ++ b).
Proof. unfold oks. intros H K. now rewrite forallb_app, H, K. Qed.
Lemma oks_cons c s : okc c = true -> oks s -> oks (c :: s).
Proof. unfold oks. intros H K. cbn [forallb]. now rewrite H, K. Qed.
Lemma oks_In s : oks s <-> forall c, In c s -> okc c = true.
Proof. apply forallb_forall. Qed.
Lemma oks_slice s a b : oks s -> oks (slice s a b).
Proof.
  rewrite !oks_In. intros H c Hc. apply H. unfold slice in Hc.
  rewrite <- (firstn_skipn (Z.to_nat (match a with Some i => slice_bound (zlen s) i | None => 0%Z end)) s). apply in_or_app. right.
  set (t := skipn _ s) in *. revert Hc. generalize (Z.to_nat (match b with Some i => slice_bound (zlen s) i | None => zlen s end - match a with Some i => slice_bound (zlen s) i | None => 0%Z end)).
  intros n Hc. rewrite <- (firstn_skipn n t). apply in_or_app. now left.
Qed.
Lemma digits_ok f : forall n acc, oks acc -> oks (nat_digits f n acc).
Proof.
  induction f as [|f IH]; intros n acc H; [exact H|]. cbn [nat_digits]. cbv zeta.
  assert (K : oks ((48 + n mod 10)%N :: acc)).
  { apply oks_cons; [|exact H]. pose proof (N.mod_lt n 10 ltac:(discriminate)). unfold okc, xml_char, in_ranges. cbn [existsb fst snd]. lia. }
  destruct (N.eqb _ _); [exact K|now apply IH].
Qed.
Lemma str_of_Z_ok z : oks (str_of_Z z).
Proof. unfold str_of_Z, str_of_N. destruct (z <? 0)%Z; [apply oks_cons; [reflexivity|]|]; now apply digits_ok. Qed.
Lemma fmt_num_ok x : oks (fmt_num x).
Proof. destruct x; [reflexivity|]. cbn [fmt_num]. apply oks_app; [apply str_of_Z_ok|reflexivity]. Qed.
Lemma pad2_ok z : oks (pad2 z).
Proof. unfold pad2. destruct (z <? 10)%Z; [apply oks_cons; [reflexivity|]|]; apply str_of_Z_ok. Qed.
Lemma fmt_2f_ok f : oks (fmt_2f f).
Proof.
  unfold fmt_2f. destruct f; cbv zeta; try reflexivity; apply oks_app; try (destruct s; reflexivity);
    apply oks_app; try apply str_of_Z_ok; (apply oks_app; [reflexivity|apply pad2_ok]).
Qed.
Lemma str_base_ok v b : oks (str_base v b).
Proof. destruct v; [destruct b; vm_compute; reflexivity|apply str_of_Z_ok]. Qed.
Lemma str_sub_ok v b : oks (str_sub v b).
Proof. destruct v; [destruct b; vm_compute; reflexivity|apply str_of_Z_ok]. Qed.

(** ** Building blocks *)
Lemma att_value s : oks s -> value [34%N] att_norm s s.
Proof.
  induction s as [|c s IH]; intro H; [constructor|]. unfold oks in H. cbn [forallb] in H. apply andb_true_iff in H as [H K].
  apply okc_spec in H. assert (E : att_norm c = c).
  { unfold att_norm. destruct (xml_space c) eqn:E; [|reflexivity]. unfold xml_space, in_ranges in E. cbn in E. lia. }
  rewrite <- E at 1. apply ru_char; [tauto|cbn; intuition lia|cbn; intuition lia|]. now apply IH.
Qed.
Lemma text_value s : (forall c, In c s -> xml_char c = true /\ c <> 60%N /\ c <> 38%N /\ c <> 13%N) -> value [] text_norm s s.
Proof.
  induction s as [|c s IH]; intro H; [constructor|]. destruct (H c (or_introl eq_refl)) as (H1 & H2 & H3 & H4).
  assert (E : text_norm c = c) by (unfold text_norm; destruct (N.eqb_spec c 13); [contradiction|reflexivity]).
  rewrite <- E at 1. apply ru_char; [exact H1|cbn; intuition lia|intros []|]. apply IH. intros d Hd. apply H. now right.
Qed.
Lemma oks_text s : oks s -> value [] text_norm s s.
Proof. intro H. apply text_value. rewrite oks_In in H. intros c Hc. apply H, okc_spec in Hc. tauto. Qed.
Definition nameb (s : pstr) : bool := match s with c :: r => in_ranges c name_start && forallb (fun d => in_ranges d name_more) r | [] => false end.
Lemma nameb_spec s : nameb s = true -> xml_name s.
Proof.
  destruct s as [|c r]; [discriminate|]. cbn [nameb]. intro H. apply andb_true_iff in H as [H1 H2]. exists c, r.
  split; [reflexivity|]. split; [exact H1|]. now apply forallb_forall.
Qed.
Lemma attrs_ok l : (forall p, In p l -> nameb (fst p) = true /\ oks (snd p)) -> attributes l (flat_map (fun p => attr (fst p) (snd p)) l).
Proof.
  induction l as [|[n v] l IH]; intro H; [constructor|]. destruct (H (n, v) (or_introl eq_refl)) as [H1 H2]. cbn [fst snd flat_map] in *.
  unfold attr, dq. rewrite <- !app_assoc. cbn [of_str Ascii.N_of_ascii].
  apply (at_cons n v l 34%N v [32%N] [] [] _); [now left|intros c [<-|[]]; reflexivity|discriminate|now apply nameb_spec|intros c []|intros c []|now apply att_value|].
  apply IH. intros p Hp. apply H. now right.
Qed.
Definition strs_ok (r : rrec) : Prop :=
  oks (r_name r) /\ oks (r_alt r) /\ oks (r_speed r) /\ oks (r_break r) /\ oks (r_rules r) /\ oks (r_err r) /\ oks (r_cto r) /\ ~ infix ($"]]>") (r_name r).
Lemma rec_attrs_eq v r : rec_attrs v false r = record_atts v r ($"break_text", r_break r) /\ rec_attrs v true r = record_atts v r ($"error_text", r_err r).
Proof. split; reflexivity. Qed.
Fixpoint nodupb (l : list pstr) : bool := match l with [] => true | a :: r => negb (existsb (pstr_eqb a) r) && nodupb r end.
Lemma nodupb_spec l : nodupb l = true -> NoDup l.
Proof.
  induction l as [|a l IH]; intro H; [constructor|]. cbn [nodupb] in H. apply andb_true_iff in H as [H K]. constructor; [|now apply IH].
  intro C. assert (E : existsb (pstr_eqb a) l = true) by (apply existsb_exists; exists a; split; [exact C|now apply pstr_eqb_eq]). now rewrite E in H.
Qed.
Lemma record_atts_ok v r n s : nameb n = true -> strs_ok r -> oks s -> forall p, In p (record_atts v r (n, s)) -> nameb (fst p) = true /\ oks (snd p).
Proof.
  intros Hn (A & B & C & D & E & F & K & _) Hs p Hp. unfold record_atts in Hp.
  repeat (destruct Hp as [<-|Hp]; [cbn [fst snd]; split; [first [exact Hn|reflexivity]|
    auto using str_of_Z_ok, fmt_num_ok, fmt_2f_ok, str_base_ok, str_sub_ok]|]). destruct Hp.
Qed.
Lemma no_spaces : spaces []. Proof. intros c []. Qed.
Lemma kids_text_ok s : oks s -> ~ infix ($"]]>") s -> content (kids_text s) s.
Proof.
  intros H K. destruct s as [|c s]; [constructor|]. cbn [kids_text]. rewrite <- (app_nil_r (c :: s)) at 2.
  apply co_text; [now apply oks_text|exact K|discriminate|reflexivity|constructor].
Qed.
Definition rec_body (v : py_version) (error : bool) (r : rrec) : pstr :=
  [60%N] ++ rec_type error ++ flat_map (fun p => attr (fst p) (snd p)) (rec_attrs v error r) ++ [] ++ [62%N] ++ r_name r ++ [60; 47]%N ++ rec_type error ++ [] ++ [62%N].
Lemma rec_as_xml_eq v e r : rec_as_xml v e r = $"   " ++ rec_body v e r.
Proof. reflexivity. Qed.
Lemma rec_elem v r : strs_ok r -> element (record_elem v r) (rec_body v false r).
Proof.
  intro H. unfold record_elem, rec_body. rewrite (proj1 (rec_attrs_eq v r)). apply el_tag; try apply no_spaces.
  - now apply nameb_spec.
  - apply attrs_ok. apply record_atts_ok; [reflexivity|exact H|apply H].
  - apply nodupb_spec. reflexivity.
  - apply kids_text_ok; apply H.
Qed.
Lemma err_elem v r : strs_ok r -> element (error_elem v r) (rec_body v true r).
Proof.
  intro H. unfold error_elem, rec_body. rewrite (proj2 (rec_attrs_eq v r)). apply el_tag; try apply no_spaces.
  - now apply nameb_spec.
  - apply attrs_ok. apply record_atts_ok; [reflexivity|exact H|apply H].
  - apply nodupb_spec. reflexivity.
  - apply kids_text_ok; apply H.
Qed.
Definition is_elem (x : xml) : bool := match x with Elem _ _ _ => true | _ => false end.
Lemma co_node e l x s : is_elem e = true -> element e x -> content l s -> content (e :: l) (x ++ s).
Proof. intros H E C. destruct e; try discriminate. now apply co_elem. Qed.
(** White space, then an element. *)
Definition blankb (w : pstr) : bool := forallb (fun c => N.eqb c 32 || N.eqb c 10) w.
Lemma blank_text_node w l s : blankb w = true -> w <> [] -> starts_with_text l = false -> content l s -> content (Text w :: l) (w ++ s).
Proof.
  intros H Hw Hl C. unfold blankb in H. rewrite forallb_forall in H. apply co_text; [|intros (a & b & E)|exact Hw|exact Hl|exact C].
  - apply text_value. intros c Hc. apply H in Hc. unfold xml_char, in_ranges. cbn. lia.
  - assert (X : In 93%N w) by (rewrite E; apply in_or_app; right; now left). apply H in X. discriminate.
Qed.
Definition list_nodes (w : pstr) (es : list xml) (rest : list xml) : list xml := flat_map (fun e => [Text w; e]) es ++ rest.
(** A sequence of elements, each after the white space [w], then [rest]. *)
Lemma seq_nodes w (f : rrec -> xml) (g : rrec -> pstr) rs rest s : blankb w = true -> w <> [] -> (forall r, is_elem (f r) = true) ->
  Forall (fun r => element (f r) (g r)) rs -> content rest s ->
  content (list_nodes w (map f rs) rest) (flat_map (fun r => w ++ g r) rs ++ s).
Proof.
  intros Hw Hn He H C. unfold list_nodes. induction H as [|r rs Hr Hrs IH]; [exact C|]. cbn [map flat_map app]. rewrite <- !app_assoc.
  apply blank_text_node; [exact Hw|exact Hn|specialize (He r); destruct (f r); (discriminate || reflexivity)|]. apply co_node; [apply He|exact Hr|exact IH].
Qed.
Lemma blankb_text w : blankb w = true -> blank_text (Text w) = true.
Proof.
  unfold blankb, blank_text. rewrite !forallb_forall. intros H c Hc. apply H in Hc. unfold xml_space, in_ranges. cbn. lia.
Qed.
Lemma nodes_seq w (f : rrec -> xml) rs rest : blankb w = true -> (forall r, is_elem (f r) = true) -> nodes (list_nodes w (map f rs) rest) = map f rs ++ nodes rest.
Proof.
  intros Hw He. unfold list_nodes. induction rs as [|r rs IH]; [reflexivity|]. cbn [map flat_map app]. unfold nodes in *. cbn [filter].
  rewrite (blankb_text _ Hw). cbn [negb]. specialize (He r). destruct (f r); try discriminate. cbn [blank_text negb app]. now rewrite IH.
Qed.
(** Moving the line feed in front. *)
Lemma shift_nl (w : pstr) (g : rrec -> pstr) rs : nl ++ flat_map (fun r => w ++ g r ++ nl) rs = flat_map (fun r => (nl ++ w) ++ g r) rs ++ nl.
Proof. induction rs as [|r rs IH]; [reflexivity|]. cbn [flat_map]. rewrite <- !app_assoc. rewrite IH. reflexivity. Qed.

Lemma ers_elem v x : Forall strs_ok (e_recs x) -> Forall strs_ok (e_errs x) -> oks (e_rules x) -> ~ infix ($"]]>") (e_rules x) ->
  exists e, well_formed e (ers_as_xml v x) /\ is_ers v x e.
Proof.
  intros Hr He Hu Hi.
  set (dfr := Elem ($"derived_flight_rules") [] (kids_text (e_rules x))).
  set (dfrs := [60%N] ++ $"derived_flight_rules" ++ [] ++ [] ++ [62%N] ++ e_rules x ++ [60; 47]%N ++ $"derived_flight_rules" ++ [] ++ [62%N]).
  assert (Dfr : element dfr dfrs).
  { apply el_tag; try apply no_spaces; [now apply nameb_spec|constructor|constructor|now apply kids_text_ok]. }
  set (w := nl ++ $"      ").
  set (rs := flat_map (fun r => w ++ rec_body v false r) (e_recs x)).
  assert (R : Forall (fun r => element (record_elem v r) (rec_body v false r)) (e_recs x)) by (eapply Forall_impl; [|exact Hr]; intro; apply rec_elem).
  set (w3 := nl ++ $"   ").
  assert (Fin : forall rest s, content rest s ->
     content (Text w :: dfr :: list_nodes w (map (record_elem v) (e_recs x)) rest) (w ++ dfrs ++ rs ++ s)).
  { intros rest s C. apply blank_text_node; [reflexivity|discriminate|reflexivity|]. apply co_node; [reflexivity|exact Dfr|].
    apply seq_nodes; [reflexivity|discriminate|reflexivity|exact R|exact C]. }
  assert (Ers : forall kids s, content kids s -> element (Elem ($"ers") [] kids) ([60%N] ++ $"ers" ++ [] ++ [] ++ [62%N] ++ s ++ [60; 47]%N ++ $"ers" ++ [] ++ [62%N])).
  { intros kids s C. apply el_tag; try apply no_spaces; [now apply nameb_spec|constructor|constructor|exact C]. }
  assert (Sp : spaces ($"   ")) by (intros c [<-|[<-|[<-|[]]]]; reflexivity).
  assert (Recs : forall z, nl ++ flat_map (fun r => $"   " ++ rec_as_xml v false r ++ nl) (e_recs x) ++ z = rs ++ nl ++ z).
  { intro z. rewrite app_assoc. rewrite (shift_nl ($"   ") (rec_as_xml v false) (e_recs x)). unfold rs, w. rewrite <- app_assoc. f_equal. }
  destruct (e_errs x) as [|e0 es] eqn:Ee.
  - set (rest := [Text w3]).
    assert (C : content rest w3) by (unfold rest; rewrite <- (app_nil_r w3) at 2; apply blank_text_node; [reflexivity|discriminate|reflexivity|constructor]).
    exists (Elem ($"ers") [] (Text w :: dfr :: list_nodes w (map (record_elem v) (e_recs x)) rest)). split.
    + eexists ($"   "), _, []. split; [|split; [exact Sp|split; [apply no_spaces|apply Ers; apply Fin; exact C]]].
      unfold ers_as_xml, get_number_of_errors. rewrite Ee. change (0 <? zlen (@nil rrec))%Z with false. cbv iota. rewrite app_nil_r.
      rewrite <- !app_assoc.
      pose proof (Recs ($"   </ers>")) as Rz.
      transitivity ($"   <ers>" ++ nl ++ $"      <derived_flight_rules>" ++ e_rules x ++ $"</derived_flight_rules>" ++ (rs ++ nl ++ $"   </ers>")); [rewrite <- Rz; reflexivity|].
      unfold w, dfrs, w3. rewrite <- !app_assoc. reflexivity.
    + unfold is_ers. eexists. split; [reflexivity|]. rewrite Ee. unfold nodes. cbn [filter]. change (blank_text (Text w)) with true. cbn [negb blank_text dfr]. f_equal.
      fold (nodes (list_nodes w (map (record_elem v) (e_recs x)) rest)). rewrite nodes_seq by reflexivity. change (nodes rest) with (@nil xml). apply app_nil_r.
  - set (w9 := nl ++ $"         ").
    assert (E : Forall (fun r => element (error_elem v r) (rec_body v true r)) (e0 :: es)) by (eapply Forall_impl; [|exact He]; intro; apply err_elem).
    set (ee := list_nodes w9 (map (error_elem v) (e0 :: es)) [Text w3]).
    set (eet := flat_map (fun r => w9 ++ rec_body v true r) (e0 :: es) ++ w3).
    assert (C3 : content [Text w3] w3) by (rewrite <- (app_nil_r w3) at 2; apply blank_text_node; [reflexivity|discriminate|reflexivity|constructor]).
    assert (Ce : content ee eet) by (apply seq_nodes; [reflexivity|discriminate|reflexivity|exact E|exact C3]).
    set (er := Elem ($"ers_errors") [] ee).
    set (ers_ := [60%N] ++ $"ers_errors" ++ [] ++ [] ++ [62%N] ++ eet ++ [60; 47]%N ++ $"ers_errors" ++ [] ++ [62%N]).
    assert (Cr : element er ers_) by (apply el_tag; try apply no_spaces; [now apply nameb_spec|constructor|constructor|exact Ce]).
    set (rest := [Text w3; er; Text w3]).
    assert (C : content rest (w3 ++ ers_ ++ w3)).
    { unfold rest. apply blank_text_node; [reflexivity|discriminate|reflexivity|]. apply co_node; [reflexivity|exact Cr|exact C3]. }
    exists (Elem ($"ers") [] (Text w :: dfr :: list_nodes w (map (record_elem v) (e_recs x)) rest)). split.
    + eexists ($"   "), _, []. split; [|split; [exact Sp|split; [apply no_spaces|apply Ers; apply Fin; exact C]]].
      unfold ers_as_xml, get_number_of_errors. rewrite Ee. replace (0 <? zlen (e0 :: es))%Z with true by (unfold zlen; cbn [length]; lia). rewrite app_nil_r.
      assert (Errs : nl ++ flat_map (fun r => $"      " ++ rec_as_xml v true r ++ nl) (e0 :: es) ++ $"   </ers_errors>" = eet ++ $"</ers_errors>").
      { rewrite app_assoc. rewrite (shift_nl ($"      ") (rec_as_xml v true) (e0 :: es)). unfold eet, w9, w3. rewrite <- !app_assoc. reflexivity. }
      transitivity ($"   <ers>" ++ nl ++ $"      <derived_flight_rules>" ++ e_rules x ++ $"</derived_flight_rules>" ++
        (rs ++ nl ++ ($"   <ers_errors>" ++ (eet ++ $"</ers_errors>") ++ nl) ++ $"   </ers>")).
      * rewrite <- Recs, <- Errs. rewrite <- !app_assoc. reflexivity.
      * unfold w, dfrs, w3, ers_. rewrite <- !app_assoc. reflexivity.
    + unfold is_ers. eexists. split; [reflexivity|]. rewrite Ee. exists ee. split.
      * unfold nodes. cbn [filter]. change (blank_text (Text w)) with true. cbn [negb blank_text dfr]. f_equal.
        fold (nodes (list_nodes w (map (record_elem v) (e_recs x)) rest)). rewrite nodes_seq by reflexivity. reflexivity.
      * unfold ee. rewrite nodes_seq by reflexivity. change (nodes [Text w3]) with (@nil xml). apply app_nil_r.
Qed.

(** ** Characters of the strings of a parsed field *)
Definition tok_ok (t : token) : Prop := oks (t_text t) /\ ~ infix ($"]]>") (t_text t).
Definition strs (r : rrec) := (r_name r, r_alt r, r_speed r, (r_break r, r_rules r), (r_err r, r_cto r)).
Lemma keeps_strs : keeps strs.
Proof. repeat split; intros []; reflexivity. Qed.
Lemma strs_ok_eq r r' : strs r = strs r' -> strs_ok r -> strs_ok r'.
Proof. unfold strs, strs_ok. intro E. injection E as -> -> -> -> -> -> ->. auto. Qed.
Lemma strs_ok_map l l' : map strs l = map strs l' -> Forall strs_ok l -> Forall strs_ok l'.
Proof.
  revert l'. induction l as [|a l IH]; intros [|b l'] E H; try discriminate; [constructor|]. inversion H; subst.
  assert (E1 : strs a = strs b) by (cbn [map] in E; congruence). assert (E2 : map strs l = map strs l') by (cbn [map] in E; congruence).
  constructor; [now apply (strs_ok_eq a)|now apply IH].
Qed.
Lemma not_infix_short x s : length s < length x -> ~ infix x s.
Proof. intros H (a & b & E). apply (f_equal (@length N)) in E. rewrite !app_length in E. lia. Qed.
Lemma infix_no c x s : In c x -> ~ In c s -> ~ infix x s.
Proof. intros H K (a & b & ->). apply K. apply in_or_app. right. apply in_or_app. now left. Qed.
Lemma rule_ok r : rules_ok r -> oks r.
Proof. intro H. repeat (destruct H as [<-|H]; [reflexivity|]). destruct H. Qed.
Lemma oks_replace t m : oks t -> oks m -> oks (replace_char 33%N t m).
Proof.
  intros H K. unfold replace_char. induction m as [|c m IH]; [reflexivity|]. unfold oks in K. cbn [forallb] in K. apply andb_true_iff in K as [K1 K2].
  cbn [flat_map]. apply oks_app; [|now apply IH]. destruct (N.eqb c 33); [exact H|now apply oks_cons].
Qed.
Lemma message_in n m : error_message n = Some m -> exists s, In (n, s) error_messages /\ m = of_str s.
Proof.
  unfold error_message. induction error_messages as [|[k s] l IH]; [discriminate|]. cbn [lookup_msg]. destruct (Z.eqb_spec k n) as [->|].
  - intro H. injection H as <-. exists s. split; [now left|reflexivity].
  - intro H. destruct (IH H) as (s' & A & B). exists s'. split; [now right|exact B].
Qed.
Definition lt_error (n : Z) : bool := (n =? 43)%Z || (n =? 45)%Z.
Lemma messages_ok : forallb (fun p => Bool.eqb (forallb okc (of_str (snd p))) (negb (lt_error (fst p))) &&
   Bool.eqb (existsb (N.eqb 60) (of_str (snd p))) (lt_error (fst p)) && forallb (fun c => okc c || N.eqb c 60) (of_str (snd p))) error_messages = true.
Proof. vm_compute. reflexivity. Qed.
Lemma message_spec n : defined_error n = true ->
  (lt_error n = false -> oks (msg n)) /\ (In 60%N (msg n) <-> lt_error n = true) /\ (forall c, In c (msg n) -> okc c = true \/ c = 60%N).
Proof.
  unfold defined_error, msg. intro H. destruct (error_message n) as [m|] eqn:E; [|discriminate]. destruct (message_in _ _ E) as (s & A & ->).
  pose proof messages_ok as M. rewrite forallb_forall in M. specialize (M _ A). cbn [fst snd] in M.
  apply andb_true_iff in M as [M M3]. apply andb_true_iff in M as [M1 M2]. apply eqb_prop in M1, M2. split; [|split].
  - intro Hn. unfold oks. rewrite M1, Hn. reflexivity.
  - rewrite <- M2. rewrite existsb_exists. split; [intro X; exists 60%N; now split|intros (c & X & Y); now apply N.eqb_eq in Y; subst].
  - intros c Hc. rewrite forallb_forall in M3. apply M3 in Hc. apply orb_true_iff in Hc as [Hc|Hc]; [now left|right]. now apply N.eqb_eq.
Qed.
Lemma err_strs_ok t n : tok_ok t -> defined_error n = true -> lt_error n = false -> strs_ok (err t n).
Proof.
  intros [H1 H2] D N. destruct (message_spec n D) as [M _]. unfold strs_ok, err, err_rec, append_error_text.
  cbn [new_rec r_err pstr_eqb set_r_err r_name r_alt r_speed r_break r_rules r_cto].
  repeat (split; [first [exact H1|reflexivity|apply oks_replace; auto]|]). exact H2.
Qed.

Section Chars.
Variable G : geodesic.
Variable L : list token.
Hypothesis HL : Forall tok_ok L.
Lemma tok_in t : In t L -> tok_ok t.
Proof. rewrite Forall_forall in HL. apply HL. Qed.
Lemma tok_text_ok t : In t L -> oks (t_text t).
Proof. intro H. now apply tok_in in H as [H _]. Qed.
Lemma ev_strs x y : all_recs strs_ok x -> ev G L x y -> all_recs strs_ok y.
Proof.
  intros [Hl Hp] E. pose proof Hp as Hp0. destruct Hp as (P1 & P2 & P3 & P4 & P5 & P6 & P7 & P8).
  assert (Sl : forall t a b, In t L -> oks (slice (t_text t) a b)) by (intros t a b Ht; apply oks_slice; now apply tok_text_ok).
  destruct E; unfold all_recs in *; cbn [tickc nextc errc recc with_p with_p_errs ptc vfrc c_l c_p] in *; try (split; [exact Hl|exact Hp0]).
  - split; [apply Forall_app; split; [exact Hl|now constructor]|]. assert (Ht : tok_ok t) by (apply tok_in; eapply nth_error_In; eauto).
    destruct Ht as [T1 T2]. unfold strs_ok. cbn. repeat (split; [assumption || reflexivity|]). assumption.
  - split; [exact Hl|]. unfold strs_ok. cbn. repeat (split; [first [assumption|apply rule_ok; now apply a_rule_ok]|]). assumption.
  - split; [exact Hl|]. unfold strs_ok. cbn. unfold text_to, text_from. repeat (split; [first [assumption|reflexivity|now apply Sl]|]). assumption.
  - split; [exact Hl|]. unfold strs_ok. cbn. unfold text_to, text_from, text_mid. repeat (split; [first [assumption|reflexivity|now apply Sl]|]). assumption.
  - split; [exact Hl|]. unfold strs_ok. cbn. unfold text_to, text_from, text_mid. repeat (split; [first [assumption|reflexivity|now apply Sl]|]). assumption.
  - assert (Ht : In t L) by (eapply nth_error_In; eauto). split.
    + apply Forall_app. split; [exact Hl|]. constructor; [|constructor]. unfold strs_ok. cbn. unfold text_to. repeat (split; [first [assumption|reflexivity|now apply Sl]|]). assumption.
    + unfold strs_ok. cbn. unfold text_to. repeat (split; [first [assumption|reflexivity|now apply Sl]|]). apply (infix_no 93%N); [now left|cbn; intuition discriminate].
  - split; [exact Hl|]. unfold append_break_text. destruct (pstr_eqb _ _); unfold strs_ok; cbn [set_r_break r_name r_alt r_speed r_break r_rules r_err r_cto];
      repeat (split; [first [assumption|now apply tok_text_ok|apply oks_app; [assumption|apply oks_app; [reflexivity|now apply tok_text_ok]]]|]); assumption.
  - split; [|apply (strs_ok_eq (c_p x)); [symmetry; apply (keeps_pt _ G keeps_strs)|exact Hp0]].
    eapply strs_ok_map; [|exact Hl]. symmetry. apply (keeps_prev _ G keeps_strs).
Qed.
Lemma reach_strs k y : reach G L (cfg0 k) y -> Forall strs_ok (recs y).
Proof.
  intro R. apply all_recs_recs. apply (reach_ind_inv G L (all_recs strs_ok) ev_strs _ _ R). split; [constructor|].
  unfold strs_ok. cbn. repeat (split; [reflexivity|]). apply (infix_no 93%N); [now left|cbn; intuition discriminate].
Qed.
End Chars.

(** ** Fields *)
Lemma slice_infix (s : pstr) a b : infix (slice s a b) s.
Proof.
  unfold slice. set (i := Z.to_nat _). set (n := Z.to_nat _ : nat). set (t := skipn n s).
  exists (firstn n s), (skipn i t). unfold t. now rewrite firstn_skipn, firstn_skipn.
Qed.
Lemma infix_trans x y z : infix x y -> infix y z -> infix x z.
Proof. intros (a & b & ->) (c & d & ->). exists (c ++ a), (b ++ d). now rewrite <- !app_assoc. Qed.
Lemma field_tok_ok field : no_escape field -> Forall tok_ok (field_tokens field).
Proof.
  intros [H K]. apply Forall_forall. intros t Ht. unfold field_tokens in Ht. apply in_map_iff in Ht as (t0 & <- & Ht). unfold tok_ok. cbn [typed t_text].
  rewrite tokenize_string_toks in Ht. cbn [tk_list] in Ht. pose proof (toks_tokenization f15_whitespace field) as T.
  destruct (tkz_addresses _ _ _ T _ Ht) as (_ & _ & A). pose proof (slice_infix field (Some (t_start t0)) (Some (t_end t0))) as I. rewrite A in I.
  split; [|intro C; apply K; now apply (infix_trans _ (t_text t0))]. apply oks_In. intros c Hc.
  assert (F : In c field) by (destruct I as (a & b & ->); apply in_or_app; right; apply in_or_app; now left). apply H in F as (F1 & F2 & F3 & F4).
  assert (W : c <> 9%N /\ c <> 10%N /\ c <> 13%N).
  { destruct (tkz_shape _ _ _ T _ Ht) as [[_ E]|(E & _)].
    - rewrite E in Hc. destruct Hc as [<-|[]]. unfold slash. repeat split; discriminate.
    - apply E in Hc. unfold separator in Hc. cbn in Hc. repeat split; intros ->; apply Hc; tauto. }
  unfold okc. rewrite F1. unfold in_ranges. cbn. lia.
Qed.
Lemma list_upd_Forall {A} (P : A -> Prop) g : (forall r, P r -> P (g r)) -> forall l i, Forall P l -> Forall P (list_upd i g l).
Proof. intros H l. induction l as [|a l IH]; intros [|i] F; cbn [list_upd]; inversion F; subst; constructor; auto. Qed.
Lemma last_Forall {A} (P : A -> Prop) l d : Forall P l -> P d -> P (last l d).
Proof. intros H Hd. induction H as [|a l Ha Hl IH]; [exact Hd|]. cbn [last]. destruct l; [exact Ha|exact IH]. Qed.
Lemma strs_rules r s : strs_ok r -> oks s -> strs_ok (set_r_rules s r).
Proof. unfold strs_ok. cbn. tauto. Qed.
Lemma no93 s : ~ In 93%N s -> ~ infix ($"]]>") s.
Proof. apply infix_no. now left. Qed.
Lemma derived_ok l : oks (derived l) /\ ~ infix ($"]]>") (derived l).
Proof.
  unfold derived. destruct l as [|f l]; [|destruct (pstr_eqb _ _), (some_rules _ _)]; (split; [reflexivity|apply no93; cbn; intuition discriminate]).
Qed.
Lemma dummy_strs nm : oks nm -> ~ In 93%N nm -> strs_ok (dummy nm).
Proof. intros H K. unfold strs_ok. cbn. repeat (split; [assumption || reflexivity|]). now apply no93. Qed.
(** The strings of the result; the errors are [err t m] unless the field is empty. *)
Definition err_shape (e : rrec) : Prop := strs_ok e \/ exists t m, tok_ok t /\ defined_error m = true /\ lt_error m = true /\ e = err t m.
Lemma field_strs G depth field b s : no_escape field -> parse_field15 G depth field = Ok b s ->
  Forall strs_ok (e_recs (s_ers s)) /\ Forall err_shape (e_errs (s_ers s)) /\ oks (e_rules (s_ers s)) /\ ~ infix ($"]]>") (e_rules (s_ers s)).
Proof.
  intros Hf H. pose proof (field_tok_ok field Hf) as HT. destruct (empty_or field) as [E|E].
  - destruct (parsed_empty _ _ _ _ _ H E) as [_ ->]. cbn [e_recs e_errs e_rules]. split; [|split; [|split; [reflexivity|apply no93; intros []]]].
    + repeat constructor; try reflexivity; apply no93; cbn; intuition discriminate.
    + constructor; [left|constructor]. unfold strs_ok. cbn. repeat (split; [reflexivity|]). apply no93; cbn; intuition discriminate.
  - destruct (parsed _ _ _ _ _ H E) as (HL & y & R & -> & _). cbn [e_recs e_errs e_rules]. set (L := field_tokens field) in *.
    pose proof (reach_strs G L HT _ _ R) as Rs.
    assert (F : Forall strs_ok (field_recs (is_vfr_first L) y)).
    { unfold field_recs. destruct (is_vfr_first L); [apply list_upd_Forall; [|exact Rs]; intros r Hr; now apply strs_rules|exact Rs]. }
    split; [|split; [|apply derived_ok]].
    + unfold final_recs. apply Forall_app. split; [exact F|]. constructor; [|constructor]. unfold ades_rec.
      apply strs_rules; [apply dummy_strs; [reflexivity|cbn; intuition discriminate]|].
      assert (Q : strs_ok (last (field_recs (is_vfr_first L) y) adep0)).
      { apply last_Forall; [exact F|]. apply dummy_strs; [reflexivity|cbn; intuition discriminate]. }
      apply Q.
    + eapply Forall_impl; [|exact (reach_err_ok G L _ _ R)]. intros e (t & m & T & D & ->). rewrite Forall_forall in HT. apply HT in T.
      destruct (lt_error m) eqn:El; [right; now exists t, m|left; now apply err_strs_ok].
Qed.

(** ** A scanner that accepts every well-formed element *)
Inductive sst := Out | Lt | Tag | Val (q : N) | Skip.
Definition snext (st : sst) (c : N) : option sst :=
  match st with
  | Out => Some (if N.eqb c 60 then Lt else Out)
  | Lt => if N.eqb c 60 then None else Some (if N.eqb c 33 || N.eqb c 63 then Skip else Tag)
  | Tag => if N.eqb c 60 then None else Some (if N.eqb c 62 then Out else if N.eqb c 34 || N.eqb c 39 then Val c else Tag)
  | Val q => if N.eqb c 60 then None else Some (if N.eqb c q then Tag else Val q)
  | Skip => Some Skip
  end.
Fixpoint scan (st : sst) (s : pstr) : option sst :=
  match s with [] => Some st | c :: r => match snext st c with Some st' => scan st' r | None => None end end.
Lemma scan_app st a b : scan st (a ++ b) = match scan st a with Some st' => scan st' b | None => None end.
Proof. revert st. induction a as [|c a IH]; intro st; [reflexivity|]. cbn [app scan]. destruct (snext st c); [apply IH|reflexivity]. Qed.
Lemma scan_skip s : scan Skip s = Some Skip.
Proof. induction s as [|c s IH]; [reflexivity|exact IH]. Qed.
Definition goes (st : sst) (s : pstr) (st' : sst) : Prop := scan st s = Some st' \/ scan st s = Some Skip.
Lemma goes_app st a st1 b st2 : goes st a st1 -> goes st1 b st2 -> goes st (a ++ b) st2.
Proof.
  intros [H|H] K; unfold goes; rewrite scan_app, H; [exact K|]. right. apply scan_skip.
Qed.
Lemma goes_nil st : goes st [] st. Proof. now left. Qed.
Lemma goes_stay st s : (forall c, In c s -> snext st c = Some st) -> goes st s st.
Proof.
  induction s as [|c s IH]; intro H; [apply goes_nil|]. unfold goes. cbn [scan]. rewrite (H c) by now left. apply IH. intros d Hd. apply H. now right.
Qed.
Lemma name_chars c : in_ranges c name_more = true -> c <> 60%N /\ c <> 62%N /\ c <> 33%N /\ c <> 63%N /\ c <> 34%N /\ c <> 39%N.
Proof. unfold in_ranges. cbn. lia. Qed.
Lemma start_chars c : in_ranges c name_start = true -> in_ranges c name_more = true.
Proof. intro H. unfold in_ranges, name_more in *. rewrite existsb_app, H. reflexivity. Qed.
Lemma tag_char c : c <> 60%N -> c <> 62%N -> c <> 34%N -> c <> 39%N -> snext Tag c = Some Tag.
Proof.
  intros. cbn [snext]. destruct (N.eqb_spec c 60), (N.eqb_spec c 62), (N.eqb_spec c 34), (N.eqb_spec c 39); try contradiction; reflexivity.
Qed.
Lemma goes_name st n : (st = Lt \/ st = Tag) -> xml_name n -> goes st n Tag.
Proof.
  intros Hst (c & r & -> & H & K). pose proof (name_chars c (start_chars c H)) as (A & B & C & D & E & F).
  change (c :: r) with ([c] ++ r). apply (goes_app _ _ Tag).
  - left. cbn [scan]. destruct Hst as [-> | ->]; [|now rewrite tag_char]. cbn [snext].
    destruct (N.eqb_spec c 60), (N.eqb_spec c 33), (N.eqb_spec c 63); try contradiction; reflexivity.
  - apply goes_stay. intros d Hd. apply K, name_chars in Hd. apply tag_char; tauto.
Qed.
Lemma goes_spaces_tag w : spaces w -> goes Tag w Tag.
Proof. intro H. apply goes_stay. intros c Hc. apply H in Hc. unfold xml_space, in_ranges in Hc. cbn in Hc. apply tag_char; lia. Qed.
Lemma out_char c : c <> 60%N -> snext Out c = Some Out.
Proof. intro H. cbn [snext]. destruct (N.eqb_spec c 60); [contradiction|reflexivity]. Qed.
Lemma val_char q c : c <> 60%N -> c <> q -> snext (Val q) c = Some (Val q).
Proof. intros H K. cbn [snext]. destruct (N.eqb_spec c 60), (N.eqb_spec c q); try contradiction; reflexivity. Qed.
Lemma reference_chars c x : reference c x -> forall d, In d x -> d <> 60%N /\ d <> 34%N /\ d <> 39%N.
Proof.
  intros H d Hd. assert (K : forall (ds : pstr) (rs : list (N * N)), In d ds -> (forall d, In d ds -> in_ranges d rs = true) ->
    forallb (fun p => N.leb 48 (fst p) && N.leb (snd p) 57 || N.leb 65 (fst p)) rs = true -> d <> 60%N /\ d <> 34%N /\ d <> 39%N).
  { intros ds rs A B C. apply B in A. unfold in_ranges in A. apply existsb_exists in A as (p & A1 & A2). rewrite forallb_forall in C. apply C in A1. cbn in *. lia. }
  destruct H.
  1-5: cbn in Hd; repeat (destruct Hd as [<-|Hd]; [repeat split; discriminate|]); destruct Hd.
  - rewrite !in_app_iff in Hd. destruct Hd as [Hd|[Hd|Hd]]; [cbn in Hd|eapply K; [exact Hd|eassumption|reflexivity]|cbn in Hd];
      repeat (destruct Hd as [<-|Hd]; [repeat split; discriminate|]); destruct Hd.
  - rewrite !in_app_iff in Hd. destruct Hd as [Hd|[Hd|Hd]]; [cbn in Hd|eapply K; [exact Hd|eassumption|reflexivity]|cbn in Hd];
      repeat (destruct Hd as [<-|Hd]; [repeat split; discriminate|]); destruct Hd.
Qed.
Lemma goes_value q norm v s : In q [34; 39]%N -> value [q] norm v s -> goes (Val q) s (Val q).
Proof.
  intros Hq H. induction H as [|c a s H1 H2 H3 H IH|c x a s H1 H IH]; [apply goes_nil| |].
  - change (c :: s) with ([c] ++ s). apply (goes_app _ _ (Val q)); [|exact IH]. left. cbn [scan]. rewrite val_char; [reflexivity| |].
    + intros ->. apply H2. now left.
    + intros ->. apply H3. now left.
  - apply (goes_app _ _ (Val q)); [|exact IH]. apply goes_stay. intros d Hd. apply (reference_chars _ _ H1) in Hd.
    apply val_char; [tauto|]. destruct Hq as [<-|[<-|[]]]; tauto.
Qed.
Lemma goes_text norm v s : value [] norm v s -> goes Out s Out.
Proof.
  intro H. induction H as [|c a s H1 H2 H3 H IH|c x a s H1 H IH]; [apply goes_nil| |].
  - change (c :: s) with ([c] ++ s). apply (goes_app _ _ Out); [|exact IH]. left. cbn [scan]. rewrite out_char; [reflexivity|].
    intros ->. apply H2. now left.
  - apply (goes_app _ _ Out); [|exact IH]. apply goes_stay. intros d Hd. apply (reference_chars _ _ H1) in Hd. apply out_char. tauto.
Qed.
Lemma goes_atts l s : attributes l s -> goes Tag s Tag.
Proof.
  induction 1 as [|n v l q x w w1 w2 s Hq Hw _ Hn Hw1 Hw2 Hv _ IH]; [apply goes_nil|].
  apply (goes_app _ _ Tag); [now apply goes_spaces_tag|]. apply (goes_app _ _ Tag); [apply goes_name; auto|].
  apply (goes_app _ _ Tag); [now apply goes_spaces_tag|]. apply (goes_app _ _ Tag); [now left|].
  apply (goes_app _ _ Tag); [now apply goes_spaces_tag|].
  apply (goes_app _ _ (Val q)); [left; destruct Hq as [<-|[<-|[]]]; reflexivity|].
  apply (goes_app _ _ (Val q)); [now apply (goes_value q att_norm v)|].
  apply (goes_app _ _ Tag); [|exact IH]. left. cbn [scan snext]. rewrite N.eqb_refl. destruct Hq as [<-|[<-|[]]]; reflexivity.
Qed.
Scheme element_ind2 := Induction for element Sort Prop with content_ind2 := Induction for content Sort Prop.
Combined Scheme xml_ind2 from element_ind2, content_ind2.
Lemma goes_xml : (forall e s, element e s -> goes Out s Out) /\ (forall l s, content l s -> goes Out s Out).
Proof.
  apply (xml_ind2 (fun e s _ => goes Out s Out) (fun l s _ => goes Out s Out)).
  - intros n atts kids a w1 c w2 Hn Ha _ Hw1 _ IH Hw2.
    apply (goes_app _ _ Lt); [now left|]. apply (goes_app _ _ Tag); [apply goes_name; auto|]. apply (goes_app _ _ Tag); [now apply (goes_atts atts)|].
    apply (goes_app _ _ Tag); [now apply goes_spaces_tag|]. apply (goes_app _ _ Out); [now left|]. apply (goes_app _ _ Out); [exact IH|].
    apply (goes_app _ _ Tag); [now left|]. apply (goes_app _ _ Tag); [apply goes_name; auto|]. apply (goes_app _ _ Tag); [now apply goes_spaces_tag|]. now left.
  - intros n atts a w1 Hn Ha _ Hw1.
    apply (goes_app _ _ Lt); [now left|]. apply (goes_app _ _ Tag); [apply goes_name; auto|]. apply (goes_app _ _ Tag); [now apply (goes_atts atts)|].
    apply (goes_app _ _ Tag); [now apply goes_spaces_tag|]. now left.
  - apply goes_nil.
  - intros v t l s Hv _ _ _ _ IH. apply (goes_app _ _ Out); [now apply (goes_text text_norm v)|exact IH].
  - intros n atts kids l x s _ IHe _ IH. now apply (goes_app _ _ Out).
  - intros t l s _ _ _ IH. right. rewrite scan_app. cbn. apply scan_skip.
  - intros t l s _ _ _ IH. right. rewrite scan_app. cbn. apply scan_skip.
  - intros n w t l s _ _ _ _ _ _ _ _ IH. right. rewrite scan_app. cbn. apply scan_skip.
Qed.
Lemma goes_spaces_out w : spaces w -> goes Out w Out.
Proof. intro H. apply goes_stay. intros c Hc. apply H in Hc. unfold xml_space, in_ranges in Hc. cbn in Hc. apply out_char; lia. Qed.
Lemma scan_well_formed e s : well_formed e s -> scan Out s <> None.
Proof.
  intros (a & x & b & -> & Ha & Hb & He). assert (K : goes Out (a ++ x ++ b) Out).
  { apply (goes_app _ _ Out); [now apply goes_spaces_out|]. apply (goes_app _ _ Out); [now apply (proj1 goes_xml e)|now apply goes_spaces_out]. }
  destruct K as [K|K]; rewrite K; discriminate.
Qed.

(** ** The scanner on the output *)
Definition tagc (c : N) : bool := negb (in_ranges c [(60, 60); (62, 62); (34, 34); (39, 39); (33, 33); (63, 63)]%N).
Lemma scan_stay st s : (forall c, In c s -> snext st c = Some st) -> scan st s = Some st.
Proof. induction s as [|c s IH]; intro H; [reflexivity|]. cbn [scan]. rewrite (H c) by now left. apply IH. intros d Hd. apply H. now right. Qed.
Lemma scan_tag n : forallb tagc n = true -> scan Tag n = Some Tag.
Proof.
  intro H. apply scan_stay. rewrite forallb_forall in H. intros c Hc. apply H in Hc. unfold tagc, in_ranges in Hc. cbn in Hc. apply tag_char; lia.
Qed.
Lemma scan_val s : oks s -> scan (Val 34) s = Some (Val 34%N).
Proof. intro H. apply scan_stay. rewrite oks_In in H. intros c Hc. apply H, okc_spec in Hc. apply val_char; tauto. Qed.
Lemma scan_text s : oks s -> scan Out s = Some Out.
Proof. intro H. apply scan_stay. rewrite oks_In in H. intros c Hc. apply H, okc_spec in Hc. apply out_char; tauto. Qed.
Lemma scan_val_lt s : (forall c, In c s -> okc c = true \/ c = 60%N) -> In 60%N s -> scan (Val 34) s = None.
Proof.
  induction s as [|c s IH]; intros H K; [destruct K|]. cbn [scan]. destruct (N.eqb_spec c 60) as [->|N]; [reflexivity|].
  destruct K as [K|K]; [congruence|]. destruct (H c (or_introl eq_refl)) as [Hc|Hc]; [|contradiction].
  rewrite val_char; [|exact N|apply okc_spec in Hc; tauto]. apply IH; [|exact K]. intros d Hd. apply H. now right.
Qed.
Lemma scan_attr_eq n v : forallb tagc n = true -> scan Tag (attr n v) = scan (Val 34) (v ++ dq).
Proof. intro H. unfold attr. rewrite scan_app. change (scan Tag ($" ")) with (Some Tag). cbv iota. rewrite scan_app, scan_tag by exact H. reflexivity. Qed.
Lemma scan_attr_ok n v : forallb tagc n = true -> oks v -> scan Tag (attr n v) = Some Tag.
Proof. intros H K. rewrite scan_attr_eq by exact H. rewrite scan_app, scan_val by exact K. reflexivity. Qed.
Lemma scan_attrs l : (forall p, In p l -> forallb tagc (fst p) = true /\ oks (snd p)) -> scan Tag (flat_map (fun p => attr (fst p) (snd p)) l) = Some Tag.
Proof.
  induction l as [|p l IH]; intro H; [reflexivity|]. cbn [flat_map]. destruct (H p (or_introl eq_refl)) as [A B].
  rewrite scan_app, scan_attr_ok by assumption. apply IH. intros q Hq. apply H. now right.
Qed.
(** All strings but the error text are harmless. *)
Definition strs_ok' (r : rrec) : Prop :=
  oks (r_name r) /\ oks (r_alt r) /\ oks (r_speed r) /\ oks (r_break r) /\ oks (r_rules r) /\ oks (r_cto r).
Lemma record_atts_scan v r last : strs_ok' r ->
  scan Tag (flat_map (fun p => attr (fst p) (snd p)) (record_atts v r last)) = scan Tag (attr (fst last) (snd last)).
Proof.
  intro H. assert (E : record_atts v r last = removelast (record_atts v r last) ++ [last]) by reflexivity.
  rewrite E, flat_map_app, scan_app. destruct H as (A & B & C & D & F & K). rewrite scan_attrs.
  - cbn [flat_map]. now rewrite app_nil_r.
  - intros p Hp. cbn [record_atts removelast] in Hp.
    repeat (destruct Hp as [<-|Hp]; [cbn [fst snd]; split; [reflexivity|auto using str_of_Z_ok, fmt_num_ok, fmt_2f_ok, str_base_ok, str_sub_ok]|]). destruct Hp.
Qed.
Lemma scan_rec v (e : bool) r : strs_ok' r -> oks (r_name r) ->
  scan Out (rec_as_xml v e r) = match scan Tag (attr (if e then $"error_text" else $"break_text") (if e then r_err r else r_break r)) with
    | Some Tag => Some Out | Some st => scan st ($">" ++ r_name r ++ $"</" ++ rec_type e ++ $">") | None => None end.
Proof.
  intros H Hn. unfold rec_as_xml. rewrite scan_app. change (scan Out ($"   <")) with (Some Lt). cbv iota. rewrite scan_app.
  assert (E : scan Lt (rec_type e) = Some Tag) by (destruct e; reflexivity). rewrite E. cbv iota. rewrite scan_app.
  replace (flat_map _ (rec_attrs v e r)) with (flat_map (fun p => attr (fst p) (snd p)) (record_atts v r (if e then $"error_text" else $"break_text", if e then r_err r else r_break r)))
    by (destruct e; reflexivity).
  rewrite record_atts_scan by exact H. cbn [fst snd].
  destruct (scan Tag (attr _ _)) as [[]|]; try reflexivity. rewrite scan_app. change (scan Tag ($">")) with (Some Out). cbv iota.
  rewrite scan_app, scan_text by exact Hn. destruct e; reflexivity.
Qed.
Lemma strs_weak r : strs_ok r -> strs_ok' r.
Proof. unfold strs_ok, strs_ok'. tauto. Qed.
Lemma scan_rec_ok v e r : strs_ok r -> scan Out (rec_as_xml v e r) = Some Out.
Proof.
  intro H. rewrite scan_rec by (try apply strs_weak; apply H). rewrite scan_attr_ok; [reflexivity|destruct e; reflexivity|destruct e; apply H].
Qed.
Lemma scan_rec_lt v r : strs_ok' r -> (forall c, In c (r_err r) -> okc c = true \/ c = 60%N) -> In 60%N (r_err r) -> scan Out (rec_as_xml v true r) = None.
Proof.
  intros H K I. rewrite scan_rec; [|exact H|apply H]. rewrite scan_attr_eq by reflexivity. rewrite scan_app, scan_val_lt by assumption. reflexivity.
Qed.
Lemma scan_flat w (g : rrec -> pstr) rs : scan Out w = Some Out -> Forall (fun r => scan Out (g r) = Some Out) rs -> scan Out (flat_map (fun r => w ++ g r ++ nl) rs) = Some Out.
Proof.
  intros Hw H. induction H as [|r rs Hr _ IH]; [reflexivity|]. cbn [flat_map]. rewrite <- app_assoc, scan_app, Hw, <- app_assoc, scan_app, Hr. cbn [nl app scan snext N.eqb Pos.eqb]. exact IH.
Qed.
Lemma scan_flat_lt w (g : rrec -> pstr) rs : scan Out w = Some Out -> Forall (fun r => scan Out (g r) = Some Out \/ scan Out (g r) = None) rs ->
  Exists (fun r => scan Out (g r) = None) rs -> scan Out (flat_map (fun r => w ++ g r ++ nl) rs) = None.
Proof.
  intros Hw F H. induction F as [|r rs Hr F IH]; [inversion H|]. cbn [flat_map]. rewrite <- app_assoc, scan_app, Hw, <- app_assoc, scan_app. destruct Hr as [Hr|Hr]; rewrite Hr; [|reflexivity].
  cbn [nl app scan snext N.eqb Pos.eqb]. apply IH. inversion H; [congruence|assumption].
Qed.
Lemma scan_ers v x : Forall strs_ok (e_recs x) -> oks (e_rules x) ->
  Forall (fun r => scan Out (rec_as_xml v true r) = Some Out \/ scan Out (rec_as_xml v true r) = None) (e_errs x) ->
  Exists (fun r => scan Out (rec_as_xml v true r) = None) (e_errs x) -> scan Out (ers_as_xml v x) = None.
Proof.
  intros Hr Hu He Hx. unfold ers_as_xml. rewrite scan_app. change (scan Out ($"   <ers>")) with (Some Out). cbv iota.
  rewrite scan_app. change (scan Out nl) with (Some Out). cbv iota. rewrite scan_app. change (scan Out ($"      <derived_flight_rules>")) with (Some Out). cbv iota.
  rewrite scan_app, scan_text by exact Hu. rewrite scan_app. change (scan Out ($"</derived_flight_rules>")) with (Some Out). cbv iota.
  rewrite scan_app. change (scan Out nl) with (Some Out). cbv iota. rewrite scan_app, scan_flat; [|reflexivity|eapply Forall_impl; [|exact Hr]; intro; apply scan_rec_ok].
  assert (N : (0 <? get_number_of_errors x)%Z = true).
  { unfold get_number_of_errors, zlen. destruct (e_errs x); [inversion Hx|cbn [length]; lia]. }
  rewrite N, scan_app, scan_app. change (scan Out ($"   <ers_errors>")) with (Some Out). cbv iota. rewrite scan_app. change (scan Out nl) with (Some Out). cbv iota.
  rewrite scan_app, scan_flat_lt; [reflexivity|reflexivity|exact He|exact Hx].
Qed.
Lemma err_lt_chars t m : tok_ok t -> defined_error m = true -> lt_error m = true ->
  strs_ok' (err t m) /\ (forall c, In c (r_err (err t m)) -> okc c = true \/ c = 60%N) /\ In 60%N (r_err (err t m)).
Proof.
  intros [H1 H2] D Hlt. destruct (message_spec m D) as (_ & M2 & M3). unfold err, err_rec, append_error_text, strs_ok'.
  cbn [new_rec r_err pstr_eqb set_r_err r_name r_alt r_speed r_break r_rules r_cto]. unfold replace_char.
  split; [repeat (split; [first [exact H1|reflexivity]|]); reflexivity|]. split.
  - intros c Hc. apply in_flat_map in Hc as (d & Hd & Hc). destruct (N.eqb d 33); [left; rewrite oks_In in H1; now apply H1|].
    destruct Hc as [<-|[]]. now apply M3.
  - apply in_flat_map. exists 60%N. split; [now apply M2|now left].
Qed.

(** *** Exactly when the output is well-formed *)
Lemma lt_iff e : err_shape e -> (In 60%N (r_err e) <-> ~ strs_ok e).
Proof.
  intros [H|(t & m & T & D & Hlt & ->)].
  - split; [|tauto]. intros I _. destruct H as (_ & _ & _ & _ & _ & H & _). rewrite oks_In in H. apply H in I. discriminate.
  - destruct (err_lt_chars t m T D Hlt) as (_ & _ & I). split; [|auto]. intros _ (_ & _ & _ & _ & _ & H & _). rewrite oks_In in H. apply H in I. discriminate.
Qed.
Lemma xml_exact G depth field b s v : no_escape field -> parse_field15 G depth field = Ok b s ->
  (forall e, In e (e_errs (s_ers s)) -> ~ In 60%N (r_err e)) <-> (exists e, well_formed e (ers_as_xml v (s_ers s))).
Proof.
  intros Hf H. destruct (field_strs _ _ _ _ _ Hf H) as (R & E & U & I). split.
  - intro K. assert (E' : Forall strs_ok (e_errs (s_ers s))).
    { rewrite Forall_forall in *. intros e He. destruct (E e He) as [X|(t & m & T & D & Hlt & ->)]; [exact X|].
      exfalso. apply (K _ He). now apply err_lt_chars. }
    destruct (ers_elem v (s_ers s) R E' U I) as (e & W & _). now exists e.
  - intros (x & W) e He K. apply (scan_well_formed _ _ W). apply scan_ers; [exact R|exact U| |].
    + eapply Forall_impl; [|exact E]. intros r [X|(t & m & T & D & Hlt & ->)]; [left; now apply scan_rec_ok|right].
      destruct (err_lt_chars t m T D Hlt) as (A & B & C). now apply scan_rec_lt.
    + apply Exists_exists. exists e. split; [exact He|]. rewrite Forall_forall in E. destruct (E e He) as [X|(t & m & T & D & Hlt & ->)].
      * destruct X as (_ & _ & _ & _ & _ & X & _). rewrite oks_In in X. apply X in K. discriminate.
      * destruct (err_lt_chars t m T D Hlt) as (A & B & C). now apply scan_rec_lt.
Qed.
Lemma xml_tree G depth field b s v : no_escape field -> parse_field15 G depth field = Ok b s ->
  (forall e, In e (e_errs (s_ers s)) -> ~ In 60%N (r_err e)) -> exists e, well_formed e (ers_as_xml v (s_ers s)) /\ is_ers v (s_ers s) e.
Proof.
  intros Hf H K. destruct (field_strs _ _ _ _ _ Hf H) as (R & E & U & I). apply ers_elem; try assumption.
  rewrite Forall_forall in *. intros e He. destruct (E e He) as [X|(t & m & T & D & Hlt & ->)]; [exact X|].
  exfalso. apply (K _ He). now apply err_lt_chars.
Qed.

Lemma xml_accepted G depth field s v : no_escape field -> parse_field15 G depth field = Ok true s ->
  exists e, well_formed e (ers_as_xml v (s_ers s)) /\ is_ers v (s_ers s) e.
Proof.
  intros N H. apply (xml_tree G depth field true s v N H). assert (E : e_errs (s_ers s) = []) by (now apply (return_value G depth field true s H)).
  rewrite E. intros e [].
Qed.
Lemma xml_witness : forall G v,
  (exists s, parse_field15 G 100 ($"N0450F350 4660N00000E") = Ok false s /\ ~ exists e, well_formed e (ers_as_xml v (s_ers s))) /\
  (exists s, parse_field15 G 100 ($"N0450VFR A<B") = Ok true s /\ ~ exists e, well_formed e (ers_as_xml v (s_ers s))).
Proof.
  intros G v. split; eexists; (split; [vm_compute; reflexivity|]); intros [e W]; apply scan_well_formed in W; apply W; destruct v; vm_compute; reflexivity.
Qed.
(** A computable sufficient condition for the Examples. *)
Lemma no_escape_by field : forallb (fun c => xml_char c && negb (in_ranges c [(60, 60); (38, 38); (34, 34); (93, 93)]%N)) field = true -> no_escape field.
Proof.
  intro H. rewrite forallb_forall in H. split.
  - intros c Hc. apply H in Hc. apply andb_true_iff in Hc as [H1 H2]. unfold in_ranges in H2. cbn in H2. split; [exact H1|lia].
  - intros (a & b & E). assert (Hc : In 93%N field) by (rewrite E; apply in_or_app; right; now left). apply H in Hc. vm_compute in Hc. discriminate.
Qed.
