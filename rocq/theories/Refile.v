(** * Refile: the records of an accepted field, written as a field, give the same records (lemmas behind PropsRefile). *)
From Coq Require Import ZArith NArith List Bool String Lia.
From Coq Require Import Floats.SpecFloat.
From Coq Require Import ZifyBool ZifyNat ZifyN.
From Verif Require Limit.
From Verif Require Import PyBase PyFloat Enums ErrorTable Regex SpecRegex RegexProofs SyntaxTable Syntax SyntaxProofs Tokenizer Ers Utils Parser.
From Verif Require Import SpecTokenizer TokenizerProofs SpecNum ParserPrims PerfEq PointEq Trace ParserFacts SpecParser ParserInv ParseTrace SpecGrammar GrammarSem Grammar SpecAccept Accept Describe AcceptFacts SpecLayout Layout SpecViable Viable Unambiguous SpecRemoval Removal Split InForce SpecRefile RefileWords RefileClimb.
Import List ListNotations.
Local Open Scope list_scope.
Local Open Scope nat_scope.

(** ** Records *)
Definition PO (p : rrec) : Prop := exists m, perf m p /\ a_speed (fst m) /\ a_level (snd m) /\ fl_ok (snd m).
(** The final form of a record: [q] has its speed and level. *)
Definition fin (q p : rrec) : rrec := er_brg (copy_perf q p).
Definition core_of (r : rrec) := (r_name r, r_base r, r_sub r, r_cto r, r_break r, r_stay r, r_rules r).
Definition llv_of (r : rrec) := r_llv r.
Lemma fin_core q p : core_of (fin q p) = core_of p. Proof. destruct q, p; reflexivity. Qed.
Lemma fin_llv q p : r_llv (fin q p) = r_llv p. Proof. destruct q, p; reflexivity. Qed.
Lemma fin_perf q p : r_speed (fin q p) = r_speed q /\ r_alt (fin q p) = r_alt q. Proof. destruct q, p; split; reflexivity. Qed.
Lemma copy_core q p : core_of (copy_perf q p) = core_of p. Proof. destruct q, p; reflexivity. Qed.
Lemma copy_llv q p : r_llv (copy_perf q p) = r_llv p. Proof. destruct q, p; reflexivity. Qed.
Lemma copy_self p : copy_perf p p = p. Proof. destruct p; reflexivity. Qed.
Lemma copy_stay q z p : copy_perf q (set_r_stay z p) = set_r_stay z (copy_perf q p). Proof. destruct q, p; reflexivity. Qed.
Lemma perf_copy m q q' p : perf m q -> perf m q' -> copy_perf q p = copy_perf q' p.
Proof. intros (A1 & A2 & A3 & A4) (B1 & B2 & B3 & B4). unfold copy_perf. now rewrite A1, A2, A3, A4, B1, B2, B3, B4. Qed.
Lemma perf_of_copy m q p : perf m q -> perf m (copy_perf q p). Proof. destruct q, p. exact (fun H => H). Qed.
Lemma PO_copy q p : PO q -> PO (copy_perf q p). Proof. intros (m & H & K). exists m. split; [now apply perf_of_copy|exact K]. Qed.
Lemma PO_stay z p : PO p -> PO (set_r_stay z p). Proof. destruct p. exact (fun H => H). Qed.
Lemma PO_rules z p : PO p -> PO (set_r_rules z p). Proof. destruct p. exact (fun H => H). Qed.
Lemma PO_type b s p : PO p -> PO (retype b s p). Proof. destruct p. exact (fun H => H). Qed.
Lemma PO_carry q r : PO q -> PO (carry q r). Proof. destruct q, r. exact (fun H => H). Qed.
Lemma PO_texts txt p : PO p -> PO (texts txt p). Proof. intros (m & H & K). exists m. split; [now apply perf_texts|exact K]. Qed.
Lemma sa_copy t p : wt t -> t_base t = F15_SPEED_ALTITUDE -> r_rules p = RULE_I -> sa_eff t p = copy_perf (sa_eff t p) p.
Proof.
  intros W B R. destruct (sa_perf t p W B) as (a & -> & _). unfold sa_rec, set_alt, set_spd. destruct p as [n b1 e1 b2 sb al als sp sps br ru er0 sy ct cts la lo bg di lv]. cbn [r_rules] in R. subst ru. reflexivity.
Qed.
Lemma PO_sa t p : wt t -> t_base t = F15_SPEED_ALTITUDE -> levels_ok t -> PO (sa_eff t p).
Proof.
  intros W B L. exists (speed_part (t_text t), first_level (t_text t)). split; [now apply perf_sa|].
  destruct (mod_pieces t (speed_part (t_text t), first_level (t_text t)) W) as [H1 H2]; [unfold modifier; cbn [fst snd]; now rewrite B|]. split; [exact H1|]. split; [exact H2|].
  unfold levels_ok in L. now rewrite B in L.
Qed.
Lemma sa_rules t p : wt t -> t_base t = F15_SPEED_ALTITUDE -> r_rules (sa_eff t p) = RULE_I.
Proof. intros W B. destruct (sa_perf t p W B) as (a & -> & _). destruct p. reflexivity. Qed.
Lemma PO_climb t p : wt t -> is_climb_tok t -> levels_ok t -> PO (climb_eff t p).
Proof.
  intros W B L. exists (speed_part (t_text t), first_level (t_text t)). split; [now apply perf_climb|]. destruct (climb_parts t W B). split; [assumption|]. split; [assumption|]. now apply climb_fl.
Qed.
Lemma PO_vfr t p : wt t -> t_base t = F15_SPEED_VFR -> PO (vfr_eff t p).
Proof.
  intros W B. exists (speed_part (t_text t), $"F050"). split; [now apply perf_vfr|]. split; [exact (proj1 (vfr_word t W B))|]. split; [exact f050|]. intros _. reflexivity.
Qed.
Lemma vfr_ignores t x p : wt t -> t_base t = F15_SPEED_VFR -> vfr_eff t (copy_perf x p) = vfr_eff t p.
Proof. intros W B. destruct (vfr_perf t p W B) as (a & E & _). unfold vfr_eff in *. destruct (vfr_cut (t_sub t)) as [a'|] eqn:C; [|destruct (vfr_perf t p W B) as (a2 & E2 & _); exfalso].
  - destruct x, p; reflexivity.
  - unfold vfr_eff in E2. rewrite C in E2. apply (f_equal r_rules) in E. apply (f_equal r_name) in E2. destruct (all_rows_spec F15_SPEED_VFR vfr_cuts t ltac:(discriminate) ltac:(discriminate) W B vfr_cuts_all) as (sh & _ & K). unfold vfr_cuts in K. rewrite C in K. discriminate K.
Qed.
(** The element of a speed and level. *)
Definition sl_tok (q : rrec) : token := first_token (speed_and_level q).
Lemma sl_ok q : PO q -> tok_ok (sl_tok q) /\ t_base (sl_tok q) = F15_SPEED_ALTITUDE /\ levels_ok (sl_tok q) /\ forall p, r_rules p = RULE_I -> sa_eff (sl_tok q) p = copy_perf q p.
Proof.
  intros (m & Hm & Hx & Hy & Hf). destruct (speed_level _ _ Hx Hy) as (B & E1 & E2).
  assert (Ew : speed_and_level q = fst m ++ snd m) by (unfold speed_and_level; destruct Hm as (-> & -> & _); reflexivity).
  assert (Ok : tok_ok (sl_tok q)) by (apply first_ok, clean_one; rewrite Ew; apply clean_app; [now apply speed_clean|now apply level_clean]).
  assert (Bt : t_base (sl_tok q) = F15_SPEED_ALTITUDE) by (cbn [sl_tok first_token t_base]; now rewrite Ew).
  split; [exact Ok|]. split; [exact Bt|]. split; [unfold levels_ok; rewrite Bt; cbn [sl_tok first_token t_text]; now rewrite Ew, E2|].
  intros p Hp. rewrite (sa_copy _ p (proj1 Ok) Bt Hp). apply (perf_copy m); [|exact Hm]. pose proof (perf_sa (sl_tok q) p (proj1 Ok) Bt) as K. cbn [sl_tok first_token t_text] in K. rewrite Ew, E1, E2 in K. destruct m. exact K.
Qed.
Lemma fin_sl q p : speed_and_level (fin q p) = speed_and_level q. Proof. unfold speed_and_level. destruct (fin_perf q p) as [-> ->]. reflexivity. Qed.

Section G.
Variable G : geodesic.
Lemma PO_pt t p : PO p -> PO (pt_rec G t p). Proof. intros (m & H & K). exists m. split; [now apply perf_pt|exact K]. Qed.
Lemma pt_core t p : core_of (pt_rec G t p) = core_of p.
Proof. unfold pt_rec, move_bd. destruct p. destruct (t_sub t); reflexivity. Qed.
Lemma pt_copy t x p : pt_rec G t (copy_perf x p) = copy_perf x (pt_rec G t p).
Proof. unfold pt_rec, move_bd. destruct x, p. destruct (t_sub t); reflexivity. Qed.
Lemma pt_llv t p : r_llv p = false -> r_llv (pt_rec G t p) = false -> pt_rec G t p = p /\ forall l, pt_prev G t l p = l.
Proof.
  intros H K. unfold pt_prev, pt_rec, move_bd in *. destruct (t_sub t); try (split; [reflexivity|intro; reflexivity]); exfalso; destruct p; discriminate K.
Qed.

Definition same (e e' : core) : Prop := k_l e = k_l e' /\ k_p e = k_p e'.
Lemma same_effs ss j j' k k' : same k k' -> same (effs G j ss k) (effs G j' ss k').
Proof. intros [A B]. now apply effs_shift. Qed.
Lemma same_sym e e' : same e e' -> same e' e. Proof. intros [A B]. split; now symmetry. Qed.
Lemma same_trans a b c : same a b -> same b c -> same a c. Proof. intros [A B] [C D]. split; etransitivity; eauto. Qed.
Definition recs (e : core) : list rrec := map er_brg (k_l e ++ [k_p e]).
Definition is_route (s : step) : bool := match s with SRoute _ => true | _ => false end.
Definition is_svfr (s : step) : bool := match s with SVfr _ _ => true | _ => false end.
Definition nexts (ss : list step) (N : list rrec) : Prop :=
  match ss, N with
  | [], [] => True
  | s :: _, r :: _ => of_base F15_ROUTE r = is_route s /\ of_base F15_SPEED_VFR r = is_svfr s
  | _, _ => False
  end.
Definition starts_vfr (ss : list step) : bool := match ss with s :: _ => is_svfr s | [] => false end.
Lemma nexts_hd ss N : nexts ss N -> next_of F15_ROUTE (hd_error N) = match ss with s :: _ => is_route s | [] => false end /\ next_of F15_SPEED_VFR (hd_error N) = starts_vfr ss.
Proof. destruct ss, N; cbn [nexts hd_error next_of starts_vfr]; tauto. Qed.
Definition rules_ok (c : ctx) (p : rrec) : Prop :=
  match c with
  | XAdep | XDct | XRoute | XC | XSid | XStay | XPoint _ | XThenVfr => r_rules p = RULE_I
  | XBreak k => r_rules p = kind_rule k
  | XEnd => True
  | _ => False
  end.
Definition boundary (ss : list step) : Prop := match ss with [] => True | STrunc _ :: _ => True | s :: _ => recording s = true end.

(** [ss'] is a derivation written from the records; [e] is the state after [ss] from [k]. *)
Record fine (c : ctx) (ss : list step) (k e : core) (ss' : list step) (q : rrec) (N : list rrec) : Prop := mkFine {
  f_der : derives c ss';
  f_tok : Forall tok_ok (yield ss');
  f_eff : forall j, same (effs G j ss' k) e;
  f_rec : recs e = map er_brg (k_l k) ++ fin q (k_p k) :: N;
  f_say : words (say (fin q (k_p k)) N) = map t_text (yield ss');
  f_po : PO q;
  f_hd : match ss with SVfr sl t :: _ => exists r, ss' = SVfr sl t :: r | _ => q = k_p k /\ starts_vfr ss' = false end;
  f_next : nexts ss' N;
  f_nil : ss = [] -> ss' = [];
  f_ne : match ss with [] | STrunc _ :: _ => True | _ => ss' <> [] end }.
Lemma fine_same c ss k e e' ss' q N : same e e' -> fine c ss k e ss' q N -> fine c ss k e' ss' q N.
Proof.
  intros S [A1 A2 A3 A4 A5 A6 A7 A8 A9 A10]. constructor; try assumption.
  - intro j. exact (same_trans _ _ _ (A3 j) S).
  - rewrite <- A4. unfold recs. destruct S as [-> ->]. reflexivity.
Qed.
Lemma fine_end c k ss : may_end c = true -> PO (k_p k) -> (ss = [] \/ exists t, ss = [STrunc t]) -> fine c ss k k [] (k_p k) [].
Proof.
  intros M H S. constructor.
  - exact M.
  - constructor.
  - intro j. split; reflexivity.
  - unfold recs, fin. rewrite map_app, copy_self. reflexivity.
  - reflexivity.
  - exact H.
  - destruct S as [->|(t & ->)]; split; reflexivity.
  - exact I.
  - reflexivity.
  - destruct S as [->|(t & ->)]; exact I.
Qed.
Lemma words_item p r n : words (item p r n) = words (lead p r n) ++ element_texts (r_break r) ++ words (stay_words r n).
Proof. unfold item. rewrite words_app. reflexivity. Qed.
Lemma words_ones ws : Forall one ws -> words ws = ws.
Proof. induction 1 as [|w ws H _ IH]; [reflexivity|]. cbn [words flat_map]. rewrite H. cbn [app]. f_equal. exact IH. Qed.
Lemma one_toks l : Forall tok_ok l -> words (map t_text l) = map t_text l.
Proof. intro H. apply words_ones. induction H as [|t l [_ K] _ IH]; constructor; assumption. Qed.

Lemma unit_fine c u rest k e k1 c1 ss1 q1 N1 u' q : fine c1 rest k1 e ss1 q1 N1 ->
  derives c (u' ++ ss1) -> Forall tok_ok (yield u') -> (forall j, same (effs G j (u' ++ ss1) k) e) ->
  map er_brg (k_l k1) = map er_brg (k_l k) ++ [fin q (k_p k)] -> PO q ->
  words (item (fin q (k_p k)) (fin q1 (k_p k1)) (hd_error N1)) = map t_text (yield u') ->
  (match u' with s :: _ => of_base F15_ROUTE (fin q1 (k_p k1)) = is_route s /\ of_base F15_SPEED_VFR (fin q1 (k_p k1)) = is_svfr s | [] => False end) ->
  (match u with SVfr sl t :: _ => exists r, u' = SVfr sl t :: r | [] => False | _ => q = k_p k /\ starts_vfr u' = false end) ->
  fine c (u ++ rest) k e (u' ++ ss1) q (fin q1 (k_p k1) :: N1).
Proof.
  intros [A1 A2 A3 A4 A5 A6 A7 A8 A9 A10] D T S L P Wd Hn Hh. destruct u' as [|s u']; [destruct Hn|]. destruct u as [|s0 u]; [destruct Hh|]. constructor.
  - exact D.
  - rewrite yield_app. apply Forall_app. auto.
  - exact S.
  - rewrite A4, L, <- app_assoc. reflexivity.
  - cbn [say]. rewrite words_app, Wd, A5, yield_app, map_app. reflexivity.
  - exact P.
  - cbn [app]. destruct s0; try (destruct Hh as [Hh1 Hh2]; split; [exact Hh1|exact Hh2]). destruct Hh as (r & E). injection E as -> ->. eauto.
  - cbn [app nexts]. exact Hn.
  - discriminate.
  - cbn [app]. destruct s0; try discriminate; exact I.
Qed.
(** The rest has the same effect from a state that differs in what speed/VFR overwrites. *)
Lemma land c1 rest k1 e ss1 q1 N1 k' : fine c1 rest k1 e ss1 q1 N1 -> derives c1 rest -> Forall tok_ok (yield rest) -> k_l k' = k_l k1 ->
  (k_p k' = k_p k1 \/ (starts_vfr rest = true /\ exists x y, copy_perf x (k_p k') = copy_perf y (k_p k1))) -> forall j, same (effs G j ss1 k') e.
Proof.
  intros F D T L H j. destruct H as [H|(H & x & y & E)]; [exact (same_trans _ _ _ (same_effs ss1 j j k' k1 (conj L H)) (f_eff _ _ _ _ _ _ _ F j))|].
  destruct rest as [|s rest]; [discriminate H|]. destruct s; try discriminate H. pose proof (f_hd _ _ _ _ _ _ _ F) as (r & ->). pose proof (f_eff _ _ _ _ _ _ _ F j) as K.
  cbn [derives proper] in D. destruct D as (_ & (_ & B) & _). rewrite yield_cons in T. cbn [tokens_of app] in T. inversion T as [|? ? _ T1]; subst. inversion T1 as [|? ? [W _] _]; subst.
  refine (same_trans _ _ _ _ K). cbn [effs eff1]. apply same_effs. unfold vfr_k, same. cbn [k_l k_p].
  assert (V : vfr_eff t (k_p k') = vfr_eff t (k_p k1)) by (rewrite <- (vfr_ignores t x _ W B), E; apply (vfr_ignores t y _ W B)).
  split; [|exact V]. rewrite L, V. f_equal. f_equal. rewrite <- (copy_twice _ x (k_p k')), E, copy_twice. reflexivity.
Qed.

(** ** The modifiers of a point *)
Definition stayed (st : list token) (p : rrec) : rrec := match st with tm :: _ => set_r_stay (stay_min (t_text tm)) p | [] => p end.
Definition after_stay (st : list token) (X : ctx) : ctx := match st with [] => X | _ => XStay end.
Definition stays_ok (st : list token) : Prop := match st with [] => True | [tm] => tok_ok tm /\ t_base tm = F15_STAY_TIME | _ => False end.
Lemma stayed_copy st q p : copy_perf q (stayed st p) = stayed st (copy_perf q p). Proof. destruct st; [reflexivity|apply copy_stay]. Qed.
Lemma PO_stayed st p : PO p -> PO (stayed st p). Proof. destruct st; [exact (fun H => H)|apply PO_stay]. Qed.
Lemma stayed_rules st p : r_rules (stayed st p) = r_rules p. Proof. destruct st; destruct p; reflexivity. Qed.
Lemma XStay_boundary ss : derives XStay ss -> boundary ss.
Proof. destruct ss as [|s ss]; [intros; exact I|]. cbn [derives]. intros (F & _). destruct s; try discriminate F; exact I || reflexivity. Qed.
Lemma tail_of b : forall ss k, derives (XPoint b) ss -> Forall tok_ok (yield ss) -> PO (k_p k) -> r_rules (k_p k) = RULE_I ->
  exists st ss1 q, length ss1 <= length ss /\ boundary ss1 /\ derives (after_stay st (XPoint b)) ss1 /\ Forall tok_ok (yield ss1) /\ PO q /\ stays_ok st /\
    forall j, exists j', same (effs G j ss k) (effs G j' ss1 (k_with k (stayed st (copy_perf q (k_p k))))).
Proof.
  induction ss as [|s ss IH]; intros k D T P R.
  { exists [], [], (k_p k). repeat split; try exact I; try assumption; try (now constructor). intro j. exists j. cbn [stayed]. rewrite copy_self. split; reflexivity. }
  assert (E0 : boundary (s :: ss) -> exists st ss1 q, length ss1 <= length (s :: ss) /\ boundary ss1 /\ derives (after_stay st (XPoint b)) ss1 /\ Forall tok_ok (yield ss1) /\ PO q /\ stays_ok st /\
    forall j, exists j', same (effs G j (s :: ss) k) (effs G j' ss1 (k_with k (stayed st (copy_perf q (k_p k)))))).
  { intro B. exists [], (s :: ss), (k_p k). split; [lia|]. split; [exact B|]. split; [exact D|]. split; [exact T|]. split; [exact P|]. split; [exact I|]. intro j. exists j. cbn [stayed]. rewrite copy_self. apply same_effs. split; reflexivity. }
  destruct s; try (exfalso; destruct D as (F & _); discriminate F); try (apply E0; exact I || reflexivity); clear E0.
  - rewrite yield_cons in T. cbn [tokens_of app] in T. inversion T as [|? ? T1 T2]; subst. inversion T2 as [|? ? [W Wo] T3]; subst. destruct D as (_ & (_ & Bt & Lv) & D). cbn [after] in D.
    destruct (IH (k_with k (sa_eff t (k_p k))) D T3 (PO_sa t _ W Bt Lv) (sa_rules t _ W Bt)) as (st & ss1 & q & L1 & B1 & D1 & T1' & Pq & So & E).
    exists st, ss1, q. split; [cbn [length]; lia|]. split; [exact B1|]. split; [exact D1|]. split; [exact T1'|]. split; [exact Pq|]. split; [exact So|].
    intro j. cbn [effs eff1]. destruct (E (j + length (tokens_of (SSpeed sl t)))) as (j' & E'). exists j'. refine (same_trans _ _ _ E' _). apply same_effs. split; [reflexivity|]. cbn [k_with k_p].
    rewrite (sa_copy t (k_p k) W Bt R), copy_twice. reflexivity.
  - rewrite yield_cons in T. cbn [tokens_of app] in T. inversion T as [|? ? _ T2]; subst. inversion T2 as [|? ? _ T3]; subst. inversion T3 as [|? ? W T4]; subst. destruct D as (_ & (_ & _ & Bt) & D). cbn [after] in D.
    exists [tm], ss, (k_p k). split; [cbn [length]; lia|]. split; [now apply XStay_boundary|]. split; [exact D|]. split; [exact T4|]. split; [exact P|]. split; [split; assumption|].
    intro j. exists j. cbn [effs eff1 stayed]. rewrite copy_self. apply same_effs. split; reflexivity.
Qed.
Lemma tail_then b : forall ss k, derives (XThenSpeed b) ss -> Forall tok_ok (yield ss) -> PO (k_p k) -> r_rules (k_p k) = RULE_I ->
  exists st ss1 q, length ss1 <= length ss /\ boundary ss1 /\ derives (after_stay st (XPoint b)) ss1 /\ Forall tok_ok (yield ss1) /\ PO q /\ stays_ok st /\
    forall j, exists j', same (effs G j ss k) (effs G j' ss1 (k_with k (stayed st (copy_perf q (k_p k))))).
Proof.
  intros ss k D T P R. destruct ss as [|s ss]; [discriminate D|]. destruct s; try (exfalso; destruct D as (F & _); discriminate F).
  apply tail_of; assumption.
Qed.
Lemma tail_c : forall ss k, derives XC ss -> Forall tok_ok (yield ss) -> PO (k_p k) ->
  exists st ss1, length ss1 <= length ss /\ boundary ss1 /\ derives (after_stay st XC) ss1 /\ Forall tok_ok (yield ss1) /\ stays_ok st /\
    forall j, exists j', same (effs G j ss k) (effs G j' ss1 (k_with k (stayed st (k_p k)))).
Proof.
  intros ss k D T P. assert (E0 : boundary ss -> exists st ss1, length ss1 <= length ss /\ boundary ss1 /\ derives (after_stay st XC) ss1 /\ Forall tok_ok (yield ss1) /\ stays_ok st /\
    forall j, exists j', same (effs G j ss k) (effs G j' ss1 (k_with k (stayed st (k_p k))))).
  { intro B. exists [], ss. split; [lia|]. split; [exact B|]. split; [exact D|]. split; [exact T|]. split; [exact I|]. intro j. exists j. apply same_effs. split; reflexivity. }
  destruct ss as [|s ss]; [apply E0; exact I|].
  destruct s; try (exfalso; destruct D as (F & _); discriminate F); try (apply E0; exact I || reflexivity). clear E0.
  rewrite yield_cons in T. cbn [tokens_of app] in T. inversion T as [|? ? _ T2]; subst. inversion T2 as [|? ? _ T3]; subst. inversion T3 as [|? ? W T4]; subst. destruct D as (_ & (_ & _ & Bt) & D). cbn [after] in D.
  exists [tm], ss. split; [cbn [length]; lia|]. split; [now apply XStay_boundary|]. split; [exact D|]. split; [exact T4|]. split; [split; assumption|].
  intro j. exists j. cbn [effs eff1 stayed]. apply same_effs. split; reflexivity.
Qed.

(** ** The stay *)
Definition slash_tok : token := first_token ($"/").
Definition stay_tok : token := first_token ($"STAY1").
Lemma slash_ok : tok_ok slash_tok /\ t_base slash_tok = F15_SLASH. Proof. split; [apply first_ok; reflexivity|vm_compute; reflexivity]. Qed.
Lemma stay_tok_ok : tok_ok stay_tok /\ t_base stay_tok = F15_STAY. Proof. split; [apply first_ok; reflexivity|vm_compute; reflexivity]. Qed.
Lemma stay_part X b st ss1 N1 r : (X = XPoint b \/ (X = XC /\ b = false)) -> derives (after_stay st X) ss1 -> nexts ss1 N1 -> stays_ok st ->
  r_stay r = match st with [] => 0%Z | tm :: _ => stay_min (t_text tm) end -> computed_point (r_sub r) = b ->
  exists es, derives X (es ++ ss1) /\ Forall tok_ok (yield es) /\ words (stay_words r (hd_error N1)) = map t_text (yield es) /\
    (forall j k, r_stay (k_p k) = 0%Z -> same (effs G j es k) (k_with k (stayed st (k_p k)))) /\ (st = [] -> es = []) /\ (es = [] \/ exists a b c, es = [SStay a b c]).
Proof.
  intros HX D Nx So Er Eb. destruct (nexts_hd _ _ Nx) as [Nr _]. unfold stay_words. rewrite Eb, Nr.
  destruct st as [|tm [|]]; [| |destruct So].
  - exists []. rewrite Er. cbn [after_stay] in D. cbn [Z.eqb andb].
    replace (b && _) with false; [repeat split; try (now constructor); try assumption; now left|].
    destruct b; [|reflexivity]. destruct HX as [->|[_ K]]; [|discriminate K]. destruct ss1 as [|s ss1]; [reflexivity|]. destruct D as (F & _). destruct s; try discriminate F; reflexivity.
  - destruct So as [[Wt Wo] Bt]. cbn [after_stay] in D. destruct ((r_stay r =? 0)%Z && _) eqn:C.
    + apply andb_true_iff in C as [C1 C2]. apply Z.eqb_eq in C1. exists []. split; [|split; [constructor|split; [reflexivity|split; [|split; [reflexivity|now left]]]]].
      * destruct ss1 as [|s ss1]; [destruct HX as [->|[-> _]]; reflexivity|]. destruct D as (F & Pr & D). cbn [app derives].
        destruct HX as [->|[-> ->]]; destruct s; try discriminate F; try (split; [reflexivity|]; split; [exact Pr|exact D]).
        -- split; [|split; [exact Pr|exact D]]. cbn [follows]. cbn [is_route] in C2. rewrite andb_true_r in C2. exact C2.
        -- split; [reflexivity|]. split; [|exact D]. cbn [proper] in *. destruct Pr as [[Q|[Q _]] E]; (split; [|exact E]); [now left|right; split; [exact Q|discriminate]].
        -- split; [reflexivity|]. split; [|exact D]. cbn [proper] in *. destruct Pr as [[Q|[Q _]] E]; (split; [|exact E]); [now left|right; split; [exact Q|discriminate]].
      * intros j k H. split; [reflexivity|]. cbn [effs k_with k_p stayed]. rewrite <- Er, C1. destruct (k_p k) as [n b1 e1 b2 sb al als sp sps br ru er0 sy ct cts la lo bg di lv]. cbn [r_stay] in H. subst sy. reflexivity.
    + exists [SStay stay_tok slash_tok tm]. destruct slash_ok as [S1 S2]. destruct stay_tok_ok as [S3 S4]. split; [|split; [|split; [|split; [|split; [discriminate|right; eauto]]]]].
      * cbn [app derives]. split; [destruct HX as [->|[-> _]]; reflexivity|]. split; [cbn [proper]; auto|exact D].
      * cbn. repeat constructor; try (apply S1); try (apply S3); assumption.
      * rewrite Er, (clock_stay tm Wt Bt). cbn [words flat_map]. rewrite Wo. reflexivity.
      * intros j k _. split; reflexivity.
Qed.

(** ** The text of a break section *)
Lemma resume_point k l : resume k l = Resumes -> exists p r, l = p :: r /\ t_base p = F15_POINT.
Proof. destruct l as [|p r]; [discriminate|]. cbn [resume]. intro H. exists p, r. split; [reflexivity|]. destruct (t_base p); try discriminate H. reflexivity. Qed.
Lemma section_resume k rest rest' : resume k rest = Resumes -> resume k rest' = Resumes -> forall txt, section k txt rest -> section k txt rest'.
Proof.
  intros H H'. destruct (resume_point _ _ H) as (p & r & -> & Bp). destruct (resume_point _ _ H') as (p' & r' & -> & Bp').
  assert (Q : forall x txt, resume k ((x :: txt) ++ p :: r) = resume k ((x :: txt) ++ p' :: r')).
  { intros x txt. cbn [app resume]. destruct (t_base x); try reflexivity. destruct k; try reflexivity. destruct txt as [|y txt]; cbn [app]; [now rewrite Bp, Bp'|].
    destruct (t_base y); try reflexivity. destruct txt as [|z txt]; cbn [app]; [now rewrite Bp, Bp'|reflexivity]. }
  induction txt as [|t txt IH]; intro S; cbn [section] in *; [discriminate S|]. destruct S as [S1 S2]. split; [exact S1|].
  destruct (ends k (t_sub t)); [|now apply IH]. destruct txt as [|y txt]; cbn [app] in S2 |- *.
  - rewrite H in S2. now rewrite H'.
  - pose proof (Q y txt) as Qy. cbn [app] in Qy. rewrite <- Qy. destruct (resume k (y :: txt ++ p :: r)); [now apply IH|exact S2|exact S2].
Qed.
Lemma break_resumes k ss : derives (XBreak k) ss -> ss <> [] -> resume k (yield ss) = Resumes.
Proof.
  intros D N. destruct ss as [|s ss]; [contradiction|]. destruct D as (F & P & D). destruct k, s; try discriminate F; cbn [proper after] in *; rewrite yield_cons; cbn [tokens_of app resume].
  - destruct P as [-> _]. destruct ss as [|s ss]; [discriminate D|]. destruct D as (F' & P' & _). destruct s; try discriminate F'. rewrite yield_cons. cbn [tokens_of app]. destruct P' as (-> & -> & _). reflexivity.
  - rewrite P. destruct ss as [|s ss]; [discriminate D|]. destruct D as (F' & P' & _). destruct s; try discriminate F'. rewrite yield_cons. cbn [tokens_of app]. destruct P' as (-> & ->). reflexivity.
  - destruct P as [-> _]. reflexivity.
  - destruct P as [-> _]. reflexivity.
Qed.
Lemma text_part k ss : derives (XText k) ss -> ss = [] \/ exists txt ss1, ss = SText txt :: ss1 /\ txt <> [] /\ section k txt (yield ss1) /\ derives (XBreak k) ss1 /\ boundary ss1.
Proof.
  destruct ss as [|s ss]; [now left|]. intros (F & P & D). destruct s; try discriminate F. cbn [proper after] in *. destruct P as [P1 P2]. right. exists txt, ss. split; [reflexivity|]. split; [exact P1|]. split; [exact P2|]. split; [exact D|].
  destruct ss as [|s ss]; [exact I|]. destruct D as (F' & _). destruct k, s; try discriminate F'; reflexivity.
Qed.
Lemma text_words txt p : r_break p = [] -> Forall tok_ok txt -> element_texts (r_break (texts txt p)) = map t_text txt.
Proof.
  intros E T. rewrite (texts_break txt p [] ltac:(constructor)); [|clear -T; induction T as [|t l [_ H] _ IH]; constructor; [now apply one_ne|exact IH]|exact E].
  cbn [app]. rewrite et_joined. now apply one_toks.
Qed.
Lemma texts_core txt p : (r_name (texts txt p), r_base (texts txt p), r_sub (texts txt p), r_cto (texts txt p), r_stay (texts txt p), r_rules (texts txt p), r_speed (texts txt p)) = (r_name p, r_base p, r_sub p, r_cto p, r_stay p, r_rules p, r_speed p).
Proof.
  revert p. induction txt as [|t txt IH]; intro p; [reflexivity|]. change (texts (t :: txt) p) with (texts txt (append_break_text (t_text t) p)). rewrite IH.
  unfold append_break_text. destruct (pstr_eqb _ _); destruct p; reflexivity.
Qed.

(** ** Units: a record with its modifiers *)
Definition claim (n : nat) : Prop := forall ss, length ss <= n -> forall c j k, boundary ss -> derives c ss -> Forall tok_ok (yield ss) -> PO (k_p k) -> rules_ok c (k_p k) ->
  exists ss' q N, fine c ss k (effs G j ss k) ss' q N.
Lemma fields r n b s ct br st ru : core_of r = (n, b, s, ct, br, st, ru) ->
  r_name r = n /\ r_base r = b /\ r_sub r = s /\ r_cto r = ct /\ r_break r = br /\ r_stay r = st /\ r_rules r = ru.
Proof. unfold core_of. intro E. injection E as -> -> -> -> -> -> ->. repeat split. Qed.
Lemma carry_core q t : core_of (carry q (tok_rec t)) = (t_text t, t_base t, t_sub t, [], [], 0%Z, r_rules q). Proof. destruct q; reflexivity. Qed.
Lemma carry_llv q t : r_llv (carry q (tok_rec t)) = false. Proof. destruct q; reflexivity. Qed.
Lemma rules_core z p : core_of (set_r_rules z p) = (r_name p, r_base p, r_sub p, r_cto p, r_break p, r_stay p, z). Proof. destruct p; reflexivity. Qed.
Lemma rules_llv z p : r_llv (set_r_rules z p) = r_llv p. Proof. destruct p; reflexivity. Qed.
Lemma fin_self p : fin p p = er_brg p. Proof. unfold fin. now rewrite copy_self. Qed.
Lemma in_vfr_fin q p : in_vfr (fin q p) = pstr_eqb (r_rules p) ($"VFR").
Proof. unfold in_vfr. destruct (fields _ _ _ _ _ _ _ _ (fin_core q p)) as (_ & _ & _ & _ & _ & _ & ->). reflexivity. Qed.
Lemma forall_one t : Forall tok_ok [t] <-> tok_ok t. Proof. split; [intro H; now inversion H|intro H; constructor; [exact H|constructor]]. Qed.

Lemma simple_unit n (IH : claim n) c s r j k t b sb : length r <= n -> derives c (s :: r) -> Forall tok_ok (yield (s :: r)) -> boundary r ->
  tokens_of s = [t] -> is_svfr s = false -> PO (k_p k) -> PO (k_p (eff1 G j s k)) -> rules_ok (after c s) (k_p (eff1 G j s k)) ->
  map er_brg (k_l (eff1 G j s k)) = map er_brg (k_l k) ++ [er_brg (k_p k)] ->
  (exists ru, core_of (k_p (eff1 G j s k)) = (t_text t, b, sb, [], [], 0%Z, ru)) -> b <> F15_POINT -> b <> F15_SPEED_VFR -> base_eqb b F15_ROUTE = is_route s ->
  (computed_point sb = false \/ forall x, follows (after c s) (SRoute x) = false) ->
  (forall ss1, derives (after c s) ss1 -> (r = [] -> ss1 = []) -> proper c s (yield ss1)) ->
  (match s with STrunc _ => False | _ => True end) ->
  exists ss' q N, fine c (s :: r) k (effs G j (s :: r) k) ss' q N.
Proof.
  intros L D T Br Et Nv P P1 R1 El (ru & Ec) Nb1 Nb2 Er Hc Hp Nt. destruct D as (F & Pr & D). rewrite yield_cons, Et in T. cbn [app] in T. inversion T as [|? ? T1 T2]; subst.
  destruct (IH r L (after c s) (j + length (tokens_of s)) (eff1 G j s k) Br D T2 P1 R1) as (ss1 & q1 & N1 & Fi).
  assert (Ef := fin_core q1 (k_p (eff1 G j s k))). rewrite Ec in Ef. apply fields in Ef as (F1 & F2 & F3 & F4 & F5 & F6 & F7).
  pose proof (f_der _ _ _ _ _ _ _ Fi) as D1. pose proof (f_next _ _ _ _ _ _ _ Fi) as Nx. destruct (nexts_hd _ _ Nx) as [Nr _].
  exists (s :: ss1), (k_p k), (fin q1 (k_p (eff1 G j s k)) :: N1).
  refine (unit_fine c [s] r k _ (eff1 G j s k) (after c s) ss1 q1 N1 [s] (k_p k) Fi _ _ _ _ P _ _ _).
  - cbn [app derives]. split; [exact F|]. split; [|exact D1]. apply Hp; [exact D1|exact (f_nil _ _ _ _ _ _ _ Fi)].
  - unfold yield. cbn [flat_map]. rewrite app_nil_r, Et. now apply forall_one.
  - intro j'. cbn [app effs]. refine (same_trans _ _ _ _ (f_eff _ _ _ _ _ _ _ Fi 0)). apply same_effs. apply eff_shift; reflexivity.
  - rewrite fin_self. exact El.
  - rewrite words_item, F5. unfold lead, stay_words. rewrite F4, F2, F1, F3, F6, Nr. cbn [nil_b Z.eqb andb].
    replace (computed_point sb && _) with false; [|destruct Hc as [->|Hc]; [reflexivity|]; destruct ss1 as [|s1 ss1]; [now rewrite andb_false_r|]; destruct s1; try (now rewrite andb_false_r); destruct D1 as (F' & _); rewrite Hc in F'; discriminate F'].
    cbn [negb]. unfold yield. cbn [flat_map]. rewrite app_nil_r, Et. cbn [map]. change (element_texts []) with (@nil pstr). cbn [words flat_map app]. rewrite ?app_nil_r. destruct T1 as [_ O1]. destruct b; try contradiction; cbn [words flat_map]; rewrite O1; reflexivity.
  - unfold of_base. rewrite F4, F2. cbn [nil_b andb]. split; [exact Er|]. rewrite Nv. destruct b; try reflexivity. contradiction.
  - cbn [starts_vfr]. destruct s; try discriminate Nv; split; reflexivity.
Qed.

(** A record with the text of a break section. *)
Lemma text_unit n (IH : claim n) kd r k1 c s0 k q j1 : length r <= n -> derives (XText kd) r -> Forall tok_ok (yield r) ->
  PO (k_p k1) -> r_rules (k_p k1) = kind_rule kd -> r_break (k_p k1) = [] -> r_cto (k_p k1) = [] -> r_stay (k_p k1) = 0%Z -> 
  follows c s0 = true -> (forall l, proper c s0 l) -> after c s0 = XText kd -> Forall tok_ok (tokens_of s0) -> (forall j, same (eff1 G j s0 k) k1) ->
  map er_brg (k_l k1) = map er_brg (k_l k) ++ [fin q (k_p k)] -> PO q ->
  (match s0 with
   | SVfr sl t => t_text t = r_speed (k_p k1) ++ $"VFR" /\ r_base (k_p k1) = F15_SPEED_VFR /\ t_text sl = $"/"
   | SBreak t => r_name (k_p k1) = t_text t /\ r_base (k_p k1) = F15_BREAK_START /\ q = k_p k | _ => False end) ->
  exists ss' N, fine c (s0 :: r) k (effs G j1 r k1) ss' q N.
Proof.
  intros L D T P1 R1 B1 C1 S1 F Pr Ea Tk Ek El Pq Hs.
  (* the words of the record up to its text *)
  assert (Lead : forall q1 p' m, r_cto p' = [] -> r_base p' = r_base (k_p k1) -> r_name p' = r_name (k_p k1) -> r_speed q1 = r_speed (k_p k1) ->
    words (lead (fin q (k_p k)) (fin q1 p') m) = map t_text (tokens_of s0)).
  { intros q1 p' m E1 E2 E3 E4. unfold lead. destruct (fields _ _ _ _ _ _ _ _ (fin_core q1 p')) as (G1 & G2 & _ & G4 & _). destruct (fin_perf q1 p') as [G5 _]. rewrite G4, E1, G2, E2, G1, E3, G5, E4. cbn [nil_b].
    destruct s0; try contradiction; cbn [tokens_of map] in *.
    - destruct Hs as (H1 & H2 & H3). rewrite H2, <- H1, H3. inversion Tk as [|? ? _ Tk2]; subst. inversion Tk2 as [|? ? [_ O] _]; subst. cbn [words flat_map]. rewrite O. reflexivity.
    - destruct Hs as (H1 & H2 & _). rewrite H2, H1. inversion Tk as [|? ? [_ O] _]; subst. cbn [words flat_map]. rewrite O. reflexivity. }
  assert (Ob : forall q1 p', r_cto p' = [] -> r_base p' = r_base (k_p k1) -> of_base F15_ROUTE (fin q1 p') = is_route s0 /\ of_base F15_SPEED_VFR (fin q1 p') = is_svfr s0).
  { intros q1 p' E1 E2. unfold of_base. destruct (fields _ _ _ _ _ _ _ _ (fin_core q1 p')) as (_ & G2 & _ & G4 & _). rewrite G4, E1, G2, E2. destruct s0; try contradiction; destruct Hs as (_ & -> & _); split; reflexivity. }
  assert (Hd : forall u, match s0 :: u with SVfr sl t :: _ => exists r, s0 :: u = SVfr sl t :: r | [] => False | _ => q = k_p k /\ starts_vfr (s0 :: u) = false end).
  { intro u. destruct s0; try contradiction; [eauto|]. destruct Hs as (_ & _ & ->). split; reflexivity. }
  destruct (text_part kd r D) as [->|(txt & ss1 & -> & Nt & Sc & D1 & Br)].
  - pose proof (fine_end XEnd k1 [] eq_refl P1 (or_introl eq_refl)) as Fi.
    exists [s0], [fin (k_p k1) (k_p k1)]. cbn [effs].
    refine (unit_fine c [s0] [] k k1 k1 XEnd [] (k_p k1) [] [s0] q Fi _ _ _ El Pq _ _ (Hd [])).
    + cbn [app derives]. split; [exact F|]. split; [apply Pr|]. rewrite Ea. reflexivity.
    + unfold yield. cbn [flat_map]. now rewrite app_nil_r.
    + intro j. cbn [app effs]. apply Ek.
    + cbn [hd_error]. rewrite words_item, (Lead (k_p k1) (k_p k1) None C1 eq_refl eq_refl eq_refl). destruct (fields _ _ _ _ _ _ _ _ (fin_core (k_p k1) (k_p k1))) as (_ & _ & G3 & _ & G5 & G6 & _).
      unfold stay_words. rewrite G5, B1, G6, S1. cbn [next_of]. rewrite andb_false_r. cbn. now rewrite !app_nil_r.
    + exact (Ob _ _ C1 eq_refl).
  - rewrite yield_cons in T. cbn [tokens_of] in T. apply Forall_app in T as [T1 T2].
    set (k2 := k_with k1 (texts txt (k_p k1))). pose proof (texts_core txt (k_p k1)) as Et. injection Et as E1 E2 E3 E4 E5 E6 E7.
    destruct (IH ss1 ltac:(cbn [length] in L; lia) (XBreak kd) (j1 + length (tokens_of (SText txt))) k2 Br D1 T2) as (ss1' & q1 & N1 & Fi).
    { apply PO_texts. exact P1. } { unfold k2. cbn [k_with k_p rules_ok]. rewrite E6. exact R1. }
    pose proof (f_der _ _ _ _ _ _ _ Fi) as D1'. pose proof (f_next _ _ _ _ _ _ _ Fi) as Nx. destruct (nexts_hd _ _ Nx) as [Nr _].
    assert (Hq : q1 = k_p k2). { pose proof (f_hd _ _ _ _ _ _ _ Fi) as H. destruct ss1 as [|s1 ss1]; [apply H|]. destruct D1 as (F1 & _). destruct kd, s1; try discriminate F1; apply H. }
    assert (Nr' : next_of F15_ROUTE (hd_error N1) = false).
    { rewrite Nr. destruct ss1' as [|s1 ss1']; [reflexivity|]. destruct D1' as (F1 & _). destruct kd, s1; try discriminate F1; reflexivity. }
    exists ([s0; SText txt] ++ ss1'), (fin q1 (k_p k2) :: N1). cbn [effs eff1]. fold k2.
    refine (unit_fine c [s0; SText txt] ss1 k _ k2 (XBreak kd) ss1' q1 N1 [s0; SText txt] q Fi _ _ _ El Pq _ _ _).
    + cbn [app derives]. split; [exact F|]. split; [apply Pr|]. rewrite Ea. split; [reflexivity|]. split; [|exact D1']. cbn [proper]. split; [exact Nt|].
      destruct ss1 as [|s1 ss1].
      * rewrite (f_nil _ _ _ _ _ _ _ Fi eq_refl). exact Sc.
      * assert (Ne : ss1' <> []). { pose proof (f_ne _ _ _ _ _ _ _ Fi) as H. destruct D1 as (F1 & _). destruct kd, s1; try discriminate F1; exact H. }
        apply (section_resume kd (yield (s1 :: ss1))); [apply break_resumes; [exact D1|discriminate]|now apply break_resumes|exact Sc].
    + unfold yield. cbn [flat_map tokens_of]. rewrite app_nil_r. apply Forall_app. auto.
    + intro j. cbn [app effs eff1]. refine (same_trans _ _ _ _ (f_eff _ _ _ _ _ _ _ Fi 0)). apply same_effs. unfold k2. destruct (Ek j) as [K1 K2]. split; [exact K1|]. cbn [k_with k_p]. now rewrite K2.
    + rewrite words_item, (Lead q1 (k_p k2) _) ; [|unfold k2; cbn [k_with k_p]; congruence|exact E2|exact E1|rewrite Hq; exact E7].
      destruct (fields _ _ _ _ _ _ _ _ (fin_core q1 (k_p k2))) as (_ & _ & G3 & _ & G5 & G6 & _). unfold stay_words. rewrite G5, G6, Nr'. unfold k2 at 1 2. cbn [k_with k_p]. rewrite E5, S1. rewrite andb_false_r. cbn [Z.eqb negb andb words flat_map].
      rewrite (text_words txt _ B1 T1). unfold yield. cbn [flat_map tokens_of]. rewrite map_app, app_nil_r, app_nil_r. reflexivity.
    + cbn. apply Ob; [unfold k2; cbn [k_with k_p]; congruence|exact E2].
    + exact (Hd [SText txt]).
Qed.

Lemma stayed_stay st p : r_stay p = 0%Z -> r_stay (stayed st p) = match st with [] => 0%Z | tm :: _ => stay_min (t_text tm) end.
Proof. intro H. destruct st; [exact H|]. destruct p; reflexivity. Qed.
Lemma stayed_core st p : core_of (stayed st p) = (r_name p, r_base p, r_sub p, r_cto p, r_break p, r_stay (stayed st p), r_rules p).
Proof. destruct st; destruct p; reflexivity. Qed.
Lemma stayed_llv st p : r_llv (stayed st p) = r_llv p. Proof. destruct st; destruct p; reflexivity. Qed.
Lemma not_svfr_stay st X ss : derives (after_stay st X) ss -> starts_vfr ss = true -> st = [].
Proof. intros D H. destruct st; [reflexivity|]. destruct ss as [|s ss]; [discriminate H|]. destruct s; try discriminate H. destruct D as (F & _). discriminate F. Qed.
Lemma perf_speeds m p : perf m p -> r_speed p = fst m /\ r_alt p = snd m. Proof. intros (A & B & _). auto. Qed.
(** After the modifiers of a point. *)
Lemma hd_vfr c1 rest k1 e ss1 q1 N1 : fine c1 rest k1 e ss1 q1 N1 -> (starts_vfr rest = true /\ starts_vfr ss1 = true) \/ (starts_vfr rest = false /\ starts_vfr ss1 = false /\ q1 = k_p k1).
Proof.
  intro Fi. pose proof (f_hd _ _ _ _ _ _ _ Fi) as H. destruct rest as [|s rest]; [right; destruct H; auto|]. destruct s; cbn [starts_vfr is_svfr]; try (right; destruct H; auto; fail).
  left. destruct H as (r & ->). auto.
Qed.
Lemma sspeed_derives b q ss : PO q -> derives (XPoint b) ss -> derives (XPoint b) (SSpeed slash_tok (sl_tok q) :: ss) /\ derives (XThenSpeed b) (SSpeed slash_tok (sl_tok q) :: ss).
Proof. intros P D. destruct (sl_ok q P) as (_ & B & L & _). destruct slash_ok as [_ S]. split; (split; [reflexivity|]; split; [cbn [proper]; auto|exact D]). Qed.

Lemma same_with k k' p p' : same k k' -> p = p' -> same (k_with k p) (k_with k' p').
Proof. intros [A _] ->. split; [exact A|reflexivity]. Qed.
Lemma with_l k p : k_l (k_with k p) = k_l k. Proof. reflexivity. Qed.
Lemma with_p k p : k_p (k_with k p) = p. Proof. reflexivity. Qed.
Lemma land_with c1 rest k1 e ss1 q1 N1 k0 p : fine c1 rest k1 e ss1 q1 N1 -> derives c1 rest -> Forall tok_ok (yield rest) -> k_l k0 = k_l k1 ->
  (p = k_p k1 \/ (starts_vfr rest = true /\ exists x y, copy_perf x p = copy_perf y (k_p k1))) -> forall j, same (effs G j ss1 (k_with k0 p)) e.
Proof. intros F D T L H. apply (land c1 rest k1 e ss1 q1 N1 (k_with k0 p) F D T); assumption. Qed.
Lemma speed_eff1 i a b k : eff1 G i (SSpeed a b) k = k_with k (sa_eff b (k_p k)). Proof. reflexivity. Qed.
Lemma point_ctx c t : follows c (SPoint t) = true -> c = XBreak KVfr \/ (match c with XBreak KVfr => true | _ => false end = false /\ after c (SPoint t) = XPoint (computed_point (t_sub t))).
Proof. intro F. destruct c as [| | | | | | | | |[]|[]| | |]; try discriminate F; ((left; reflexivity) || (right; split; reflexivity)). Qed.
Lemma point_unit n (IH : claim n) c t r j k : length r <= n -> derives c (SPoint t :: r) -> Forall tok_ok (yield (SPoint t :: r)) -> PO (k_p k) -> rules_ok c (k_p k) ->
  exists ss' q N, fine c (SPoint t :: r) k (effs G j (SPoint t :: r) k) ss' q N.
Proof.
  intros L D T P R. destruct D as (F & Pr & D). rewrite yield_cons in T. cbn [tokens_of app] in T. inversion T as [|? ? [Wt Ot] T2]; subst. destruct Pr as [Bt An].
  set (b := computed_point (t_sub t)) in *. set (k0 := eff1 G j (SPoint t) k) in *. set (p1 := k_p k0).
  assert (Vc : pstr_eqb (r_rules (k_p k)) ($"VFR") = match c with XBreak KVfr => true | _ => false end).
  { destruct c as [| | | | | | | | |[]|[]| | |]; try discriminate F; cbn [rules_ok] in R; rewrite R; reflexivity. }
  assert (C1 : core_of p1 = (t_text t, F15_POINT, t_sub t, [], [], 0%Z, RULE_I)).
  { unfold p1, k0. cbn [eff1 pt_k rule_k add_k k_with k_p]. rewrite pt_core, rules_core. destruct (fields _ _ _ _ _ _ _ _ (carry_core (k_p k) t)) as (-> & -> & -> & -> & -> & -> & _). now rewrite Bt. }
  assert (P1 : PO p1) by (unfold p1, k0; cbn [eff1 pt_k rule_k add_k k_with k_p]; apply PO_pt, PO_rules, PO_carry, P).
  assert (El : map er_brg (k_l k0) = map er_brg (k_l k) ++ [fin (k_p k) (k_p k)]) by (unfold k0; cbn [eff1 pt_k rule_k add_k k_with k_l k_p]; rewrite prev_brg, map_app, fin_self; reflexivity).
  destruct (fields _ _ _ _ _ _ _ _ C1) as (Q1 & Q2 & Q3 & Q4 & Q5 & Q6 & Q7).
  assert (Tl : exists st ss1 q, length ss1 <= length r /\ boundary ss1 /\ derives (after_stay st (XPoint b)) ss1 /\ Forall tok_ok (yield ss1) /\ PO q /\ stays_ok st /\
    forall j, exists j', same (effs G j r k0) (effs G j' ss1 (k_with k0 (stayed st (copy_perf q (k_p k0)))))).
  { destruct c as [| | | | | | | | |[]|[]| | |]; try discriminate F; cbn [after] in D; fold b in D; ((apply tail_of; assumption) || (apply tail_then; assumption)). }
  destruct Tl as (st & ss1 & q & L1 & B1 & D1 & T1 & Pq & So & E). fold p1 in E.
  set (k1 := k_with k0 (stayed st (copy_perf q p1))) in *. destruct (E (j + length (tokens_of (SPoint t)))) as (j' & Ee).
  destruct (fields _ _ _ _ _ _ _ _ (copy_core q p1)) as (Y1 & Y2 & Y3 & Y4 & Y5 & Y6 & Y7).
  assert (Pk1 : PO (k_p k1)) by (apply PO_stayed, PO_copy, Pq).
  assert (Rk1 : rules_ok (after_stay st (XPoint b)) (k_p k1)).
  { assert (K : r_rules (k_p k1) = RULE_I) by (unfold k1; cbn [k_with k_p]; rewrite stayed_rules; congruence). destruct st; exact K. }
  destruct (IH ss1 ltac:(lia) _ j' k1 B1 D1 T1 Pk1 Rk1) as (ss1' & q1 & N1 & Fi).
  set (e := effs G j' ss1 k1) in *.
  pose proof (f_der _ _ _ _ _ _ _ Fi) as D1'. pose proof (f_next _ _ _ _ _ _ _ Fi) as Nx. destruct (nexts_hd _ _ Nx) as [_ Nv]. pose proof (f_po _ _ _ _ _ _ _ Fi) as Pq1.
  assert (Ef := fin_core q1 (k_p k1)). unfold k1 in Ef at 2. cbn [k_with k_p] in Ef. rewrite stayed_core in Ef. apply fields in Ef as (F1 & F2 & F3 & F4 & F5 & F6 & F7). rewrite Y1, Q1 in F1. rewrite Y2, Q2 in F2. rewrite Y3, Q3 in F3. rewrite Y4, Q4 in F4. rewrite Y5, Q5 in F5.
  assert (Fl : r_llv (fin q1 (k_p k1)) = r_llv p1) by (rewrite fin_llv; unfold k1; cbn [k_with k_p]; rewrite stayed_llv, copy_llv; reflexivity).
  destruct (stay_part (XPoint b) b st ss1' N1 (fin q1 (k_p k1)) (or_introl eq_refl) D1' Nx So) as (es & De & Te & We & Ee' & Ne & _).
  { rewrite F6. apply stayed_stay. congruence. } { rewrite F3. reflexivity. }
  (* what remains: the steps of the point *)
  assert (Build : forall s0 sp, tokens_of s0 = [t] -> is_route s0 = false -> is_svfr s0 = false -> (sp = [] \/ sp = [SSpeed slash_tok (sl_tok q1)]) ->
    derives c (s0 :: sp ++ es ++ ss1') -> (forall j, same (effs G j (s0 :: sp ++ es ++ ss1') k) e) ->
    (needs_speed (fin (k_p k) (k_p k)) (fin q1 (k_p k1)) (hd_error N1) = match sp with [] => false | _ => true end) ->
    exists ss' q' N, fine c (SPoint t :: r) k (effs G j (SPoint t :: r) k) ss' q' N).
  { intros s0 sp E0 I1 I2 Hsp Dd Sd Hn. exists ((s0 :: sp ++ es) ++ ss1'), (k_p k), (fin q1 (k_p k1) :: N1). cbn [effs]. fold k0.
    apply (fine_same _ _ _ e); [apply same_sym; exact Ee|].
    assert (Res : fine c ([SPoint t] ++ ss1) k e ((s0 :: sp ++ es) ++ ss1') (k_p k) (fin q1 (k_p k1) :: N1)).
    { refine (unit_fine c [SPoint t] ss1 k e k1 _ ss1' q1 N1 (s0 :: sp ++ es) (k_p k) Fi _ _ _ El P _ _ _).
      - cbn [app]. rewrite <- app_assoc. exact Dd.
      - rewrite yield_cons, E0, yield_app. cbn [app]. constructor; [split; assumption|]. apply Forall_app. split; [|exact Te].
        destruct Hsp as [->| ->]; [constructor|]. cbn. constructor; [apply slash_ok|]. constructor; [apply (sl_ok q1 Pq1)|constructor].
      - intro i. cbn [app]. rewrite <- app_assoc. apply Sd.
      - rewrite words_item, F5, We. unfold lead. rewrite F4, F2, F1. cbn [nil_b]. rewrite Hn. rewrite yield_cons, E0, yield_app, !map_app. cbn [map app words flat_map]. rewrite Ot. cbn [app].
        destruct Hsp as [->| ->]; [reflexivity|]. cbn [words flat_map yield tokens_of map app]. rewrite fin_sl. destruct (proj1 (sl_ok q1 Pq1)) as [_ O]. change (t_text (sl_tok q1)) with (speed_and_level q1) in *. rewrite O. reflexivity.
      - unfold of_base. rewrite F4, F2, I1, I2. split; reflexivity.
      - split; [reflexivity|exact I2]. }
    destruct Res as [A1 A2 A3 A4 A5 A6 A7 A8 A9 A10]. constructor; try assumption. discriminate. }
  (* the effect of the point without or with a new speed *)
  assert (Sk : forall i, same (eff1 G i (SPoint t) k) k0) by (intro i; apply eff_shift; reflexivity).
  assert (Hs0 : r_stay p1 = 0%Z) by exact Q6.
  assert (Snew : forall i, same (effs G i (SPoint t :: [SSpeed slash_tok (sl_tok q1)] ++ es) k) (k_with k0 (stayed st (copy_perf q1 p1)))).
  { intro i. cbn [app effs]. refine (same_trans _ _ _ (same_effs es _ 0 _ (k_with k0 (copy_perf q1 p1)) _) _).
    - rewrite speed_eff1. apply same_with; [exact (Sk i)|]. rewrite (proj2 (Sk i)). apply (sl_ok q1 Pq1). exact Q7.
    - refine (same_trans _ _ _ (Ee' 0 (k_with k0 (copy_perf q1 p1)) _) _); [cbn [k_with k_p]; now destruct (fields _ _ _ _ _ _ _ _ (copy_core q1 p1)) as (_ & _ & _ & _ & _ & -> & _)|split; reflexivity]. }
  assert (Sold : forall i, same (effs G i (SPoint t :: es) k) (k_with k0 (stayed st p1))).
  { intro i. cbn [effs]. refine (same_trans _ _ _ (same_effs es _ 0 _ k0 (Sk i)) _). exact (Ee' 0 k0 Hs0). }
  assert (Lk1 : k_l k0 = k_l k1) by (symmetry; exact (with_l k0 _)).
  assert (Ex : forall u i x, (forall i, same (effs G i u k) (k_with k0 (stayed st x))) -> (stayed st x = k_p k1 \/ (starts_vfr ss1 = true /\ exists y z, copy_perf y (stayed st x) = copy_perf z (k_p k1))) -> same (effs G i (u ++ ss1') k) e).
  { intros u i x Hu Hx. rewrite effs_app. refine (same_trans _ _ _ (same_effs ss1' _ 0 _ _ (Hu i)) _). exact (land_with _ _ _ _ _ _ _ k0 (stayed st x) Fi D1 T1 Lk1 Hx 0). }
  assert (Hv : in_vfr (fin (k_p k) (k_p k)) = match c with XBreak KVfr => true | _ => false end) by (rewrite in_vfr_fin; exact Vc).
  destruct (hd_vfr _ _ _ _ _ _ _ Fi) as [[V1 V2]|(V1 & V2 & Eq1)].
  - (* speed/VFR follows *)
    pose proof (not_svfr_stay _ _ _ D1 V1) as Est. pose proof (Ne Est) as ->. cbn [app] in De. subst st. cbn [stayed after_stay] in *.
    assert (Hn : needs_speed (fin (k_p k) (k_p k)) (fin q1 (k_p k1)) (hd_error N1) = match c with XBreak KVfr => true | _ => false end && r_llv p1) by (unfold needs_speed; rewrite Nv, V2, Hv, Fl; reflexivity).
    pose proof (point_ctx c t F) as Hcase. fold b in Hcase.
    destruct Hcase as [Hc|[Hc Hc']].
    + destruct (r_llv p1) eqn:Lv.
      * (* IFR point/speed/level/speed/VFR, with coordinates *)
        apply (Build (SPoint t) [SSpeed slash_tok (sl_tok q1)]); try reflexivity; [right; reflexivity| | |rewrite Hn, Hc; reflexivity].
        -- cbn [app]. rewrite Hc. split; [reflexivity|]. split; [split; assumption|]. cbn [after]. fold b. apply sspeed_derives; assumption.
        -- intro i. apply (Ex (SPoint t :: [SSpeed slash_tok (sl_tok q1)]) i (copy_perf q1 p1)); [exact Snew|]. right. split; [exact V1|]. exists q, q. cbn [stayed]. unfold k1. cbn [k_with k_p]. now rewrite !copy_twice.
      * (* IFR point/speed/VFR *)
        assert (Pt : p1 = set_r_rules RULE_I (carry (k_p k) (tok_rec t)) /\ k_l k0 = k_l k ++ [k_p k]).
        { unfold p1, k0 in Lv |- *. cbn [eff1 pt_k rule_k add_k k_with k_l k_p] in Lv |- *. destruct (pt_llv t (set_r_rules RULE_I (carry (k_p k) (tok_rec t)))) as [K1 K2]; [rewrite rules_llv; apply carry_llv|exact Lv|]. rewrite K1, K2. split; reflexivity. }
        destruct Pt as [Pt1 Pt2].
        apply (Build (SRejoin t) []); try reflexivity; [left; reflexivity| | |rewrite Hn, Hc; reflexivity].
        -- cbn [app]. rewrite Hc. split; [reflexivity|]. split; [exact Bt|]. cbn [after]. destruct ss1' as [|s1 ss1']; [discriminate V2|]. destruct s1; try discriminate V2. exact D1'.
        -- intro i. apply (Ex [SRejoin t] i p1).
           ++ intro i'. cbn [effs eff1 stayed]. split; [rewrite with_l, Pt2; reflexivity|rewrite with_p, Pt1; reflexivity].
           ++ right. split; [exact V1|]. exists q, q. unfold k1. cbn [k_with k_p stayed]. now rewrite copy_twice.
    + apply (Build (SPoint t) []); try reflexivity; [left; reflexivity| | |rewrite Hn, Hc; reflexivity].
      * cbn [app]. split; [exact F|]. split; [split; assumption|]. rewrite Hc'. exact De.
      * intro i. apply (Ex [SPoint t] i p1); [exact Sold|]. right. split; [exact V1|]. exists q, q. unfold k1. cbn [k_with k_p stayed]. now rewrite copy_twice.
  - (* any other record, or none, follows *)
    assert (Eqq : forall p, copy_perf q1 p = copy_perf q p).
    { intro p. rewrite Eq1. destruct Pq as (m & Hm & _). apply (perf_copy m); [|exact Hm]. unfold k1. cbn [k_with k_p]. rewrite <- stayed_copy. now apply perf_of_copy. }
    assert (Hn : needs_speed (fin (k_p k) (k_p k)) (fin q1 (k_p k1)) (hd_error N1) = (match c with XBreak KVfr => true | _ => false end || negb (same_speed (k_p k) q1))).
    { unfold needs_speed. rewrite Nv, V2, Hv. unfold same_speed. destruct (fin_perf (k_p k) (k_p k)) as [-> ->]. destruct (fin_perf q1 (k_p k1)) as [-> ->]. reflexivity. }
    destruct (match c with XBreak KVfr => true | _ => false end || negb (same_speed (k_p k) q1)) eqn:Hb.
    + apply (Build (SPoint t) [SSpeed slash_tok (sl_tok q1)]); try reflexivity; [right; reflexivity| | |exact Hn].
      * cbn [app]. split; [exact F|]. split; [split; assumption|]. destruct c as [| | | | | | | | |[]|[]| | |]; try discriminate F; cbn [after]; fold b; apply sspeed_derives; assumption.
      * intro i. change (SPoint t :: [SSpeed slash_tok (sl_tok q1)] ++ es ++ ss1') with ((SPoint t :: [SSpeed slash_tok (sl_tok q1)] ++ es) ++ ss1').
        apply (Ex _ i (copy_perf q1 p1) Snew). left. rewrite Eqq. reflexivity.
    + apply orb_false_iff in Hb as [Hb1 Hb2]. apply negb_false_iff in Hb2. unfold same_speed in Hb2. apply andb_true_iff in Hb2 as [Hs1 Hs2]. apply pstr_eqb_eq in Hs1, Hs2.
      apply (Build (SPoint t) []); try reflexivity; [left; reflexivity| | |exact Hn].
      * cbn [app]. split; [exact F|]. split; [split; assumption|]. destruct c as [| | | | | | | | |[]|[]| | |]; try discriminate F; try discriminate Hb1; exact De.
      * intro i. change (SPoint t :: [] ++ es ++ ss1') with ((SPoint t :: es) ++ ss1'). apply (Ex _ i p1 Sold). left. unfold k1. cbn [k_with k_p]. f_equal.
        rewrite <- Eqq. transitivity (copy_perf p1 p1); [now rewrite copy_self|]. destruct P as (m & Hm & _). destruct Pq1 as (m1 & Hm1 & _).
        assert (Em : m = m1). { destruct (perf_speeds _ _ Hm) as [X1 X2]. destruct (perf_speeds _ _ Hm1) as [X3 X4]. destruct m, m1. cbn [fst snd] in *. congruence. }
        subst m1. apply (perf_copy m); [|exact Hm1]. unfold p1, k0. cbn [eff1 pt_k rule_k add_k k_with k_p]. apply perf_pt. assert (Hc : perf m (carry (k_p k) (tok_rec t))) by now apply perf_carry. destruct (carry (k_p k) (tok_rec t)). exact Hc.
Qed.

(** ** C, cruise climbs, rejoining *)
Lemma xc_head ss : derives XC ss -> match yield ss with n :: _ => t_base n <> F15_SLASH | [] => True end.
Proof.
  destruct ss as [|s ss]; [intros; exact I|]. intros (F & P & _). destruct s; try discriminate F; rewrite yield_cons; cbn [tokens_of app proper] in *; intro E.
  - rewrite P in E; discriminate E.
  - rewrite P in E; discriminate E.
  - destruct P as [P _]; rewrite P in E; discriminate E.
  - destruct P as [P _]; rewrite P in E; discriminate E.
  - destruct P as [[P|[P _]] _]; rewrite P in E; discriminate E.
  - destruct P as [P _]; rewrite P in E; discriminate E.
  - destruct P as [P _]; rewrite P in E; discriminate E.
  - destruct P as [P _]; rewrite P in E; discriminate E.
  - destruct P as [P _]; rewrite P in E; discriminate E.
Qed.
Lemma c_rules c t p : follows c (SC t) = true -> rules_ok c p -> r_rules p = RULE_I.
Proof. destruct c as [| | | | | | | | |[]|[]| | |]; intros F R; try discriminate F; exact R. Qed.
Lemma c_unit n (IH : claim n) c t r j k : length r <= n -> derives c (SC t :: r) -> Forall tok_ok (yield (SC t :: r)) -> PO (k_p k) -> rules_ok c (k_p k) ->
  exists ss' q N, fine c (SC t :: r) k (effs G j (SC t :: r) k) ss' q N.
Proof.
  intros L D T P R. destruct D as (F & Pr & D). rewrite yield_cons in T. cbn [tokens_of app] in T. inversion T as [|? ? [Wt Ot] T2]; subst. destruct Pr as [Bt _].
  pose proof (c_rules _ _ _ F R) as Ri. cbn [after] in D. set (k0 := eff1 G j (SC t) k). set (p1 := k_p k0).
  assert (C1 : core_of p1 = (t_text t, F15_C, t_sub t, [], [], 0%Z, RULE_I)) by (unfold p1, k0; cbn [eff1 add_k k_p]; rewrite carry_core, Bt, Ri; reflexivity).
  assert (P1 : PO p1) by (apply PO_carry, P).
  assert (El : map er_brg (k_l k0) = map er_brg (k_l k) ++ [fin (k_p k) (k_p k)]) by (unfold k0; cbn [eff1 add_k k_l]; rewrite map_app, fin_self; reflexivity).
  destruct (fields _ _ _ _ _ _ _ _ C1) as (Q1 & Q2 & Q3 & Q4 & Q5 & Q6 & Q7).
  destruct (tail_c r k0 D T2 P1) as (st & ss1 & L1 & B1 & D1 & T1 & So & E). fold p1 in E. set (k1 := k_with k0 (stayed st p1)) in *. destruct (E (j + length (tokens_of (SC t)))) as (j' & Ee).
  assert (Pk1 : PO (k_p k1)) by (apply PO_stayed, P1).
  assert (Rk1 : rules_ok (after_stay st XC) (k_p k1)).
  { assert (K : r_rules (k_p k1) = RULE_I) by (unfold k1; rewrite with_p, stayed_rules; exact Q7). destruct st; exact K. }
  destruct (IH ss1 ltac:(lia) _ j' k1 B1 D1 T1 Pk1 Rk1) as (ss1' & q1 & N1 & Fi). set (e := effs G j' ss1 k1) in *.
  pose proof (f_der _ _ _ _ _ _ _ Fi) as D1'. pose proof (f_next _ _ _ _ _ _ _ Fi) as Nx.
  assert (Ef := fin_core q1 (k_p k1)). unfold k1 in Ef at 2. rewrite with_p, stayed_core in Ef. apply fields in Ef as (F1 & F2 & F3 & F4 & F5 & F6 & F7). rewrite Q1 in F1. rewrite Q2 in F2. rewrite Q3 in F3. rewrite Q4 in F4. rewrite Q5 in F5.
  destruct (stay_part XC false st ss1' N1 (fin q1 (k_p k1)) (or_intror (conj eq_refl eq_refl)) D1' Nx So) as (es & De & Te & We & Ee' & _ & _).
  { rewrite F6. apply stayed_stay. exact Q6. } { rewrite F3. now apply c_sub. }
  exists ((SC t :: es) ++ ss1'), (k_p k), (fin q1 (k_p k1) :: N1). change (effs G j (SC t :: r) k) with (effs G (j + length (tokens_of (SC t))) r k0).
  apply (fine_same _ _ _ e); [apply same_sym; exact Ee|].
  assert (Res : fine c ([SC t] ++ ss1) k e ((SC t :: es) ++ ss1') (k_p k) (fin q1 (k_p k1) :: N1)).
  { refine (unit_fine c [SC t] ss1 k e k1 _ ss1' q1 N1 (SC t :: es) (k_p k) Fi _ _ _ El P _ _ _).
    - cbn [app derives]. split; [exact F|]. split; [split; [exact Bt|now apply xc_head]|exact De].
    - rewrite yield_cons. cbn [tokens_of app]. constructor; [split; assumption|exact Te].
    - intro i. rewrite effs_app. refine (same_trans _ _ _ (same_effs ss1' _ 0 _ k1 _) (f_eff _ _ _ _ _ _ _ Fi 0)).
      cbn [effs]. refine (same_trans _ _ _ (same_effs es _ 0 _ k0 _) (Ee' 0 k0 Q6)). apply eff_shift; reflexivity.
    - rewrite words_item, F5, We. unfold lead. rewrite F4, F2, F1. cbn [nil_b words flat_map]. rewrite yield_cons, map_app. cbn [tokens_of map]. rewrite Ot. reflexivity.
    - unfold of_base. rewrite F4, F2. split; reflexivity.
    - split; reflexivity. }
  destruct Res as [A1 A2 A3 A4 A5 A6 A7 A8 A9 A10]. constructor; try assumption. discriminate.
Qed.

Lemma rejoin_unit n (IH : claim n) c t r j k : length r <= n -> derives c (SRejoin t :: r) -> Forall tok_ok (yield (SRejoin t :: r)) -> PO (k_p k) -> rules_ok c (k_p k) ->
  exists ss' q N, fine c (SRejoin t :: r) k (effs G j (SRejoin t :: r) k) ss' q N.
Proof.
  intros L D T P R. destruct D as (F & Bt & D). rewrite yield_cons in T. cbn [tokens_of app] in T. inversion T as [|? ? [Wt Ot] T2]; subst. cbn [proper] in Bt. cbn [after] in D.
  set (k0 := eff1 G j (SRejoin t) k).
  assert (C1 : core_of (k_p k0) = (t_text t, F15_POINT, t_sub t, [], [], 0%Z, RULE_I)).
  { unfold k0; cbn [eff1 rule_k add_k k_with k_p]; rewrite rules_core. destruct (fields _ _ _ _ _ _ _ _ (carry_core (k_p k) t)) as (-> & -> & -> & -> & -> & -> & _). now rewrite Bt. }
  assert (Br : boundary r) by (destruct r as [|s r]; [exact I|]; destruct D as (F' & _); destruct s; try discriminate F'; reflexivity).
  assert (Sv : starts_vfr r = true) by (destruct r as [|s r]; [discriminate D|]; destruct D as (F' & _); destruct s; try discriminate F'; reflexivity).
  destruct (fields _ _ _ _ _ _ _ _ C1) as (Q1 & Q2 & Q3 & Q4 & Q5 & Q6 & Q7).
  destruct (IH r L XThenVfr (j + length (tokens_of (SRejoin t))) k0 Br D T2) as (ss1 & q1 & N1 & Fi).
  { apply PO_rules, PO_carry, P. } { exact Q7. }
  destruct (hd_vfr _ _ _ _ _ _ _ Fi) as [[_ V2]|(V1 & _)]; [|congruence].
  destruct (nexts_hd _ _ (f_next _ _ _ _ _ _ _ Fi)) as [Nr Nv]. rewrite V2 in Nv.
  assert (Nr' : next_of F15_ROUTE (hd_error N1) = false) by (rewrite Nr; destruct ss1 as [|[] ss1]; try discriminate V2; reflexivity).
  assert (Ef := fin_core q1 (k_p k0)). rewrite C1 in Ef. apply fields in Ef as (F1 & F2 & F3 & F4 & F5 & F6 & F7).
  exists ([SRejoin t] ++ ss1), (k_p k), (fin q1 (k_p k0) :: N1). change (effs G j (SRejoin t :: r) k) with (effs G (j + length (tokens_of (SRejoin t))) r k0).
  refine (unit_fine c [SRejoin t] r k _ k0 XThenVfr ss1 q1 N1 [SRejoin t] (k_p k) Fi _ _ _ _ P _ _ _).
  - cbn [app derives]. split; [exact F|]. split; [exact Bt|exact (f_der _ _ _ _ _ _ _ Fi)].
  - unfold yield. cbn [flat_map tokens_of app]. now apply forall_one.
  - intro i. cbn [app effs]. refine (same_trans _ _ _ (same_effs ss1 _ 0 _ k0 _) (f_eff _ _ _ _ _ _ _ Fi 0)). apply eff_shift; reflexivity.
  - unfold k0. cbn [eff1 rule_k add_k k_with k_l]. rewrite map_app, fin_self. reflexivity.
  - rewrite words_item, F5. unfold lead, stay_words, needs_speed. rewrite F4, F2, F1, F6, Nr', Nv, fin_llv. unfold k0. cbn [eff1 rule_k add_k k_with k_p]. rewrite rules_llv, carry_llv, !andb_false_r. cbn. rewrite Ot. reflexivity.
  - unfold of_base. rewrite F4, F2. split; reflexivity.
  - split; reflexivity.
Qed.

Lemma climb_core t p : wt t -> is_climb_tok t -> core_of (climb_eff t p) = (r_name p, r_base p, r_sub p, kept t, r_break p, r_stay p, RULE_I).
Proof.
  intros W C. pose proof (climb_cto t p W C) as K. unfold core_of. rewrite K. clear K. destruct C as [C|C]; unfold climb_eff; rewrite C.
  - destruct (saa_perf t p W C) as (a & b & c & -> & _). destruct p; reflexivity.
  - destruct (sap_perf t p W C) as (a & b & -> & _). destruct p; reflexivity.
Qed.
Lemma target_ne c : target c -> nil_b c = false.
Proof.
  intros [->|[[H _]|(l & H)]]; [reflexivity| |].
  - destruct (level_chars _ H) as (x & ds & -> & _). reflexivity.
  - destruct (level_chars _ H) as (x & ds & E & _ & N & _). injection E as _ ->. destruct ds; [contradiction|reflexivity].
Qed.
Lemma climb_kind t t' : wt t -> is_climb_tok t -> levels_ok t -> wt t' -> is_climb_tok t' -> levels_ok t' -> kept t = kept t' -> t_base t = t_base t'.
Proof.
  intros W C L W' C' L' K. destruct (kept_target t W C L) as [_ H]. destruct (kept_target t' W' C' L') as [_ H']. rewrite K in H.
  destruct C as [C|C], C' as [C'|C']; rewrite C, C' in *; try reflexivity.
  - discriminate (proj1 H (proj2 H' eq_refl)).
  - discriminate (proj1 H' (proj2 H eq_refl)).
Qed.
Lemma climb_rules_ctx c a b t p : follows c (SClimb a b t) = true -> rules_ok c p -> r_rules p = RULE_I.
Proof. destruct c as [| | | | | | | | |[]|[]| | |]; intros F R; try discriminate F; exact R. Qed.

(** The element (or elements) of a cruise climb with target [cto] that leaves the speed and level of [q]. *)
Lemma climb_elements b tt q : tok_ok tt -> is_climb_tok tt -> levels_ok tt -> PO q ->
  exists us, derives (XClimb b) us /\ us <> [] /\ Forall tok_ok (yield us) /\
    words ($"/" :: (let w := speed_and_level q ++ with_letter (kept tt) in if climb_fits w (kept tt) then [w] else [some_climb (kept tt); $"/"; speed_and_level q])) = map t_text (yield us) /\
    (forall ss, derives (XPoint b) ss -> derives (XClimb b) (us ++ ss)) /\
    forall j k, r_rules (k_p k) = RULE_I -> same (effs G j us k) (k_with k (copy_perf q (climb_eff tt (k_p k)))).
Proof.
  intros [Wt Ot] C Lv Pq. destruct (kept_target tt Wt C Lv) as [Ta _]. destruct slash_ok as [S1 S2]. destruct (sl_ok q Pq) as (Kq & Bq & Lq & Eq). destruct Pq as (m & Hm & Hx & Hy & Hf).
  assert (Ew : speed_and_level q ++ with_letter (kept tt) = fst m ++ snd m ++ with_letter (kept tt)) by (unfold speed_and_level; destruct Hm as (-> & -> & _); now rewrite app_assoc).
  cbv zeta. rewrite Ew. destruct (climb_fits _ _) eqn:Fit.
  - destruct (fits_token _ _ _ Hx Hy Hf Ta Fit) as (K1 & K2 & K3 & K4 & K5 & K6). set (w := fst m ++ snd m ++ with_letter (kept tt)) in *. set (t' := first_token w) in *.
    exists [SClimbTo slash_tok t'].
    assert (Dd : forall ss, derives (XPoint b) ss -> derives (XClimb b) ([SClimbTo slash_tok t'] ++ ss)) by (intros ss Ds; split; [reflexivity|]; split; [cbn [proper]; auto|exact Ds]).
    split; [exact (Dd [] eq_refl)|]. split; [discriminate|]. split; [constructor; [exact S1|constructor; [exact K1|constructor]]|].
    split; [cbn [words flat_map]; destruct K1 as [_ O]; change (t_text t') with w in O; rewrite O; reflexivity|]. split; [exact Dd|].
    intros j k _. cbn [effs eff1]. apply same_with; [split; reflexivity|]. rewrite (climb_same tt t' q (k_p k) Wt C (proj1 K1) K2 (climb_kind _ _ Wt C Lv (proj1 K1) K2 K3 (eq_sym K4)) (eq_sym K4)).
    rewrite <- (copy_self (climb_eff t' (k_p k))) at 1. apply (perf_copy m); [|exact Hm]. pose proof (perf_climb t' (k_p k) (proj1 K1) K2) as Hp. rewrite K5, K6 in Hp. destruct m. exact Hp.
  - destruct (some_token _ Ta) as (K1 & K2 & K3 & K4). set (w := some_climb (kept tt)) in *. set (t' := first_token w) in *.
    exists [SClimbTo slash_tok t'; SSpeed slash_tok (sl_tok q)].
    assert (Dd : forall ss, derives (XPoint b) ss -> derives (XClimb b) ([SClimbTo slash_tok t'; SSpeed slash_tok (sl_tok q)] ++ ss)) by (intros ss Ds; split; [reflexivity|]; split; [cbn [proper]; auto|]; split; [reflexivity|]; split; [cbn [proper]; auto|exact Ds]).
    split; [exact (Dd [] eq_refl)|]. split; [discriminate|]. split; [constructor; [exact S1|constructor; [exact K1|constructor; [exact S1|constructor; [exact Kq|constructor]]]]|].
    split; [cbn [words flat_map]; destruct K1 as [_ O]; change (t_text t') with w in O; rewrite O; destruct Kq as [_ Oq]; change (t_text (sl_tok q)) with (speed_and_level q) in Oq; rewrite Oq; reflexivity|]. split; [exact Dd|].
    intros j k _. cbn [effs]. rewrite speed_eff1. set (k' := eff1 G j _ k). assert (Ek : k_p k' = climb_eff t' (k_p k)) by reflexivity. rewrite Ek. split; [reflexivity|]. rewrite !with_p. rewrite Eq by (apply climb_rules; [apply K1|exact K2]).
    symmetry. apply climb_same; try assumption; [apply K1| |now symmetry]. exact (climb_kind _ _ Wt C Lv (proj1 K1) K2 K3 (eq_sym K4)).
Qed.

Lemma climb_unit n (IH : claim n) c a sl t r j k : length r <= n -> derives c (SClimb a sl t :: r) -> Forall tok_ok (yield (SClimb a sl t :: r)) -> PO (k_p k) -> rules_ok c (k_p k) ->
  exists ss' q N, fine c (SClimb a sl t :: r) k (effs G j (SClimb a sl t :: r) k) ss' q N.
Proof.
  intros L D T P R. destruct D as (F & Pr & D). cbn [after] in D. set (b := computed_point (t_sub t)) in *. pose proof (climb_rules_ctx _ _ _ _ _ F R) as Ri. destruct Pr as (Ba & Bs & An).
  destruct r as [|s r]; [discriminate D|]. destruct s as [| | | | | | | | | | | | | | |sl2 tt|]; try (exfalso; destruct D as (F' & _); discriminate F').
  destruct D as (_ & (Bs2 & Ct & Lt) & D). cbn [after] in D.
  rewrite !yield_cons in T. cbn [tokens_of app] in T. inversion T as [|? ? [Wa Oa] T2]; subst. inversion T2 as [|? ? [Ws Os] T3]; subst. inversion T3 as [|? ? [Wt Ot] T4]; subst. inversion T4 as [|? ? _ T5]; subst. inversion T5 as [|? ? [Wtt Ott] T6]; subst. clear T T2 T3 T4 T5.
  set (k0 := eff1 G j (SClimb a sl t) k) in *. set (p1 := k_p k0).
  assert (C1 : core_of p1 = (t_text t, t_base t, t_sub t, [], [], 0%Z, RULE_I)) by (unfold p1, k0; cbn [eff1 pt_k add_k k_with k_p]; rewrite pt_core, carry_core, Ri; reflexivity).
  assert (P1 : PO p1) by (unfold p1, k0; cbn [eff1 pt_k add_k k_p]; apply PO_pt, PO_carry, P).
  assert (El : map er_brg (k_l k0) = map er_brg (k_l k) ++ [fin (k_p k) (k_p k)]) by (unfold k0; cbn [eff1 pt_k add_k k_l k_p]; rewrite prev_brg, map_app, fin_self; reflexivity).
  set (p2 := climb_eff tt p1). set (k2 := k_with k0 p2).
  assert (C2 : core_of p2 = (t_text t, t_base t, t_sub t, kept tt, [], 0%Z, RULE_I)).
  { unfold p2. rewrite (climb_core tt p1 Wtt Ct). destruct (fields _ _ _ _ _ _ _ _ C1) as (-> & -> & -> & _ & -> & -> & _). reflexivity. }
  assert (P2 : PO p2) by (apply PO_climb; assumption).
  destruct (fields _ _ _ _ _ _ _ _ C1) as (_ & _ & _ & _ & _ & _ & R1). destruct (fields _ _ _ _ _ _ _ _ C2) as (Q1 & Q2 & Q3 & Q4 & Q5 & Q6 & Q7).
  destruct (tail_of b r k2 D T6 P2 Q7) as (st & ss1 & q & L1 & B1 & D1 & T1 & Pq & So & E). change (k_p k2) with p2 in E.
  set (k1 := k_with k2 (stayed st (copy_perf q p2))) in *. destruct (E (j + length (tokens_of (SClimb a sl t)) + length (tokens_of (SClimbTo sl2 tt)))) as (j' & Ee).
  destruct (fields _ _ _ _ _ _ _ _ (copy_core q p2)) as (Y1 & Y2 & Y3 & Y4 & Y5 & Y6 & Y7).
  assert (Pk1 : PO (k_p k1)) by (apply PO_stayed, PO_copy, Pq).
  assert (Rk1 : rules_ok (after_stay st (XPoint b)) (k_p k1)).
  { assert (K : r_rules (k_p k1) = RULE_I) by (unfold k1; rewrite with_p, stayed_rules; congruence). destruct st; exact K. }
  destruct (IH ss1 ltac:(cbn [length] in L; lia) _ j' k1 B1 D1 T1 Pk1 Rk1) as (ss1' & q1 & N1 & Fi).
  set (e := effs G j' ss1 k1) in *.
  pose proof (f_der _ _ _ _ _ _ _ Fi) as D1'. pose proof (f_next _ _ _ _ _ _ _ Fi) as Nx. pose proof (f_po _ _ _ _ _ _ _ Fi) as Pq1.
  assert (Ef := fin_core q1 (k_p k1)). unfold k1 in Ef at 2. rewrite with_p, stayed_core in Ef. apply fields in Ef as (F1 & F2 & F3 & F4 & F5 & F6 & F7). rewrite Y1, Q1 in F1. rewrite Y2, Q2 in F2. rewrite Y3, Q3 in F3. rewrite Y4, Q4 in F4. rewrite Y5, Q5 in F5.
  destruct (stay_part (XPoint b) b st ss1' N1 (fin q1 (k_p k1)) (or_introl eq_refl) D1' Nx So) as (es & De & Te & We & Ee' & _ & _).
  { rewrite F6. apply stayed_stay. congruence. } { rewrite F3. reflexivity. }
  destruct (climb_elements b tt q1 (conj Wtt Ott) Ct Lt Pq1) as (us & Du & Nu & Tu & Wu & Ru & Eu).
  pose proof (target_ne _ (proj1 (kept_target tt Wtt Ct Lt))) as Nk.
  (* the state after the new steps *)
  assert (Snew : forall i, same (effs G i (SClimb a sl t :: us ++ es) k) (k_with k0 (stayed st (copy_perf q1 p2)))).
  { intro i. cbn [effs]. rewrite effs_app. refine (same_trans _ _ _ (same_effs es _ 0 _ (k_with k0 (copy_perf q1 p2)) _) _).
    - refine (same_trans _ _ _ (same_effs us _ 0 _ k0 _) (Eu 0 k0 R1)). apply eff_shift; reflexivity.
    - refine (same_trans _ _ _ (Ee' 0 (k_with k0 (copy_perf q1 p2)) _) _); [rewrite with_p; destruct (fields _ _ _ _ _ _ _ _ (copy_core q1 p2)) as (_ & _ & _ & _ & _ & -> & _); exact Q6|rewrite with_p; split; [rewrite !with_l; reflexivity|rewrite !with_p; reflexivity]]. }
  assert (Lk1 : k_l k0 = k_l k1) by (unfold k1, k2; rewrite !with_l; reflexivity).
  assert (Hp : stayed st (copy_perf q1 p2) = k_p k1 \/ (starts_vfr ss1 = true /\ exists y z, copy_perf y (stayed st (copy_perf q1 p2)) = copy_perf z (k_p k1))).
  { unfold k1. rewrite with_p. destruct (hd_vfr _ _ _ _ _ _ _ Fi) as [[V1 _]|(_ & _ & Eq1)].
    - right. split; [exact V1|]. exists q, q. rewrite !stayed_copy, !copy_twice. reflexivity.
    - left. f_equal. rewrite Eq1. destruct Pq as (m & Hm & _). apply (perf_copy m); [|exact Hm]. unfold k1. rewrite with_p, <- stayed_copy. now apply perf_of_copy. }
  exists ((SClimb a sl t :: us ++ es) ++ ss1'), (k_p k), (fin q1 (k_p k1) :: N1).
  change (effs G j (SClimb a sl t :: SClimbTo sl2 tt :: r) k) with (effs G (j + length (tokens_of (SClimb a sl t)) + length (tokens_of (SClimbTo sl2 tt))) r k2).
  apply (fine_same _ _ _ e); [apply same_sym; exact Ee|].
  assert (Res : fine c ([SClimb a sl t] ++ ss1) k e ((SClimb a sl t :: us ++ es) ++ ss1') (k_p k) (fin q1 (k_p k1) :: N1)).
  { refine (unit_fine c [SClimb a sl t] ss1 k e k1 _ ss1' q1 N1 (SClimb a sl t :: us ++ es) (k_p k) Fi _ _ _ _ P _ _ _).
    - cbn [app derives]. split; [exact F|]. split; [cbn [proper]; auto|]. cbn [after]. fold b. rewrite <- app_assoc. apply Ru. exact De.
    - rewrite yield_cons, yield_app. cbn [tokens_of app]. constructor; [split; assumption|]. constructor; [split; assumption|]. constructor; [split; assumption|]. apply Forall_app. auto.
    - intro i. rewrite effs_app. refine (same_trans _ _ _ (same_effs ss1' _ 0 _ _ (Snew i)) _). exact (land_with _ _ _ _ _ _ _ k0 _ Fi D1 T1 Lk1 Hp 0).
    - rewrite <- Lk1. exact El.
    - rewrite words_item, F5, We. unfold lead, climb_words. rewrite F4, F1, Nk, fin_sl. fold (some_climb (kept tt)).
      rewrite yield_cons, yield_app, !map_app, <- Wu. cbn [tokens_of map]. rewrite (slash_text sl Ws Bs), (c_text a Wa Ba).
      change ([$"C"; $"/"; t_text t; $"/"] ++ ?x) with ([$"C"; $"/"] ++ [t_text t] ++ ($"/" :: x)). rewrite !words_app. assert (W1 : words [t_text t] = [t_text t]) by (cbn [words flat_map]; rewrite Ot; reflexivity). assert (W2 : words [$"C"; $"/"] = [$"C"; $"/"]) by reflexivity. rewrite W1, W2. rewrite <- !app_assoc. reflexivity.
    - unfold of_base. rewrite F4, Nk. split; reflexivity.
    - split; reflexivity. }
  destruct Res as [A1 A2 A3 A4 A5 A6 A7 A8 A9 A10]. constructor; try assumption. discriminate.
Qed.

(** ** Speed/VFR, break sections, and all units together *)
Lemma vfr_core t p : wt t -> t_base t = F15_SPEED_VFR -> core_of (vfr_eff t p) = ($"VFR", F15_SPEED_VFR, t_sub t, [], [], 0%Z, RULE_V) /\ r_speed (vfr_eff t p) = speed_part (t_text t).
Proof.
  intros W B. destruct (vfr_perf t p W B) as (a & -> & ->). split; [|destruct p; reflexivity].
  destruct t as [x y z b s]. cbn [t_base] in B. subst b. destruct p; reflexivity.
Qed.
Lemma vfr_unit n (IH : claim n) c sl t r j k : length r <= n -> derives c (SVfr sl t :: r) -> Forall tok_ok (yield (SVfr sl t :: r)) ->
  exists ss' q N, fine c (SVfr sl t :: r) k (effs G j (SVfr sl t :: r) k) ss' q N.
Proof.
  intros L D T. destruct D as (F & (Bs & Bt) & D). cbn [after] in D. rewrite yield_cons in T. cbn [tokens_of app] in T. inversion T as [|? ? [Ws Os] T2]; subst. inversion T2 as [|? ? [Wt Ot] T3]; subst.
  set (k1 := eff1 G j (SVfr sl t) k). destruct (vfr_core t (k_p k) Wt Bt) as [C S]. destruct (fields _ _ _ _ _ _ _ _ C) as (Q1 & Q2 & Q3 & Q4 & Q5 & Q6 & Q7). destruct (vfr_word t Wt Bt) as [_ E].
  pose proof (PO_vfr t (k_p k) Wt Bt) as Pv.
  destruct (text_unit n IH KVfr r k1 c (SVfr sl t) k (vfr_eff t (k_p k)) (j + length (tokens_of (SVfr sl t))) L D T3 Pv Q7 Q5 Q4 Q6 F) as (ss' & N & Fi); [| | | | | | |exists ss', (vfr_eff t (k_p k)), N; exact Fi].
  - intro l. split; assumption.
  - reflexivity.
  - constructor; [split; assumption|]. constructor; [split; assumption|constructor].
  - intro i. apply eff_shift; reflexivity.
  - unfold k1. cbn [eff1 vfr_k k_l]. rewrite map_app. reflexivity.
  - exact Pv.
  - split; [|split; [exact Q2|now apply slash_text]]. change (k_p k1) with (vfr_eff t (k_p k)). rewrite S. exact E.
Qed.
Lemma break_unit n (IH : claim n) c t r j k : length r <= n -> derives c (SBreak t :: r) -> Forall tok_ok (yield (SBreak t :: r)) -> PO (k_p k) ->
  exists ss' q N, fine c (SBreak t :: r) k (effs G j (SBreak t :: r) k) ss' q N.
Proof.
  intros L D T P. destruct D as (F & (Bt & Bg) & D). cbn [after] in D. destruct (begins (t_sub t)) as [kd|] eqn:Ek; [|contradiction].
  rewrite yield_cons in T. cbn [tokens_of app] in T. inversion T as [|? ? [Wt Ot] T2]; subst.
  set (k1 := eff1 G j (SBreak t) k).
  assert (C : core_of (k_p k1) = (t_text t, F15_BREAK_START, t_sub t, [], [], 0%Z, kind_rule kd)).
  { unfold k1; cbn [eff1 rule_k add_k k_with k_p]; rewrite rules_core. destruct (fields _ _ _ _ _ _ _ _ (carry_core (k_p k) t)) as (-> & -> & -> & -> & -> & -> & _). unfold break_rule. now rewrite Bt, Ek. }
  destruct (fields _ _ _ _ _ _ _ _ C) as (Q1 & Q2 & Q3 & Q4 & Q5 & Q6 & Q7).
  destruct (text_unit n IH kd r k1 c (SBreak t) k (k_p k) (j + length (tokens_of (SBreak t))) L D T2 (PO_rules _ _ (PO_carry _ _ P)) Q7 Q5 Q4 Q6 F) as (ss' & N & Fi); [| | | | | | |exists ss', (k_p k), N; exact Fi].
  - intro l. split; [exact Bt|]. rewrite Ek. discriminate.
  - cbn [after]. rewrite Ek. reflexivity.
  - constructor; [split; assumption|constructor].
  - intro i. apply eff_shift; reflexivity.
  - unfold k1. cbn [eff1 rule_k add_k k_with k_l]. rewrite map_app, fin_self. reflexivity.
  - exact P.
  - split; [exact Q1|]. split; [exact Q2|reflexivity].
Qed.
Lemma after_simple X r : (X = XDct \/ X = XRoute \/ X = XSid \/ X = XEnd \/ X = XAdep) -> derives X r -> boundary r.
Proof.
  intros H D. destruct r as [|s r]; [exact I|]. destruct D as (F & _). destruct H as [->|[->|[->|[->| ->]]]]; destruct s; try discriminate F; exact I || reflexivity.
Qed.
Lemma end_nil r : derives XEnd r -> r = []. Proof. destruct r as [|s r]; [reflexivity|]. intros (F & _). discriminate F. Qed.
Lemma all_units : forall n, claim n.
Proof.
  induction n as [|n IH]; intros ss L c j k B D T P R.
  { destruct ss; [|cbn in L; lia]. exists [], (k_p k), []. apply fine_end; auto. }
  destruct ss as [|s r]; [exists [], (k_p k), []; apply fine_end; auto|]. cbn [length] in L. apply le_S_n in L.
  destruct s.
  - discriminate B.
  - destruct D as (F & _). destruct c as [| | | | | | | | |[]|[]| | |]; try discriminate F; destruct R.
  - (* DCT *)
    destruct (D) as (F & Bt & D1). assert (Ri : r_rules (k_p k) = RULE_I) by (destruct c as [| | | | | | | | |[]|[]| | |]; try discriminate F; exact R).
    refine (simple_unit n IH c (SDct t) r j k t F15_DCT (t_sub t) L D T _ eq_refl eq_refl P _ _ _ _ _ _ _ _ _ _); try discriminate; try exact I.
    + exact (after_simple _ _ (or_introl eq_refl) D1).
    + apply PO_carry, P.
    + cbn [after rules_ok eff1 add_k k_p]. destruct (fields _ _ _ _ _ _ _ _ (carry_core (k_p k) t)) as (_ & _ & _ & _ & _ & _ & ->). exact Ri.
    + cbn [eff1 add_k k_l]. now rewrite map_app.
    + eexists. cbn [eff1 add_k k_p]. rewrite carry_core, Bt. reflexivity.
    + reflexivity.
    + right. reflexivity.
    + intros. exact Bt.
  - (* route *)
    destruct (D) as (F & Bt & D1). 
    refine (simple_unit n IH c (SRoute t) r j k t F15_ROUTE (t_sub t) L D T _ eq_refl eq_refl P _ _ _ _ _ _ _ _ _ _); try discriminate; try exact I.
    + exact (after_simple _ _ (or_intror (or_introl eq_refl)) D1).
    + apply PO_rules, PO_carry, P.
    + cbn [after rules_ok eff1 rule_k add_k k_with k_p]. destruct (fields _ _ _ _ _ _ _ _ (rules_core RULE_I (carry (k_p k) (tok_rec t)))) as (_ & _ & _ & _ & _ & _ & ->). reflexivity.
    + cbn [eff1 rule_k add_k k_with k_l]. now rewrite map_app.
    + eexists. cbn [eff1 rule_k add_k k_with k_p]. rewrite rules_core. destruct (fields _ _ _ _ _ _ _ _ (carry_core (k_p k) t)) as (-> & -> & -> & -> & -> & -> & _). rewrite Bt. reflexivity.
    + reflexivity.
    + right. reflexivity.
    + intros. exact Bt.
  - now apply point_unit with (n := n).
  - now apply c_unit with (n := n).
  - (* SID *)
    destruct (D) as (F & Bt & D1). assert (Ri : r_rules (k_p k) = RULE_I) by (destruct c as [| | | | | | | | |[]|[]| | |]; try discriminate F; exact R).
    refine (simple_unit n IH c (SSid t) r j k t F15_SID (sid_sub t) L D T _ eq_refl eq_refl P _ _ _ _ _ _ _ _ _ _); try discriminate; try exact I.
    + exact (after_simple _ _ (or_intror (or_intror (or_introl eq_refl))) D1).
    + apply PO_type, PO_carry, P.
    + cbn [after rules_ok eff1 add_k k_with k_p]. rewrite <- Ri. destruct (k_p k); reflexivity.
    + cbn [eff1 add_k k_with k_l]. now rewrite map_app.
    + exists (r_rules (k_p k)). cbn [eff1 add_k k_with k_p]. destruct (k_p k). reflexivity.
    + reflexivity.
    + left. unfold sid_sub. destruct (pstr_eqb _ _); reflexivity.
    + intros. exact Bt.
  - (* STAR *)
    destruct (D) as (F & [Bt Bn] & D1). 
    refine (simple_unit n IH c (SStar t) r j k t F15_STAR (star_sub t) L D T _ eq_refl eq_refl P _ _ _ _ _ _ _ _ _ _); try discriminate; try exact I.
    + exact (after_simple _ _ (or_intror (or_intror (or_intror (or_introl eq_refl)))) D1).
    + apply PO_type, PO_carry, P.
    + cbn [eff1 add_k k_with k_l]. now rewrite map_app.
    + exists (r_rules (k_p k)). cbn [eff1 add_k k_with k_p]. destruct (k_p k). reflexivity.
    + reflexivity.
    + right. reflexivity.
    + intros ss1 _ H. cbn [after] in D1. rewrite (H (end_nil _ D1)). split; [exact Bt|reflexivity].
  - (* T *)
    destruct D as (F & _ & D1). cbn [after] in D1. rewrite (end_nil _ D1). exists [], (k_p k), []. cbn [effs eff1]. apply fine_end; [|exact P|right; now exists t].
    destruct c as [| | | | | | | | |[]|[]| | |]; try discriminate F; reflexivity.
  - discriminate B.
  - now apply vfr_unit with (n := n).
  - now apply break_unit with (n := n).
  - discriminate B.
  - now apply rejoin_unit with (n := n).
  - now apply climb_unit with (n := n).
  - discriminate B.
  - discriminate B.
Qed.

(** ** The beginning of the field *)
Lemma item_brg p r n : item (er_brg p) (er_brg r) (option_map er_brg n) = item p r n.
Proof. destruct p, r, n as [[]|]; reflexivity. Qed.
Lemma say_brg : forall N p, say (er_brg p) (map er_brg N) = say p N.
Proof.
  induction N as [|r N IH]; intro p; [reflexivity|]. cbn [map say]. rewrite IH. f_equal. rewrite <- (item_brg p r (hd_error N)). f_equal. destruct N; reflexivity.
Qed.
Lemma opening_brg a N : opening (er_brg a) (map er_brg N) = opening a N.
Proof.
  unfold opening. change (in_vfr (er_brg a)) with (in_vfr a). change (speed_and_level (er_brg a)) with (speed_and_level a). change (r_speed (er_brg a)) with (r_speed a). destruct (in_vfr a).
  - destruct N as [|v N]; [reflexivity|]. cbn [map]. rewrite say_brg. reflexivity.
  - f_equal. destruct N as [|v N]; [reflexivity|]. exact (say_brg (v :: N) a).
Qed.
Lemma refile_recs v e a N : map er_brg (k_l e ++ [k_p e]) = a :: N ->
  element_texts (refile (core_final v e)) = words (opening (if v then set_r_rules RULE_V a else a) N).
Proof.
  intro E. unfold core_final. rewrite core_recs_eq. set (x := ades_rec _). destruct (k_l e ++ [k_p e]) as [|a0 l] eqn:El; [discriminate E|]. cbn [map] in E. injection E as Ea EN. subst a N.
  unfold refile. replace (upd_first v (a0 :: l) ++ [x]) with ((if v then set_r_rules RULE_V a0 else a0) :: l ++ [x]) by (destruct v; reflexivity).
  rewrite removelast_last, et_joined, words_filter, <- opening_brg. destruct v; [|reflexivity]. destruct a0; reflexivity.
Qed.
Lemma sa_any t p : wt t -> t_base t = F15_SPEED_ALTITUDE -> sa_eff t p = sa_eff t (set_r_rules RULE_I p).
Proof. intros W B. unfold sa_eff. destruct (sa_cut (t_sub t)) eqn:C; [destruct p; reflexivity|]. exfalso. destruct (sa_perf t p W B) as (a & E & _). unfold sa_eff in E. rewrite C in E. pose proof (sa_perf t (set_r_rules [] p) W B) as (b & E2 & _). unfold sa_eff in E2. rewrite C in E2. apply (f_equal r_rules) in E2. destruct p; discriminate E2. Qed.
Definition t_tok : token := first_token ($"T").
Lemma t_ok : tok_ok t_tok /\ t_base t_tok = F15_TRUNCATE. Proof. split; [apply first_ok; reflexivity|vm_compute; reflexivity]. Qed.
Lemma by_text_ok l : Forall tok_ok l -> by_text l. Proof. intros H t Ht. rewrite Forall_forall in H. destruct (H t Ht) as [W _]. symmetry. exact W. Qed.
Lemma rewritten ss : derives XStart ss -> Forall tok_ok (yield ss) ->
  exists ss', derives XStart ss' /\ Forall tok_ok (yield ss') /\ element_texts (refile (result_of G ss)) = map t_text (yield ss') /\ result_of G ss' = result_of G ss.
Proof.
  intros D T. destruct ss as [|s r]; [discriminate D|]. destruct D as (F & Pr & D). destruct s; try discriminate F; cbn [after proper] in *; rewrite yield_cons in T; cbn [tokens_of app] in T; inversion T as [|? ? [Wt Ot] T2]; subst.
  - (* speed and level *)
    destruct Pr as (Bt & Lt & _). set (a := sa_eff t adep0). set (k0 := k_with core0 a). pose proof (PO_sa t adep0 Wt Bt Lt) as Pa. fold a in Pa.
    destruct (all_units (length r) r (le_n _) XAdep 1 k0 (after_simple _ _ (or_intror (or_intror (or_intror (or_intror eq_refl)))) D) D T2 Pa (sa_rules t adep0 Wt Bt)) as (ss' & q & N & Fi).
    assert (Nv : starts_vfr r = false) by (destruct r as [|s r]; [reflexivity|]; destruct D as (F' & _); destruct s; try discriminate F'; reflexivity).
    destruct (hd_vfr _ _ _ _ _ _ _ Fi) as [[V1 _]|(_ & _ & Eq)]; [congruence|]. change (k_p k0) with a in Eq. subst q.
    assert (Ev : forall t' r', t_base t' = F15_SPEED_ALTITUDE -> is_vfr_first (yield (SFirst t' :: r')) = false) by (intros t' r' B'; rewrite yield_cons; cbn [tokens_of app is_vfr_first]; rewrite B'; reflexivity).
    destruct (sl_ok a Pa) as (K1 & K2 & K3 & K4).
    assert (Ea : sa_eff (sl_tok a) adep0 = a).
    { rewrite (sa_any (sl_tok a) adep0 (proj1 K1) K2), K4 by reflexivity. pose proof (sa_copy t (set_r_rules RULE_I adep0) Wt Bt eq_refl) as H. rewrite <- (sa_any t adep0 Wt Bt) in H. symmetry. exact H. }
    set (tl := match ss' with [] => [STrunc t_tok] | _ => ss' end). exists (SFirst (sl_tok a) :: tl).
    destruct t_ok as [Tt Bt'].
    assert (Dtl : derives XAdep tl) by (unfold tl; destruct ss' as [|s' ss']; [split; [reflexivity|]; split; [split; [exact Bt'|reflexivity]|reflexivity]|exact (f_der _ _ _ _ _ _ _ Fi)]).
    split; [|split; [|split]].
    + split; [reflexivity|]. split; [|exact Dtl]. split; [exact K2|]. split; [exact K3|]. intro E. apply (yield_nil _ _ Dtl) in E. unfold tl in E. destruct ss'; discriminate E.
    + rewrite yield_cons. cbn [tokens_of app]. constructor; [exact K1|]. unfold tl. destruct ss' as [|s' ss']; [constructor; [exact Tt|constructor]|exact (f_tok _ _ _ _ _ _ _ Fi)].
    + unfold result_of. rewrite (Ev t r Bt). change (effs G 0 (SFirst t :: r) core0) with (effs G 1 r k0). pose proof (f_rec _ _ _ _ _ _ _ Fi) as Er. unfold recs in Er. change (map er_brg (k_l k0)) with (@nil rrec) in Er. cbn [app] in Er.
      rewrite (refile_recs false _ _ _ Er). change (k_p k0) with a. unfold opening. rewrite in_vfr_fin. replace (r_rules a) with RULE_I by (symmetry; exact (sa_rules t adep0 Wt Bt)). change (pstr_eqb RULE_I ($"VFR")) with false. cbv iota.
      rewrite fin_sl. rewrite yield_cons. cbn [tokens_of app map]. change (words (speed_and_level a :: ?x)) with (element_texts (speed_and_level a) ++ words x). destruct K1 as [_ O]. change (t_text (sl_tok a)) with (speed_and_level a) in *. rewrite O. cbn [app]. f_equal.
      pose proof (f_next _ _ _ _ _ _ _ Fi) as Nx. pose proof (f_say _ _ _ _ _ _ _ Fi) as Es. change (k_p k0) with a in Es. unfold tl. destruct ss' as [|s' ss'], N as [|n N]; try destruct Nx; [reflexivity|exact Es].
    + unfold result_of. rewrite (Ev t r Bt), (Ev _ tl K2). change (effs G 0 (SFirst t :: r) core0) with (effs G 1 r k0). cbn [effs eff1 tokens_of length Nat.add]. change (k_p core0) with adep0. rewrite Ea. fold k0.
      pose proof (f_eff _ _ _ _ _ _ _ Fi 1) as Sm. assert (St : same (effs G 1 tl k0) (effs G 1 r k0)) by (unfold tl; destruct ss'; [exact Sm|exact Sm]). destruct St. now apply final_shift.
  - (* speed/VFR *)
    set (k0 := vfr_k 0 t core0). destruct (vfr_core t adep0 Wt Pr) as [C S]. destruct (fields _ _ _ _ _ _ _ _ C) as (Q1 & Q2 & Q3 & Q4 & Q5 & Q6 & Q7). destruct (vfr_word t Wt Pr) as [_ Et].
    pose proof (PO_vfr t adep0 Wt Pr) as Pv.
    assert (Ev : forall r', is_vfr_first (yield (SFirstVfr t :: r')) = true) by (intros r'; rewrite yield_cons; cbn [tokens_of app is_vfr_first]; rewrite Pr; reflexivity).
    set (v := copy_perf (vfr_eff t adep0) adep0).
    assert (Vs : r_speed (set_r_rules RULE_V (er_brg v)) ++ $"VFR" = t_text t). { rewrite Et, <- S. unfold v. destruct (vfr_eff t adep0); reflexivity. }
    assert (Vi : in_vfr (set_r_rules RULE_V (er_brg v)) = true) by reflexivity.
    destruct (text_part KVfr r D) as [->|(txt & ss1 & -> & Nt & Sc & D1 & Br)].
    + exists [SFirstVfr t]. split; [split; [reflexivity|]; split; [exact Pr|reflexivity]|]. split; [constructor; [split; assumption|constructor]|]. split; [|reflexivity].
      unfold result_of. rewrite Ev. change (effs G 0 [SFirstVfr t] core0) with k0. rewrite (refile_recs true k0 (er_brg v) [er_brg (vfr_eff t adep0)] eq_refl). unfold opening. rewrite Vi, Vs.
      change (r_break (er_brg (vfr_eff t adep0))) with (r_break (vfr_eff t adep0)). rewrite Q5. cbn [words flat_map say]. rewrite Ot. reflexivity.
    + rewrite yield_cons in T2. cbn [tokens_of] in T2. apply Forall_app in T2 as [T1 T2].
      set (p0 := vfr_eff t adep0) in *. set (k2 := k_with k0 (texts txt p0)). pose proof (texts_core txt p0) as Ex. injection Ex as E1 E2 E3 E4 E5 E6 E7.
      destruct (all_units (length ss1) ss1 (le_n _) (XBreak KVfr) (1 + length txt) k2 Br D1 T2) as (ss1' & q1 & N1 & Fi).
      { apply PO_texts. exact Pv. } { unfold k2. rewrite with_p. cbn [rules_ok]. rewrite E6. exact Q7. }
      pose proof (f_der _ _ _ _ _ _ _ Fi) as D1'.
      exists (SFirstVfr t :: SText txt :: ss1'). split; [|split; [|split]].
      * split; [reflexivity|]. split; [exact Pr|]. split; [reflexivity|]. split; [|exact D1']. cbn [proper]. split; [exact Nt|].
        destruct ss1 as [|s1 ss1].
        -- rewrite (f_nil _ _ _ _ _ _ _ Fi eq_refl). exact Sc.
        -- assert (Ne : ss1' <> []). { pose proof (f_ne _ _ _ _ _ _ _ Fi) as H. destruct D1 as (F1 & _). destruct s1; try discriminate F1; exact H. }
           apply (section_resume KVfr (yield (s1 :: ss1))); [apply break_resumes; [exact D1|discriminate]|now apply break_resumes|exact Sc].
      * rewrite !yield_cons. cbn [tokens_of app]. constructor; [split; assumption|]. apply Forall_app. split; [exact T1|exact (f_tok _ _ _ _ _ _ _ Fi)].
      * unfold result_of. rewrite Ev. change (effs G 0 (SFirstVfr t :: SText txt :: ss1) core0) with (effs G (1 + length txt) ss1 k2). pose proof (f_rec _ _ _ _ _ _ _ Fi) as Er. unfold recs in Er. change (map er_brg (k_l k2)) with [er_brg v] in Er. cbn [app] in Er.
        rewrite (refile_recs true _ _ _ Er). unfold opening. rewrite Vi, Vs. destruct (fields _ _ _ _ _ _ _ _ (fin_core q1 (k_p k2))) as (_ & _ & _ & _ & Fb & _). rewrite Fb.
        change (k_p k2) with (texts txt p0). rewrite !yield_cons, !map_app. change (words (?x :: ?y :: ?l)) with (element_texts x ++ element_texts y ++ words l). rewrite Ot, (text_words txt p0 Q5 T1). cbn [tokens_of map].
        pose proof (f_say _ _ _ _ _ _ _ Fi) as Es. change (k_p k2) with (texts txt p0) in Es. rewrite Es. reflexivity.
      * unfold result_of. rewrite !Ev. change (effs G 0 (SFirstVfr t :: SText txt :: ss1) core0) with (effs G (1 + length txt) ss1 k2). change (effs G 0 (SFirstVfr t :: SText txt :: ss1') core0) with (effs G (1 + length txt) ss1' k2).
        destruct (f_eff _ _ _ _ _ _ _ Fi (1 + length txt)). now apply final_shift.
Qed.

Theorem refiled depth depth' f s : parse_field15 G depth f = Ok true s -> 3 * n_tokens (refile (e_recs (s_ers s))) <= depth' + 1 ->
  exists s', parse_field15 G depth' (refile (e_recs (s_ers s))) = Ok true s' /\ same_sequence (s_ers s) (s_ers s').
Proof.
  intros H Hd. destruct (roles_steps G f depth s H) as (ss & D & Y & _ & _ & Es). rewrite Es in *. cbn [e_recs] in *.
  destruct (rewritten ss D) as (ss' & D' & T' & Et & Er); [rewrite Y; apply field_ok|].
  destruct (parse_steps G depth' ss' (refile (result_of G ss)) D' (by_text_ok _ T') Et Hd) as (s' & P & E1 & E2 & E3).
  exists s'. split; [exact P|]. rewrite Er in E1, E3. rewrite <- Es. exact (er_same_seq _ s' (result_of G ss) Es E1 E2 E3).
Qed.
Lemma item_place p r n p' r' n' : same_but_place p p' -> same_but_place r r' -> match n, n' with Some x, Some x' => same_but_place x x' | None, None => True | _, _ => False end ->
  item p r n = item p' r' n'.
Proof.
  unfold same_but_place. intros Hp Hr Hn. decompose [and] Hp. decompose [and] Hr. unfold item, lead, stay_words, climb_words, needs_speed, speed_and_level, same_speed, in_vfr.
  assert (Nb : forall b, next_of b n = next_of b n').
  { intro b. destruct n as [x|], n' as [x'|]; try destruct Hn; [|reflexivity]. unfold next_of, of_base. intuition congruence. }
  rewrite !Nb. repeat match goal with H : _ r = _ r' |- _ => rewrite H; clear H | H : _ p = _ p' |- _ => rewrite H; clear H end. reflexivity.
Qed.
Lemma say_place : forall N N', Forall2 same_but_place N N' -> forall p p', same_but_place p p' -> say p N = say p' N'.
Proof.
  induction 1 as [|r r' N N' Hr HN IH]; intros p p' Hp; [reflexivity|]. cbn [say]. rewrite (IH r r' Hr). f_equal. apply item_place; [assumption|assumption|]. destruct HN; [exact I|assumption].
Qed.
Lemma refile_place l l' : Forall2 same_but_place l l' -> refile l = refile l'.
Proof.
  intro H. destruct H as [|a a' l l' Ha Hl]; [reflexivity|]. unfold refile. f_equal. f_equal.
  assert (Hr : Forall2 same_but_place (removelast l) (removelast l')).
  { clear Ha. induction Hl as [|x x' l l' Hx Hl IH]; [constructor|]. destruct Hl as [|y y' l l' Hy Hl]; [constructor|]. cbn [removelast] in *. constructor; assumption. }
  set (m := removelast l) in *. set (m' := removelast l') in *. clearbody m m'. unfold opening, in_vfr, speed_and_level.
  assert (E : r_rules a = r_rules a' /\ r_speed a = r_speed a' /\ r_alt a = r_alt a') by (unfold same_but_place in Ha; tauto). destruct E as (-> & -> & ->).
  destruct (pstr_eqb _ _).
  - destruct Hr as [|v v' m m' Hv Hm]; [reflexivity|]. rewrite (say_place _ _ Hm _ _ Hv). assert (E : r_break v = r_break v') by (unfold same_but_place in Hv; tauto). rewrite E. reflexivity.
  - f_equal. destruct Hr as [|v v' m m' Hv Hm]; [reflexivity|]. apply say_place; [constructor; assumption|exact Ha].
Qed.
Lemma place_sym r r' : same_but_place r r' -> same_but_place r' r. Proof. unfold same_but_place. intuition congruence. Qed.
Lemma place_trans a b c : same_but_place a b -> same_but_place b c -> same_but_place a c. Proof. unfold same_but_place. intros H K. decompose [and] H. decompose [and] K. repeat split; congruence. Qed.
Lemma f2_sym {A} (R : A -> A -> Prop) l l' : (forall a b, R a b -> R b a) -> Forall2 R l l' -> Forall2 R l' l. Proof. intros S H. induction H; constructor; auto. Qed.
Lemma f2_trans {A} (R : A -> A -> Prop) : (forall a b c, R a b -> R b c -> R a c) -> forall l m n, Forall2 R l m -> Forall2 R m n -> Forall2 R l n.
Proof. intros S l m n H. revert n. induction H; intros n K; inversion K; subst; constructor; eauto. Qed.
Lemma seq_sym a b : same_sequence a b -> same_sequence b a.
Proof. intros (A & B & C). split; [now apply (f2_sym _ _ _ place_sym)|]. split; [now apply (f2_sym _ _ _ place_sym)|now symmetry]. Qed.
Lemma seq_trans a b c : same_sequence a b -> same_sequence b c -> same_sequence a c.
Proof. intros (A & B & C) (A' & B' & C'). split; [now apply (f2_trans _ place_trans _ (e_recs b))|]. split; [now apply (f2_trans _ place_trans _ (e_errs b))|congruence]. Qed.
Theorem refiled_again s s' : same_sequence (s_ers s) (s_ers s') -> refile (e_recs (s_ers s)) = refile (e_recs (s_ers s')).
Proof. intros (H & _). now apply refile_place. Qed.
Theorem refiled_stable depth depth' f s s' : parse_field15 G depth f = Ok true s -> parse_field15 G depth' (refile (e_recs (s_ers s))) = Ok true s' ->
  refile (e_recs (s_ers s')) = refile (e_recs (s_ers s)).
Proof. intros H H'. destruct (refiled depth (3 * n_tokens (refile (e_recs (s_ers s)))) f s H ltac:(lia)) as (z & P & S). rewrite <- (Limit.same_result _ _ _ _ _ _ _ _ P H'), P in H'. injection H' as <-. symmetry. now apply refiled_again. Qed.
Theorem normal_form depth depth' f g s s' : parse_field15 G depth f = Ok true s -> parse_field15 G depth' g = Ok true s' ->
  (refile (e_recs (s_ers s)) = refile (e_recs (s_ers s')) <-> same_sequence (s_ers s) (s_ers s')).
Proof.
  intros H H'. split; [|apply refiled_again]. intro E. set (d := 3 * n_tokens (refile (e_recs (s_ers s)))).
  destruct (refiled depth d f s H ltac:(unfold d; lia)) as (z & P & S). destruct (refiled depth' d g s' H') as (z' & P' & S'); [rewrite <- E; unfold d; lia|].
  rewrite <- E, P in P'. injection P' as <-. exact (seq_trans _ _ _ S (seq_sym _ _ S')).
Qed.
End G.
