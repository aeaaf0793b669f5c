(** * Split: cutting a field in two (lemmas behind PropsSplit). *)
From Coq Require Import ZArith NArith List Bool String Lia.
From Coq Require Import Floats.SpecFloat.
From Coq Require Import ZifyBool ZifyNat ZifyN.
From Verif Require Import PyBase PyFloat Enums ErrorTable Regex SyntaxTable Syntax Tokenizer Ers Utils Parser.
From Verif Require Import SpecTokenizer TokenizerProofs SpecNum ParserPrims PerfEq PointEq SyntaxProofs Trace ParseTrace ParserFacts SpecParser SpecGrammar GrammarSem Grammar SpecAccept Accept Describe AcceptFacts SpecLayout Layout SpecViable Viable Unambiguous SpecRemoval Removal SpecSplit.
Import List ListNotations.
Local Open Scope list_scope.
Local Open Scope nat_scope.

(** ** A section without what comes after it *)
Lemma point_no_end t k : wt t -> t_base t = F15_POINT -> ends k (t_sub t) = false.
Proof.
  intros W B. assert (R : all_rows F15_POINT (fun sb _ => match sb with F15_SB_IFR | F15_SB_GAT | F15_SB_IFPSTART => false | _ => true end) = true) by (vm_compute; reflexivity).
  destruct (all_rows_spec F15_POINT _ t ltac:(discriminate) ltac:(discriminate) W B R) as (sh & Hs & K). clear R. destruct k, (t_sub t); try discriminate K; reflexivity.
Qed.
Lemma section_cut k : forall txt rest, Forall wt txt -> section k txt rest -> section k txt [].
Proof.
  induction txt as [|t txt IH]; intros rest W H; cbn [section] in *; [reflexivity|]. inversion W as [|? ? W1 W2]; subst. destruct H as [N H]. split; [exact N|].
  destruct (ends k (t_sub t)) eqn:Ee; [|exact (IH _ W2 H)]. rewrite app_nil_r. destruct (resume k (txt ++ rest)) eqn:Er; [| |contradiction].
  - assert (K : resume k txt = Inside); [|rewrite K; exact (IH _ W2 H)]. destruct txt as [|x txt]; [reflexivity|]. cbn [app] in Er. cbn [resume] in *. destruct (t_base x) eqn:Bx; try reflexivity.
    destruct k; try discriminate Er. destruct txt as [|y txt].
    + cbn [section] in H. destruct H as [_ H]. inversion W2; subst. rewrite (point_no_end x KVfr) in H by assumption. subst rest. discriminate Er.
    + cbn [app] in Er. destruct (t_base y); try reflexivity. destruct txt as [|z txt]; cbn [app] in Er; [destruct rest as [|z rest]; [discriminate|]|]; destruct (t_base z); discriminate Er.
  - subst txt. reflexivity.
Qed.

Lemma section_ne k : forall txt rest, section k txt rest -> rest <> [] -> txt <> [].
Proof. intros [|] rest H; [intro N; contradiction|discriminate]. Qed.
(** The steps before an element that begins something new are a field. *)
Lemma cut_steps ss1 s ss2 : derives XStart (ss1 ++ s :: ss2) -> Forall wt (yield ss1) -> 2 <= length ss1 ->
  may_end (fold_left after ss1 XStart) = true -> fold_left after ss1 XStart <> XEnd -> derives XStart ss1.
Proof.
  intros D W Hl Hm Hx. rewrite <- (app_nil_r ss1). destruct (halfway (fold_left after ss1 XStart)) eqn:Hh.
  - destruct (snoc_ind_ctx ss1) as [->|(ss0 & x & ->)]; [discriminate|]. destruct (derives_last _ _ _ _ D) as (F & P). rewrite fold_left_app in *. cbn [fold_left] in *.
    rewrite app_nil_r. rewrite <- app_assoc in D. destruct (fold_left after ss0 XStart) as [| | | | | | | | |k0|[]| | |] eqn:Ec; destruct x; try discriminate F; cbn [after] in Hm, Hh; try discriminate;
      try (destruct (begins (t_sub t)); discriminate).
    assert (Ds : derives (XText k0) [SText txt]).
    { cbn [derives]. split; [exact F|]. split; [|reflexivity]. cbn [proper] in *. destruct P as (P1 & P2). split; [exact P1|]. refine (section_cut _ _ _ _ P2).
      rewrite yield_app, Forall_app in W. destruct W as (_ & W). unfold yield in W. cbn [flat_map tokens_of] in W. rewrite app_nil_r in W. exact W. }
    apply (exchange ss0 XStart _ [SText txt] D); rewrite ?Ec; [exact Ds|now left|discriminate| |discriminate].
    left. cbn [proper] in P. destruct P as (P1 & _). unfold yield. cbn [flat_map tokens_of]. rewrite app_nil_r. exact P1.
  - apply (exchange ss1 XStart _ [] D); auto. intros _. exact I.
Qed.

Section G.
Variable G : geodesic.

(** ** What later steps do to the records *)
Definition from_toks (T : list token) (r : rrec) : Prop := In (r_start r) (map t_start T).
Definition Grow (P : Z -> Prop) (A : list rrec) (k : core) : Prop :=
  exists N, map er_brg (k_l k) = map er_brg A ++ N /\ Forall (fun r => P (r_start r)) N /\ P (r_start (k_p k)).
Lemma start_brg r : r_start (er_brg r) = r_start r. Proof. destruct r; reflexivity. Qed.
Lemma start_copy q r : r_start (copy_perf q r) = r_start r. Proof. destruct q, r; reflexivity. Qed.
Lemma start_carry q r : r_start (carry q r) = r_start r. Proof. destruct q, r; reflexivity. Qed.
Lemma start_rules x r : r_start (set_r_rules x r) = r_start r. Proof. destruct r; reflexivity. Qed.
Lemma start_pt t r : r_start (pt_rec G t r) = r_start r. Proof. unfold pt_rec, move_bd. destruct r. destruct (t_sub t); reflexivity. Qed.
Lemma start_sa t r : r_start (sa_eff t r) = r_start r. Proof. unfold sa_eff. destruct (sa_cut _); destruct r; reflexivity. Qed.
Lemma start_climb t r : r_start (climb_eff t r) = r_start r.
Proof. unfold climb_eff, sap_eff, saa_eff. destruct (t_base t); destruct (saa_cut (t_sub t)) as [[[]]|]; destruct (sap_cut (t_sub t)) as [[]|]; destruct r; reflexivity. Qed.
Lemma start_texts : forall txt r, r_start (texts txt r) = r_start r.
Proof.
  induction txt as [|t txt IH]; intro r; [reflexivity|]. change (texts (t :: txt) r) with (texts txt (append_break_text (t_text t) r)). rewrite IH.
  unfold append_break_text. destruct (pstr_eqb _ _); destruct r; reflexivity.
Qed.
Lemma start_vfr t r : wt t -> t_base t = F15_SPEED_VFR -> r_start (vfr_eff t r) = t_start t.
Proof. intros W B. destruct (vfr_perf t r W B) as (a & -> & _). destruct r, t; reflexivity. Qed.
Definition recording (s : step) : bool :=
  match s with SFirst _ | STrunc _ | SSpeed _ _ | SText _ | SClimbTo _ _ | SStay _ _ _ => false | _ => true end.
(** A step that records pushes the last record, changed only by speed/VFR. *)
Lemma eff_start c s r j k : proper c s r -> Forall wt (tokens_of s) -> recording s = true -> from_toks (tokens_of s) (k_p (eff1 G j s k)).
Proof.
  intros P W Hr. unfold from_toks. destruct s; try discriminate Hr; cbn [eff1 k_p k_with add_k rule_k pt_k vfr_k tokens_of map retype proper] in *;
    rewrite ?start_pt, ?start_rules, ?start_carry; try (now left); try (right; now left).
  all: try (destruct (carry (k_p k) (tok_rec t)) eqn:Ec; cbn; apply (f_equal r_start) in Ec; rewrite start_carry in Ec; cbn in Ec; left; exact Ec).
  - inversion W; subst. rewrite start_vfr by assumption. now left.
  - inversion W as [|? ? _ W1]; subst. inversion W1; subst. rewrite start_vfr by tauto. right. now left.
  - right. right. now left.
Qed.
Lemma eff_keep s j k : recording s = false -> k_l (eff1 G j s k) = k_l k /\ r_start (k_p (eff1 G j s k)) = r_start (k_p k).
Proof.
  destruct s; try discriminate; intros _; cbn [eff1 k_with k_l k_p]; rewrite ?start_sa, ?start_texts, ?start_climb; (split; [reflexivity|]); try reflexivity.
Qed.
Lemma eff_push s j k : recording s = true -> exists q, map er_brg (k_l (eff1 G j s k)) = map er_brg (k_l k) ++ [er_brg q] /\ r_start q = r_start (k_p k) /\
  (match s with SFirstVfr _ | SVfr _ _ => True | _ => q = k_p k end).
Proof.
  destruct s; try discriminate; intros _; cbn [eff1 k_with k_l k_p add_k rule_k pt_k vfr_k]; rewrite ?prev_brg, map_app.
  all: eexists; split; [reflexivity|]; split; [rewrite ?start_copy; reflexivity|exact I || reflexivity].
Qed.
Lemma Grow_step (P : Z -> Prop) A c s r j k : proper c s r -> Forall wt (tokens_of s) -> (forall t, In t (tokens_of s) -> P (t_start t)) -> Grow P A k -> Grow P A (eff1 G j s k).
Proof.
  intros Pr W HP (N & E & HN & Hp). destruct (recording s) eqn:Hr.
  - destruct (eff_push s j k Hr) as (q & Eq & Es & _). exists (N ++ [er_brg q]). split; [now rewrite Eq, E, app_assoc|]. split.
    + apply Forall_app. split; [exact HN|]. constructor; [|constructor]. rewrite start_brg, Es. exact Hp.
    + pose proof (eff_start c s r j k Pr W Hr) as K. unfold from_toks in K. apply in_map_iff in K as (t & <- & Ht). now apply HP.
  - destruct (eff_keep s j k Hr) as (E1 & E2). exists N. rewrite E1, E2. auto.
Qed.
Lemma Grow_steps (P : Z -> Prop) A more : forall ss c j k, derives c (ss ++ more) -> Forall wt (yield ss) -> (forall t, In t (yield ss) -> P (t_start t)) -> Grow P A k -> Grow P A (effs G j ss k).
Proof.
  induction ss as [|s r IH]; intros c j k D W HP H; [exact H|]. cbn [app effs derives] in *. destruct D as (F & Pr & D). rewrite yield_cons, Forall_app in W. destruct W as (W1 & W2).
  apply (IH (after c s)); auto.
  - intros t Ht. apply HP. rewrite yield_cons. apply in_or_app. now right.
  - apply (Grow_step P A c s (yield (r ++ more))); auto. intros t Ht. apply HP. rewrite yield_cons. apply in_or_app. now left.
Qed.

(** ** The records before and after a cut *)
Lemma upd_brg v l l' : map er_brg l = map er_brg l' -> map er_brg (upd_first v l) = map er_brg (upd_first v l').
Proof.
  destruct v; [|exact (fun H => H)]. destruct l as [|a l], l' as [|a' l']; try discriminate; [reflexivity|]. cbn [upd_first list_upd map]. intro H. assert (H1 : er_brg a = er_brg a') by exact (f_equal (hd (er_brg a)) H).
  f_equal; [|exact (f_equal (@tl _) H)]. assert (Q : forall r, er_brg (set_r_rules RULE_V r) = set_r_rules RULE_V (er_brg r)) by (intros []; reflexivity). now rewrite !Q, H1.
Qed.
Lemma upd_starts v l : map r_start (upd_first v l) = map r_start l.
Proof. destruct v; [|reflexivity]. destruct l as [|a l]; [reflexivity|]. cbn [upd_first list_upd map]. now rewrite start_rules. Qed.
Lemma brg_starts l l' : map er_brg l = map er_brg l' -> map r_start l = map r_start l'.
Proof. intro E. apply (f_equal (map r_start)) in E. rewrite !map_map in E. rewrite (map_ext _ r_start start_brg l), (map_ext _ r_start start_brg l') in E. exact E. Qed.
Lemma starts_Forall (P : Z -> Prop) l l' : map r_start l = map r_start l' -> Forall (fun r => P (r_start r)) l -> Forall (fun r => P (r_start r)) l'.
Proof.
  revert l'. induction l as [|a l IH]; intros [|b l'] E H; try discriminate; [constructor|]. cbn [map] in E. injection E as E1 E2. inversion H; subst. constructor; [now rewrite <- E1|now apply IH].
Qed.
Lemma map_app_eq {X Y} (h : X -> Y) : forall l A B, map h l = A ++ B -> exists l1 l2, l = l1 ++ l2 /\ map h l1 = A /\ map h l2 = B.
Proof.
  intros l A. revert l. induction A as [|a A IH]; intros l B E; [exists [], l; auto|]. destruct l as [|x l]; [discriminate|]. cbn [map app] in E. injection E as E1 E2.
  destruct (IH _ _ E2) as (l1 & l2 & -> & <- & <-). exists (x :: l1), l2. cbn. now rewrite E1.
Qed.
Lemma ades_aero rs : aerodrome ($"ADES") (ades_rec rs).
Proof. unfold ades_rec, aerodrome, set_r_rules, dummy. cbn. auto. Qed.
(** [A] are the records of the steps before, [k] the state at the end. *)
Lemma divide v z A k : A <> [] -> Grow (fun x => (z <= x)%Z) A k -> Forall (fun r => (r_start r < z)%Z) A ->
  exists U l, divided z (core_final v k) U (l ++ [k_p k]) (ades_rec (core_recs v k)) /\ core_recs v k = U ++ l ++ [k_p k] /\ map er_brg U = map er_brg (upd_first v A) /\
    map er_brg (k_l k) = map er_brg A ++ map er_brg l.
Proof.
  intros Na (N & E & HN & Hp) HA. pose proof E as E0. apply map_app_eq in E as (l1 & l2 & El & E1 & E2).
  assert (Ne : l1 <> []) by (intros ->; destruct A; [congruence|discriminate]). destruct l1 as [|a l1]; [congruence|].
  assert (Er : core_recs v k = upd_first v (a :: l1) ++ (l2 ++ [k_p k])).
  { rewrite core_recs_eq, El, <- app_assoc. apply upd_first_app. }
  exists (upd_first v (a :: l1)), l2. split; [|split; [exact Er|split; [now apply upd_brg|now rewrite E2]]].
  split; [unfold core_final; rewrite Er at 1; now rewrite <- app_assoc|]. split; [apply ades_aero|]. split.
  - apply (starts_Forall (fun x => (x < z)%Z) A); [|exact HA]. rewrite upd_starts. symmetry. now apply brg_starts.
  - apply Forall_app. split; [|constructor; [exact Hp|constructor]]. apply (starts_Forall (fun x => (z <= x)%Z) N); [|exact HN].
    rewrite <- E2, map_map. apply map_ext, start_brg.
Qed.
Lemma below ss1 more z : derives XStart (ss1 ++ more) -> Forall wt (yield ss1) -> (forall t, In t (yield ss1) -> (t_start t < z)%Z) -> (0 < z)%Z ->
  Forall (fun r => (r_start r < z)%Z) (k_l (effs G 0 ss1 core0) ++ [k_p (effs G 0 ss1 core0)]).
Proof.
  intros D W Ht Hz. assert (K : Grow (fun x => (x < z)%Z) [] (effs G 0 ss1 core0)).
  { apply (Grow_steps _ [] more ss1 XStart 0 core0 D W Ht). exists []. split; [reflexivity|]. split; [constructor|exact Hz]. }
  destruct K as (N & E & HN & Hp). cbn [map app] in E. apply Forall_app. split; [|constructor; [exact Hp|constructor]].
  apply (starts_Forall (fun x => (x < z)%Z) N); [|exact HN]. rewrite <- E, map_map. apply map_ext, start_brg.
Qed.

(** The token at a place in the field, and the others. *)
Lemma field_places f pre q rest : field_tokens f = pre ++ q :: rest -> pre <> [] ->
  (forall t, In t pre -> (t_start t < t_start q)%Z) /\ (forall t, In t (q :: rest) -> (t_start q <= t_start t)%Z) /\ (0 < t_start q)%Z.
Proof.
  intros E Np. assert (O := order_nth f). split; [|split].
  - intros t Ht. apply In_nth_error in Ht as (i & Hi). apply (O i (length pre)).
    + rewrite E, nth_error_app1; [exact Hi|]. apply nth_error_Some. congruence.
    + rewrite E, nth_error_app2, Nat.sub_diag by lia. reflexivity.
    + apply nth_error_Some. congruence.
  - intros t [->|Ht]; [lia|]. apply In_nth_error in Ht as (i & Hi). apply Z.lt_le_incl. apply (O (length pre) (length pre + S i)).
    + rewrite E, nth_error_app2, Nat.sub_diag by lia. reflexivity.
    + rewrite E, nth_error_app2 by lia. replace (length pre + S i - length pre) with (S i) by lia. exact Hi.
    + lia.
  - destruct (field_order f) as (Hs & Hp). rewrite E in Hs, Hp. destruct pre as [|a pre]; [congruence|]. cbn [app] in Hs, Hp. apply Sorted.StronglySorted_inv in Hs as (_ & Hs).
    rewrite Forall_forall in Hs. specialize (Hs q). inversion Hp as [|? ? Ha _]; subst. 
    assert (In q (pre ++ q :: rest)) by (apply in_or_app; right; now left). specialize (Hs H).
    assert (Z0 : (0 <= t_start a)%Z).
    { assert (Ia : In a (field_tokens f)) by (rewrite E; now left). unfold field_tokens in Ia. rewrite tokenize_string_toks in Ia. cbn [tk_list] in Ia. apply in_map_iff in Ia as (t & <- & Ht).
      destruct (tkz_addresses _ _ _ (toks_tokenization _ _) t Ht) as ((B1 & _) & _). exact B1. }
    lia.
Qed.
Ltac one_of Er :=
  match type of Er with
  | _ = ?a ++ _ :: _ => destruct a as [|? [|? [|? a]]]; cbn [app] in Er; try discriminate Er; try (injection Er; clear Er; intros; subst)
  end.
Lemma anew_step c s r a t b : proper c s r -> follows c s = true -> rstep s = a ++ (t, ROut) :: b -> begins_anew t ->
  a = [] /\ (recording s = true \/ exists t, s = STrunc t) /\ may_end c = true /\ c <> XEnd /\ (c = XStart -> False) /\ (match s with SFirstVfr _ | SVfr _ _ => False | _ => True end).
Proof.
  intros P F E B. unfold begins_anew in B. destruct s; cbn [rstep tokens_of map] in E; try (apply text_role in E; discriminate); one_of E; cbn [proper] in P; try discriminate;
    repeat match goal with H : _ /\ _ |- _ => destruct H | H : _ \/ _ |- _ => destruct H end;
    try (exfalso; match goal with H : t_base ?x = _ |- _ => rewrite H in B; cbn in B; repeat (destruct B as [B|B]; [discriminate B|]); exact B end); try (destruct a; discriminate).
  all: (split; [reflexivity|]); (split; [first [left; reflexivity|right; eexists; reflexivity]|]).
  all: destruct c as [| | | | | | | | |[]|[]| | |]; try discriminate F; repeat split; discriminate.
Qed.

Lemma wt_by L : by_text L -> Forall wt L.
Proof. intro B. apply Forall_forall. intros t Ht. symmetry. exact (B t Ht). Qed.
Theorem cut_field depth depth' f s pre q rest g : parse_field15 G depth f = Ok true s -> field_roles f = pre ++ (q, ROut) :: rest -> begins_anew q -> 2 <= length pre ->
  element_texts g = wordsof pre -> 3 * n_tokens g <= depth' + 1 ->
  exists s' A B ades A' z', parse_field15 G depth' g = Ok true s' /\ divided (t_start q) (e_recs (s_ers s)) A B ades /\
    e_recs (s_ers s') = A' ++ [z'] /\ aerodrome ($"ADES") z' /\ Forall2 same_but_leg A A'.
Proof.
  intros H W Ba Hl Eg Hd. destruct (roles_steps G f depth s H) as (ss & D & Y & R & B & Es). rewrite R in W.
  destruct (locate ss XStart _ _ _ D W) as (c & st & ss1 & ss2 & a & b & Ess & Er & Ep & Et & F & P & D2 & Ec). rewrite Ess in D.
  destruct (anew_step _ _ _ _ _ _ P F Er Ba) as (-> & Hr & Hm & Hx & Hs & Hv). rewrite app_nil_r in Ep. cbn [app] in Er.
  rewrite Ess in B. pose proof B as B0. rewrite yield_app in B0. apply by_text_app_inv in B0 as (B1 & B2). pose proof (wt_by _ B1) as W1. pose proof (wt_by _ B2) as W2.
  assert (L2 : 2 <= length ss1).
  { subst pre. rewrite len_ryield in Hl. destruct ss1 as [|x [|y r]]; [cbn in Hl; lia| |cbn [length]; lia]. exfalso.
    cbn [app derives] in D. destruct D as (F1 & _). destruct x; try discriminate F1; cbn in Hl; lia. }
  assert (D1 : derives XStart ss1) by (apply (cut_steps ss1 st ss2); auto; rewrite <- Ec; auto).
  destruct (parse_steps G depth' ss1 g D1 B1) as (s' & Hp & E1 & E2 & E3); [now rewrite Eg, Ep, words_ryield|exact Hd|].
  set (k1 := effs G 0 ss1 core0) in *. set (v := is_vfr_first (yield ss1)).
  assert (N1 : yield ss1 <> []) by (intro K; subst pre; rewrite len_ryield, K in Hl; cbn in Hl; lia).
  assert (Ev : is_vfr_first (yield (ss1 ++ st :: ss2)) = v) by (unfold v; rewrite (vfr_first_same ss1 _ [] N1); now rewrite app_nil_r).
  assert (Ef : field_tokens f = yield ss1 ++ q :: (tl (tokens_of st) ++ yield ss2)).
  { rewrite <- Y, Ess, yield_app, yield_cons. f_equal. rewrite <- (rstep_fst st), Er. reflexivity. }
  destruct (field_places f _ _ _ Ef N1) as (Lo & Hi & Hz).
  assert (HA := below ss1 _ (t_start q) D W1 Lo Hz). fold k1 in HA.
  assert (Hi' : forall t, In t (yield (st :: ss2)) -> (t_start q <= t_start t)%Z).
  { intros t Ht. apply Hi. rewrite yield_cons in Ht. rewrite <- (rstep_fst st), Er in Ht |- *. exact Ht. }
  rewrite Es. cbn [e_recs]. rewrite Ess. unfold result_of. rewrite Ev, effs_app. fold k1. set (j := 0 + length (yield ss1)). cbn [effs].
  unfold result_of in E1. fold v k1 in E1. unfold core_final in E1. rewrite map_app in E1. apply map_app_eq in E1 as (A' & Z' & Er' & EA & EZ). destruct Z' as [|z' [|? ?]]; try discriminate EZ. cbn [map] in EZ.
  assert (Ez : aerodrome ($"ADES") z').
  { destruct (adep_ades G depth' g true s' Hp) as (a & mid & z & Ez & _ & Az & _). rewrite Er' in Ez. change (a :: mid ++ [z]) with ((a :: mid) ++ [z]) in Ez. apply app_inj_tail in Ez as (_ & ->). exact Az. }
  assert (Fin : forall U, map er_brg U = map er_brg (upd_first v (k_l k1 ++ [k_p k1])) -> Forall2 same_but_leg U A').
  { intros U EU. apply same_legs. rewrite (leg_brg _ _ EU), <- core_recs_eq. assert (Q : map er_leg A' = map er_leg (core_recs v k1)); [|now rewrite Q].
    assert (Q : forall l, map er_leg l = map er_brg (map er_rec l)) by (intro l; rewrite map_map; apply map_ext; intros []; reflexivity). now rewrite !Q, EA. }
  destruct Hr as [Hr|(t & ->)].
  - assert (Gr : Grow (fun x => (t_start q <= x)%Z) (k_l k1 ++ [k_p k1]) (effs G (j + length (tokens_of st)) ss2 (eff1 G j st k1))).
    { rewrite yield_cons, Forall_app in W2. destruct W2 as (W3 & W4). apply (Grow_steps _ _ [] ss2 (after c st)); rewrite ?app_nil_r; auto.
      - intros t Ht. apply Hi'. rewrite yield_cons. apply in_or_app. now right.
      - destruct (eff_push st j k1 Hr) as (r & Eq & _ & Hq). exists []. split; [|split; [constructor|]].
        + rewrite app_nil_r, map_app, Eq. f_equal. cbn [map]. destruct st; try contradiction; now rewrite Hq.
        + pose proof (eff_start c st _ j k1 P W3 Hr) as K. unfold from_toks in K. apply in_map_iff in K as (t & <- & Ht). apply Hi'. rewrite yield_cons. apply in_or_app. now left. }
    assert (Nk : k_l k1 ++ [k_p k1] <> []) by (destruct (k_l k1); discriminate).
    destruct (divide v (t_start q) _ _ Nk Gr HA) as (U & l & Dv & _ & EU & _).
    exists s', U, (l ++ [k_p (effs G (j + length (tokens_of st)) ss2 (eff1 G j st k1))]), (ades_rec (core_recs v (effs G (j + length (tokens_of st)) ss2 (eff1 G j st k1)))), A', z'. split; [exact Hp|]. split; [exact Dv|]. split; [exact Er'|]. split; [exact Ez|]. exact (Fin U EU).
  - assert (ss2 = []) as ->. { destruct ss2 as [|x r]; [reflexivity|]. cbn [derives after] in D2. destruct D2 as (K & _). discriminate K. }
    cbn [effs eff1]. exists s', (core_recs v k1), [], (ades_rec (core_recs v k1)), A', z'. split; [exact Hp|]. split; [|split; [exact Er'|split; [exact Ez|apply Fin; now rewrite core_recs_eq]]].
    split; [reflexivity|]. split; [apply ades_aero|]. split; [|constructor].
    apply (starts_Forall (fun x => (x < t_start q)%Z) (k_l k1 ++ [k_p k1])); [|exact HA]. now rewrite core_recs_eq, upd_starts.
Qed.

(** ** Going on from a point *)
Definition Tail (x y : list rrec) (k k' : core) : Prop :=
  exists B B', map er_brg (k_l k) = map er_brg x ++ B /\ map er_leg (k_l k') = map er_leg y ++ B' /\ map er_leg B = B' /\ er_leg (k_p k) = er_leg (k_p k').
Lemma Tail_add x y k k' q q' p p' js js' : Tail x y k k' -> er_leg q = er_leg q' -> er_leg p = er_leg p' -> Tail x y (mkK (k_l k ++ [q]) p js) (mkK (k_l k' ++ [q']) p' js').
Proof.
  intros (B & B' & E1 & E2 & E3 & _) Eq Ep. exists (B ++ [er_brg q]), (B' ++ [er_leg q']). cbn [k_l k_p]. rewrite !map_app, E1, E2, E3. cbn [map]. rewrite er_twice, Eq, <- !app_assoc. repeat split; auto.
Qed.
Lemma Tail_last x y k k' p p' js js' : Tail x y k k' -> er_leg p = er_leg p' -> Tail x y (mkK (k_l k) p js) (mkK (k_l k') p' js').
Proof. intros (B & B' & E1 & E2 & E3 & _) Ep. exists B, B'. auto. Qed.
Lemma Tail_pt x y t k k' : Tail x y k k' -> Tail x y (pt_k G t k) (pt_k G t k').
Proof.
  intros (B & B' & E1 & E2 & E3 & E4). exists B, B'. unfold pt_k. cbn [k_l k_p]. rewrite prev_brg. split; [exact E1|]. split; [|split; [exact E3|now apply leg_pt]].
  rewrite <- E2. apply leg_brg, prev_brg.
Qed.
Lemma leg_retype b sb p p' : er_leg p = er_leg p' -> er_leg (retype b sb p) = er_leg (retype b sb p').
Proof. intro E. assert (Q : forall r, er_leg (retype b sb r) = retype b sb (er_leg r)) by (intros []; reflexivity). now rewrite !Q, E. Qed.
Lemma leg_stay m p p' : er_leg p = er_leg p' -> er_leg (set_r_stay m p) = er_leg (set_r_stay m p').
Proof. intro E. assert (Q : forall r, er_leg (set_r_stay m r) = set_r_stay m (er_leg r)) by (intros []; reflexivity). now rewrite !Q, E. Qed.
Lemma Tail_step x y s j j' k k' : Tail x y k k' -> Tail x y (eff1 G j s k) (eff1 G j' s k').
Proof.
  intro H. pose proof H as (_ & _ & _ & _ & _ & E). assert (Ad : forall i i' t, Tail x y (add_k i t k) (add_k i' t k')) by (intros; unfold add_k; apply Tail_add; auto; now apply leg_carry).
  assert (Ru : forall a b ru, Tail x y a b -> Tail x y (rule_k ru a) (rule_k ru b)).
  { intros a b ru K. unfold rule_k, k_with. apply Tail_last; [exact K|]. destruct K as (_ & _ & _ & _ & _ & K). now apply leg_rules. }
  destruct s; cbn [eff1]; unfold k_with.
  all: try (apply Tail_last; [exact H|]).
  all: auto using leg_sa, leg_climb, leg_texts, leg_stay.
  - unfold vfr_k. apply Tail_add; [exact H|apply leg_copy; auto using leg_vfr|auto using leg_vfr].
  - apply Tail_pt. auto.
  - cbv zeta. unfold add_k. cbn [k_l k_p k_js]. apply Tail_add; [exact H|exact E|]. apply leg_retype. now apply leg_carry.
  - cbv zeta. unfold add_k. cbn [k_l k_p k_js]. apply Tail_add; [exact H|exact E|]. apply leg_retype. now apply leg_carry.
  - unfold vfr_k. apply Tail_add; [exact H|apply leg_copy; auto using leg_vfr|auto using leg_vfr].
  - apply Tail_pt. auto.
Qed.
Lemma Tail_steps x y : forall ss j j' k k', Tail x y k k' -> Tail x y (effs G j ss k) (effs G j' ss k').
Proof. induction ss as [|s ss IH]; intros j j' k k' H; [exact H|]. cbn [effs]. apply IH. now apply Tail_step. Qed.

(** The level in force is right. *)
Lemma last_some_in {X Y} (h : X -> option Y) y : forall l, last_some h l = Some y -> exists a x b, l = a ++ x :: b /\ h x = Some y.
Proof.
  induction l as [|x l IH]; [discriminate|]. cbn [last_some]. destruct (last_some h l) as [z|] eqn:E.
  - intro K. destruct (IH K) as (a & x' & b & -> & Hx). exists (x :: a), x', b. auto.
  - intro K. exists [], x, l. auto.
Qed.
Lemma mod_level st c r a t ro b m : proper c st r -> rstep st = a ++ (t, ro) :: b -> modifier (t, ro) = Some m -> fl_ok (snd m).
Proof.
  intros P Er M. destruct ro; [|discriminate M..]. rewrite mod_out in M.
  destruct st; cbn [rstep tokens_of map] in Er; try (apply text_role in Er; discriminate); one_of Er; cbn [proper] in P; try discriminate;
    repeat match goal with H : _ /\ _ |- _ => destruct H | H : _ \/ _ |- _ => destruct H end; try (destruct a; discriminate);
    repeat match goal with K : t_base ?x = _, M : context [t_base ?x] |- _ => rewrite K in M end; try discriminate M; injection M as <-; cbn [snd].
  all: try (match goal with K : levels_ok ?x |- _ => unfold levels_ok in K; repeat match goal with K' : t_base x = _ |- _ => rewrite K' in K end; first [exact K|apply K] end).
  all: intros _; reflexivity.
Qed.
Lemma level_in_force ss1 ss2 c m : derives c (ss1 ++ ss2) -> in_force (ryield ss1) = Some m -> fl_ok (snd m).
Proof.
  intros D E. apply last_some_in in E as (u & [t ro] & w & Eu & M).
  assert (E2 : ryield (ss1 ++ ss2) = u ++ (t, ro) :: (w ++ ryield ss2)) by (rewrite ryield_app, Eu, <- app_assoc; reflexivity).
  destruct (locate _ c _ _ _ D E2) as (c1 & s1 & sa & sb & a1 & b1 & Es1 & Er1 & _ & _ & F1 & P1 & D1 & _).
  exact (mod_level s1 c1 _ _ _ _ _ _ P1 Er1 M).
Qed.
Lemma point_may_follow c p ss2 : (forall b, c = XBreak b -> True) -> follows c (SPoint p) = true -> derives (after c (SPoint p)) ss2 -> derives (XPoint (computed_point (t_sub p))) ss2.
Proof.
  intros _ F D. cbn [after] in D. destruct c as [| | | | | | | | |[]|[]| | |]; try exact D. destruct ss2 as [|s r]; [discriminate D|]. cbn [derives] in *. destruct D as (F1 & P1 & D1).
  destruct s; try discriminate F1. auto.
Qed.
Lemma unchecked_rejoin c p ss1 ss2 : derives XStart (ss1 ++ SRejoin p :: ss2) -> c = fold_left after ss1 XStart -> unchecked_point (ryield ss1) (ryield ss2).
Proof.
  intros D Ec. pose proof (derives_app _ _ _ D) as D2. cbn [derives] in D2. rewrite <- Ec in D2. destruct D2 as (F & P & D2).
  destruct c as [| | | | | | | | |[]|[]| | |]; try discriminate F. split.
  - destruct (snoc_ind_ctx ss1) as [->|(ss0 & s & ->)]; [discriminate|]. destruct (derives_last _ _ _ _ D) as (F' & P'). rewrite fold_left_app in Ec. cbn [fold_left] in Ec.
    destruct (fold_left after ss0 XStart) as [| | | | | | | | |[]|[]| | |]; destruct s; try discriminate F'; cbn [after] in Ec; try discriminate Ec; try (destruct (begins (t_sub _)); discriminate Ec).
    cbn [proper] in P'. destruct P' as (N & _). destruct (exists_last N) as (u & x & ->). exists (ryield ss0 ++ map (fun t => (t, RText)) u), x.
    rewrite ryield_app. unfold ryield at 2. cbn [flat_map rstep tokens_of app]. rewrite app_nil_r, map_app, <- !app_assoc. reflexivity.
  - cbn [after] in D2. destruct ss2 as [|s r]; [discriminate D2|]. cbn [derives] in D2. destruct D2 as (F2 & P2 & _). destruct s; try discriminate F2. cbn [proper] in P2. destruct P2 as (P2 & P3).
    exists sl, t, (ryield r). rewrite ryield_cons. cbn [rstep tokens_of map app]. auto.
Qed.
Definition first_token (w0 : pstr) : token := mkToken w0 0 0 (fst (classify w0)) (snd (classify w0)).
Lemma first_wt w0 : wt (first_token w0).
Proof. unfold wt, first_token. cbn [t_text t_base t_sub]. destruct (classify w0); reflexivity. Qed.
Lemma words_point p ss2 : wordsof ((p, ROut) :: ryield ss2) = map t_text (yield (SPoint p :: ss2)).
Proof. rewrite <- words_ryield, ryield_cons. reflexivity. Qed.
Theorem go_on depth depth' f s pre p rest w0 g : parse_field15 G depth f = Ok true s -> field_roles f = pre ++ (p, ROut) :: rest -> t_base p = F15_POINT -> ~ unchecked_point pre rest ->
  fst (classify w0) = F15_SPEED_ALTITUDE -> in_force pre = Some (speed_part w0, first_level w0) ->
  element_texts g = w0 :: wordsof ((p, ROut) :: rest) -> 3 * n_tokens g <= depth' + 1 ->
  exists s' A B ades a' B', parse_field15 G depth' g = Ok true s' /\ divided (t_start p) (e_recs (s_ers s)) A B ades /\
    e_recs (s_ers s') = a' :: B' /\ aerodrome ($"ADEP") a' /\ Forall2 same_but_leg (B ++ [ades]) B'.
Proof.
  intros H W Bp Nu Cw If Eg Hd. destruct (roles_steps G f depth s H) as (ss & D & Y & R & B & Es). rewrite R in W.
  destruct (locate ss XStart _ _ _ D W) as (c & st & ss1 & ss2 & a & b & Ess & Er & Ep & Et & F & P & D2 & Ec). rewrite Ess in D.
  destruct (point_step _ _ _ _ _ _ P Er Bp) as ([-> | ->] & -> & ->); [|exfalso; apply Nu; rewrite app_nil_r in Ep; subst pre rest; exact (unchecked_rejoin c p ss1 ss2 D Ec)].
  rewrite app_nil_r in Ep. cbn [app] in Et. clear Er. subst pre rest.
  rewrite Ess in B. pose proof B as B0. rewrite yield_app in B0. apply by_text_app_inv in B0 as (B1 & B2). pose proof (wt_by _ B1) as W1. pose proof (wt_by _ B2) as W2.
  set (t0 := first_token w0). cbn [proper] in P. destruct P as (_ & Pa).
  assert (Lv : fl_ok (first_level w0)).
  { exact (level_in_force ss1 _ XStart _ D If). }
  assert (Hc : c <> XStart) by (intros ->; discriminate F).
  assert (D' : derives XStart (SFirst t0 :: SPoint p :: ss2)).
  { cbn [derives]. split; [reflexivity|]. split; [cbn [proper]; split; [exact Cw|]; split; [|discriminate]|].
    - unfold levels_ok, t0, first_token. cbn [t_base t_text]. rewrite Cw. exact Lv.
    - split; [reflexivity|]. split; [split; assumption|]. cbn [after]. exact (point_may_follow c p ss2 (fun _ _ => I) F D2). }
  assert (B' : by_text (yield (SFirst t0 :: SPoint p :: ss2))).
  { rewrite !yield_cons. cbn [tokens_of app]. intros t [<-|Ht]; [symmetry; apply first_wt|]. apply B2. rewrite yield_cons. exact Ht. }
  destruct (parse_steps G depth' _ g D' B') as (s' & Hp & E1 & E2 & E3); [|exact Hd|].
  { rewrite Eg, yield_cons, words_point. reflexivity. }
  set (k1 := effs G 0 ss1 core0) in *. set (v := is_vfr_first (yield ss1)).
  assert (N1 : yield ss1 <> []).
  { destruct ss1 as [|x ss1]; [cbn [fold_left] in Ec; congruence|]. cbn [app derives] in D. destruct D as (_ & Px & _). apply step_tokens in Px. rewrite yield_cons. destruct (tokens_of x); [congruence|discriminate]. }
  assert (Ev : is_vfr_first (yield (ss1 ++ SPoint p :: ss2)) = v) by (unfold v; rewrite (vfr_first_same ss1 _ [] N1); now rewrite app_nil_r).
  assert (Ef : field_tokens f = yield ss1 ++ p :: yield ss2) by (rewrite <- Y, Ess, yield_app, yield_cons; reflexivity).
  destruct (field_places f _ _ _ Ef N1) as (Lo & Hi & Hz).
  pose proof (perf_run G ss1 XStart _ 0 core0 None D W1 eq_refl) as Pf. unfold in_force in If. rewrite If in Pf. fold k1 in Pf. cbn [perf0] in Pf.
  pose proof (perf_sa t0 adep0 (first_wt w0) Cw) as Pf0. change (t_text t0) with w0 in Pf0.
  assert (HA := below ss1 _ (t_start p) D W1 Lo Hz). fold k1 in HA.
  set (j := 0 + length (yield ss1)). set (k2 := eff1 G j (SPoint p) k1). set (k2' := eff1 G 1 (SPoint p) (eff1 G 0 (SFirst t0) core0)).
  assert (T0 : Tail (k_l k1 ++ [k_p k1]) [sa_eff t0 adep0] k2 k2').
  { unfold k2, k2'. cbn [eff1]. apply Tail_pt. exists [], []. unfold rule_k, add_k, k_with. cbn [k_l k_p k_js]. rewrite !app_nil_r. split; [reflexivity|]. split; [reflexivity|]. split; [reflexivity|].
    assert (K : forall q q', perf (speed_part w0, first_level w0) q -> perf (speed_part w0, first_level w0) q' -> set_r_rules RULE_I (carry q (tok_rec p)) = set_r_rules RULE_I (carry q' (tok_rec p))).
    { intros q q' (A1 & A2 & A3 & A4) (C1 & C2 & C3 & C4). unfold carry. rewrite A1, A2, A3, A4, C1, C2, C3, C4. reflexivity. }
    now rewrite (K _ _ Pf Pf0). }
  assert (Gr : Grow (fun x => (t_start p <= x)%Z) (k_l k1 ++ [k_p k1]) (effs G (j + 1) ss2 k2)).
  { rewrite yield_cons, Forall_app in W2. destruct W2 as (W3 & W4). apply (Grow_steps _ _ [] ss2 (after c (SPoint p))); rewrite ?app_nil_r; auto.
    - intros t Ht. apply Hi. now right.
    - destruct (eff_push (SPoint p) j k1 eq_refl) as (r & Eq & _ & ->). exists []. split; [|split; [constructor|]].
      + unfold k2. rewrite app_nil_r, map_app, Eq. reflexivity.
      + unfold k2. pose proof (eff_start c (SPoint p) (yield ss2) j k1 (conj Bp Pa) W3 eq_refl) as K. unfold from_toks in K. cbn [tokens_of map In] in K. destruct K as [K|[]]. rewrite <- K. lia. }
  assert (Nk : k_l k1 ++ [k_p k1] <> []) by (destruct (k_l k1); discriminate).
  destruct (divide v (t_start p) _ _ Nk Gr HA) as (U & l & Dv & Ek & EU & El).
  pose proof (Tail_steps _ _ ss2 (j + 1) 2 _ _ T0) as T1. set (k3 := effs G (j + 1) ss2 k2) in *. set (k3' := effs G 2 ss2 k2') in *.
  assert (Er' : result_of G (SFirst t0 :: SPoint p :: ss2) = core_final false k3').
  { unfold result_of. rewrite yield_cons. cbn [tokens_of app is_vfr_first]. change (t_base t0) with (fst (classify w0)). rewrite Cw. reflexivity. }
  assert (Er : result_of G ss = core_final v k3) by (unfold result_of; rewrite Ess, Ev, effs_app; reflexivity).
  rewrite Er' in E1. unfold core_final in E1. rewrite core_recs_eq in E1. cbn [upd_first] in E1.
  destruct T1 as (N & N' & T1 & T2 & T3 & T4).
  assert (EN : map er_leg N = map er_leg l).
  { rewrite El in T1. apply app_inv_head in T1. rewrite <- T1. apply leg_of_brg. }
  assert (Ea : er_leg (ades_rec (core_recs v k3)) = er_leg (ades_rec (k_l k3' ++ [k_p k3']))).
  { unfold ades_rec. rewrite Ek, app_assoc, !last_last. pose proof (same_leg _ _ T4) as (_ & _ & _ & _ & _ & _ & _ & _ & -> & _). reflexivity. }
  assert (Q : forall l l', map er_rec l = map er_rec l' -> map er_leg l = map er_leg l').
  { intros u w K. assert (Q : forall l, map er_leg l = map er_brg (map er_rec l)) by (intro x; rewrite map_map; apply map_ext; intros []; reflexivity). now rewrite !Q, K. }
  apply Q in E1. rewrite !map_app, T2, <- T3, EN in E1. cbn [map app] in E1. rewrite <- T4, <- Ea in E1.
  destruct (adep_ades G depth' g true s' Hp) as (a' & mid & z & Ez & Aa & _ & _).
  exists s', U, (l ++ [k_p k3]), (ades_rec (core_recs v k3)), a', (mid ++ [z]). split; [exact Hp|]. rewrite Es. cbn [e_recs]. rewrite Er. split; [exact Dv|]. split; [exact Ez|]. split; [exact Aa|].
  apply same_legs. rewrite Ez in E1. apply (f_equal (@tl _)) in E1. cbn [tl map] in E1.
  rewrite E1, !map_app. reflexivity.
Qed.
End G.
