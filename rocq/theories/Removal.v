(** * Removal: laws relating a field to the field without one of its elements (lemmas behind PropsRemoval). *)
From Coq Require Import ZArith NArith List Bool String Lia.
From Coq Require Import Floats.SpecFloat.
From Coq Require Import ZifyBool ZifyNat ZifyN.
From Verif Require Import PyBase PyFloat Enums ErrorTable Regex SyntaxTable Syntax Tokenizer Ers Utils Parser.
From Verif Require Import SpecTokenizer TokenizerProofs SpecNum ParserPrims PerfEq PointEq SyntaxProofs Trace ParseTrace ParserFacts SpecParser SpecGrammar GrammarSem Grammar SpecAccept Accept Describe AcceptFacts SpecLayout Layout SpecViable Viable Unambiguous SpecRemoval.
Import List ListNotations.
Local Open Scope list_scope.
Local Open Scope nat_scope.

(** ** Exchanging the end of a derivation *)
Definition look (k : kind) : nat := match k with KVfr => 3 | _ => 1 end.
Lemma resume_look k l l' : firstn (look k) (map t_base l) = firstn (look k) (map t_base l') -> resume k l = resume k l'.
Proof.
  destruct k, l as [|a [|b [|c l]]], l' as [|a' [|b' [|c' l']]]; cbn [look firstn map]; intro E; try discriminate E; try reflexivity; injection E; intros;
    cbn [resume]; repeat match goal with K : t_base _ = t_base _ |- _ => rewrite <- K; clear K end; reflexivity.
Qed.
Lemma firstn_tail {A} n (a b b' : list A) : firstn n b = firstn n b' -> firstn n (a ++ b) = firstn n (a ++ b').
Proof.
  revert n. induction a as [|x a IH]; intros [|n] E; cbn [app firstn]; try assumption; try reflexivity. f_equal. apply IH.
  assert (K : forall l : list A, firstn n l = firstn n (firstn (S n) l)) by (intro l; rewrite firstn_firstn; f_equal; lia). rewrite (K b), (K b'). now rewrite E.
Qed.
Lemma section_look k : forall txt rest rest', firstn (look k) (map t_base rest) = firstn (look k) (map t_base rest') -> section k txt rest -> section k txt rest'.
Proof.
  induction txt as [|t txt IH]; intros rest rest' E H; cbn [section] in *.
  - subst rest. destruct rest' as [|x r]; [reflexivity|]. destruct k; discriminate E.
  - destruct H as [N H]. split; [exact N|]. destruct (ends k (t_sub t)); [|exact (IH _ _ E H)].
    rewrite <- (resume_look k (txt ++ rest) (txt ++ rest')) by (rewrite !map_app; exact (firstn_tail _ _ _ _ E)). destruct (resume k (txt ++ rest)); [exact (IH _ _ E H)|exact H|exact H].
Qed.
Definition halfway (c : ctx) : bool := match c with XBreak _ | XThenSpeed _ | XThenVfr => true | _ => false end.
Definition no_slash (l : list token) : Prop := match l with n :: _ => t_base n <> F15_SLASH | [] => True end.
Lemma yield_app a b : yield (a ++ b) = yield a ++ yield b.
Proof. apply flat_map_app. Qed.
Lemma after_start c s : after c s = XStart -> c = XStart.
Proof. destruct s; cbn [after]; try discriminate; destruct c as [| | | | | | | | |[]|[]| | |]; try discriminate; try reflexivity; destruct (begins _); discriminate. Qed.
Lemma exchange : forall ss1 c ss2 ss2', derives c (ss1 ++ ss2) -> derives (fold_left after ss1 c) ss2' ->
  (halfway (fold_left after ss1 c) = false \/ (exists b, fold_left after ss1 c = XThenSpeed b) /\ firstn 2 (map t_base (yield ss2)) = firstn 2 (map t_base (yield ss2'))) -> (fold_left after ss1 c = XC -> no_slash (yield ss2')) ->
  (yield ss2' <> [] \/ c <> XStart \/ 2 <= length ss1) -> (fold_left after ss1 c <> XEnd) -> derives c (ss1 ++ ss2').
Proof.
  induction ss1 as [|s r IH]; intros c ss2 ss2' D D' Hh Ns Ne Nx; [exact D'|]. cbn [app derives fold_left] in *. destruct D as (F & P & D).
  assert (Dr : derives (after c s) (r ++ ss2')).
  { apply (IH _ ss2); auto. right. left. intro K. pose proof (after_start _ _ K) as ->. destruct s; discriminate. }
  split; [exact F|]. split; [|exact Dr]. destruct s; cbn [proper] in P |- *; auto.
  - destruct P as (P1 & P2 & _). split; [exact P1|]. split; [exact P2|]. rewrite yield_app. destruct c; try (destruct k); try discriminate F.
    destruct r as [|s2 r]; cbn [length app] in *; [destruct Ne as [Ne|[Ne|Ne]]; [exact Ne|congruence|lia]|].
    cbn [derives] in D. destruct D as (_ & P' & _). apply step_tokens in P'. rewrite yield_cons. destruct (tokens_of s2); [congruence|discriminate].
  - destruct P as (P1 & P2). split; [exact P1|]. destruct r as [|s2 r]; [exact (Ns eq_refl)|]. cbn [app derives] in D. destruct D as (_ & P' & _). apply step_tokens in P'.
    cbn [app] in P2 |- *. rewrite yield_cons in P2 |- *. destruct (tokens_of s2); [congruence|exact P2].
  - destruct P as (_ & P2). destruct r as [|s2 r]; [exfalso; apply Nx; reflexivity|]. exfalso. cbn [app derives after] in D. destruct D as (F' & _). discriminate F'.
  - destruct P as (_ & P2). destruct r as [|s2 r]; [exfalso; apply Nx; reflexivity|]. exfalso. cbn [app derives after] in D. destruct D as (F' & _). discriminate F'.
  - destruct P as (P1 & P2). split; [exact P1|]. destruct c; try contradiction. cbn [after] in *. refine (section_look k txt _ _ _ P2).
    destruct Hh as [Hh|Hh].
    + destruct r as [|s2 r]; [discriminate Hh|]. cbn [app derives fold_left] in *. destruct D as (F2 & _ & D). destruct Dr as (_ & _ & Dr).
      rewrite !yield_cons. destruct k; cbn [look]; destruct s2; try discriminate F2; try reflexivity; cbn [after] in *;
        (destruct r as [|s3 r]; [discriminate Hh|]); cbn [app derives] in D; destruct D as (F3 & _); destruct s3; try discriminate F3; reflexivity.
    + destruct Hh as ((b & Hb) & Hh). destruct r as [|s2 r]; [discriminate Hb|]. cbn [app derives fold_left] in *. destruct D as (F2 & _ & _).
      rewrite !yield_cons, !yield_app. assert (T : exists p, tokens_of s2 = [p]) by (destruct k, s2; try discriminate F2; eexists; reflexivity). destruct T as (p & ->).
      cbn [app map]. destruct k; cbn [look firstn]; [|reflexivity|reflexivity]. f_equal. change (firstn 2 (map t_base (yield r ++ yield ss2)) = firstn 2 (map t_base (yield r ++ yield ss2'))).
      rewrite !map_app. apply firstn_tail. exact Hh.
Qed.

(** ** The result of a field given by its steps *)
Section G.
Variable G : geodesic.
Definition result_of (ss : list step) : list rrec := core_final (is_vfr_first (yield ss)) (effs G 0 ss core0).
Lemma parse_steps depth ss g : derives XStart ss -> by_text (yield ss) -> element_texts g = map t_text (yield ss) -> 3 * n_tokens g <= depth + 1 ->
  exists s, parse_field15 G depth g = Ok true s /\ map er_rec (e_recs (s_ers s)) = map er_rec (result_of ss) /\ e_errs (s_ers s) = [] /\ e_rules (s_ers s) = derived (result_of ss).
Proof.
  intros D B Eg Hd. set (L := yield ss) in *. set (fresh := fun t : token => new_token (t_text t) (t_start t) (t_end t)).
  assert (EL : map assign_syntax (map fresh L) = L).
  { rewrite map_map. transitivity (map (fun t => t) L); [|apply map_id]. apply map_ext_in. intros t Ht. pose proof (B t Ht) as K.
    unfold assign_syntax, fresh, new_token. cbn [t_text]. rewrite <- K. destruct t; reflexivity. }
  destruct (field_start g) as (l & E & Ft & N).
  assert (Et : map t_text l = map t_text L).
  { rewrite <- Eg. unfold element_texts, texts. rewrite E || idtac. pose proof (et_map g) as K. unfold element_texts in *. rewrite Ft in K. rewrite K, map_map.
    apply map_ext. intro t. unfold assign_syntax. destruct (classify (t_text t)); reflexivity. }
  assert (Ln : length l = length L) by (rewrite <- (map_length t_text l), Et; apply map_length).
  assert (Lne : map fresh L <> []).
  { unfold L. destruct ss as [|s r]; [discriminate D|]. cbn [derives] in D. destruct D as (_ & P & _). apply step_tokens in P. rewrite yield_cons. destruct (tokens_of s); [congruence|discriminate]. }
  assert (Hd' : 3 * length (map fresh L) <= depth + 1) by (rewrite map_length; lia).
  pose proof (accept_parse G depth (map fresh L) 0 0 Lne) as A. pose proof (no_recursion_error G depth (map fresh L) 0%Z 0 Hd') as R. rewrite EL in A.
  assert (Sn : sentence L) by (exists ss; auto).
  assert (Es : er (mkSt (mkTokens l 0) new_ers 0) = er (mkSt (mkTokens (map fresh L) 0) new_ers 0)).
  { unfold er, er_toks. cbn [s_toks s_ers s_calls tk_list tk_cur]. do 2 f_equal.
    assert (Un : forall t, In t l -> t = fresh t).
    { pose proof (toks_tokenization f15_whitespace g) as T. change (toks f15_whitespace 0 [] g) with (tk_list (mkTokens (toks f15_whitespace 0 [] g) 0)) in T.
      rewrite <- tokenize_string_toks, E in T. intros t K. exact (untyped_new t (tkz_untyped _ _ _ T t K)). }
    clear -Et Un. clearbody L. revert L Et. induction l as [|x l IH]; intros [|y L] Et; try discriminate Et; [reflexivity|]. cbn [map] in *. injection Et as E1 E2. f_equal.
    - rewrite (Un x) by now left. unfold fresh, er_tok, new_token. cbn [t_text t_base t_sub]. now rewrite E1.
    - apply IH; [|exact E2]. intros t Ht. apply Un. now right. }
  assert (Q : er_out idf (parse_field15 G depth g) = er_out idf (parse_f15 G depth (mkSt (mkTokens (map fresh L) 0) new_ers 0))).
  { unfold parse_field15. rewrite E, <- !(com_parse G depth), Es. reflexivity. }
  destruct (parse_f15 G depth (mkSt (mkTokens (map fresh L) 0) new_ers 0)) as [b s0|e s0]; cbn [accept_out] in A; [|exfalso; apply R; exact (A Sn)].
  destruct A as [A1 A2]. pose proof (A2 Sn) as ->. destruct (A1 eq_refl) as (ss3 & cur & calls & D3 & Y3 & Es0).
  assert (ss3 = ss) by (apply (derives_unique _ _ XStart); auto). subst ss3.
  destruct (parse_field15 G depth g) as [b s|e s]; cbn [er_out] in Q; [|discriminate Q].
  assert (Qb : idf b = idf true) by exact (f_equal (fun o => match o with Ok v _ => v | Exn _ _ => true end) Q). unfold idf in Qb. subst b.
  assert (Qs : er s = er s0) by exact (f_equal (fun o => match o with Ok _ v | Exn _ v => v end) Q).
  assert (Qe : er_ers (s_ers s) = er_ers (s_ers s0)) by exact (f_equal s_ers Qs). rewrite Es0 in Qe. cbn [s_ers] in Qe. exists s. split; [reflexivity|]. split; [exact (f_equal e_recs Qe)|]. split; [|exact (f_equal e_rules Qe)].
  pose proof (f_equal e_errs Qe) as K. cbn [er_ers e_errs map] in K. exact (map_eq_nil _ _ K).
Qed.
Lemma roles_steps f depth s : parse_field15 G depth f = Ok true s -> exists ss, derives XStart ss /\ yield ss = field_tokens f /\ field_roles f = ryield ss /\ by_text (yield ss) /\
  s_ers s = mkErs (result_of ss) [] (derived (result_of ss)).
Proof.
  intro H. destruct (accepted G depth f s H) as (ss & D & Y & E). exists ss. split; [exact D|]. split; [exact Y|]. split; [|split].
  - unfold field_roles, roles. rewrite <- Y. exact (roled_derives ss XStart D).
  - rewrite Y. apply by_text_field.
  - unfold result_of. rewrite Y. exact E.
Qed.
Lemma words_ryield ss : wordsof (ryield ss) = map t_text (yield ss).
Proof.
  unfold wordsof. induction ss as [|s r IH]; [reflexivity|]. rewrite ryield_cons, yield_cons, !map_app, IH. f_equal. rewrite <- (rstep_fst s), map_map. reflexivity.
Qed.
(** The indices of the tokens influence nothing but [k_js]. *)
Lemma eff_shift j j' s k k' : k_l k = k_l k' -> k_p k = k_p k' -> k_l (eff1 G j s k) = k_l (eff1 G j' s k') /\ k_p (eff1 G j s k) = k_p (eff1 G j' s k').
Proof. destruct k as [l p js], k' as [l' p' js']. cbn [k_l k_p]. intros <- <-. destruct s; split; reflexivity. Qed.
Lemma effs_shift : forall ss j j' k k', k_l k = k_l k' -> k_p k = k_p k' -> k_l (effs G j ss k) = k_l (effs G j' ss k') /\ k_p (effs G j ss k) = k_p (effs G j' ss k').
Proof. induction ss as [|s r IH]; intros j j' k k' E1 E2; [split; assumption|]. cbn [effs]. destruct (eff_shift j j' s k k' E1 E2). now apply IH. Qed.
Lemma effs_app : forall a j b k, effs G j (a ++ b) k = effs G (j + length (yield a)) b (effs G j a k).
Proof.
  induction a as [|s a IH]; intros j b k; [cbn; now rewrite Nat.add_0_r|]. cbn [app effs]. rewrite IH. f_equal. rewrite yield_cons, app_length. lia.
Qed.
Lemma final_shift v k k' : k_l k = k_l k' -> k_p k = k_p k' -> core_final v k = core_final v k'.
Proof. destruct k as [l p js], k' as [l' p' js']. cbn [k_l k_p]. intros <- <-. reflexivity. Qed.
Lemma vfr_first_same a b b' : yield a <> [] -> is_vfr_first (yield (a ++ b)) = is_vfr_first (yield (a ++ b')).
Proof. rewrite !yield_app. destruct (yield a); [congruence|reflexivity]. Qed.

(** ** Steps of given elements *)
Ltac one_of Er :=
  match type of Er with
  | _ = ?a ++ _ :: _ => destruct a as [|? [|? [|? a]]]; cbn [app] in Er; try discriminate Er; try (injection Er; clear Er; intros; subst)
  end.
Lemma text_role txt a t r b : map (fun t : token => (t, RText)) txt = a ++ (t, r) :: b -> r = RText.
Proof.
  intro E. assert (K : In (t, r) (map (fun t : token => (t, RText)) txt)) by (rewrite E; apply in_or_app; right; now left).
  apply in_map_iff in K as (x & K & _). congruence.
Qed.
Lemma dct_step s c r a t b : proper c s r -> rstep s = a ++ (t, ROut) :: b -> t_base t = F15_DCT -> s = SDct t /\ a = [] /\ b = [].
Proof.
  intros P E B. destruct s; cbn [rstep tokens_of map] in E; try (apply text_role in E; discriminate); one_of E; cbn [proper] in P; try discriminate; auto;
    repeat match goal with H : _ /\ _ |- _ => destruct H | H : _ \/ _ |- _ => destruct H end; try congruence;
    try (destruct a; discriminate).
Qed.
Lemma trunc_step s c r a t b : proper c s r -> rstep s = a ++ (t, ROut) :: b -> t_base t = F15_TRUNCATE -> s = STrunc t /\ a = [] /\ b = [].
Proof.
  intros P E B. destruct s; cbn [rstep tokens_of map] in E; try (apply text_role in E; discriminate); one_of E; cbn [proper] in P; try discriminate; auto;
    repeat match goal with H : _ /\ _ |- _ => destruct H | H : _ \/ _ |- _ => destruct H end; try congruence;
    try (destruct a; discriminate).
Qed.
Lemma point_step s c r a t b : proper c s r -> rstep s = a ++ (t, ROut) :: b -> t_base t = F15_POINT -> (s = SPoint t \/ s = SRejoin t) /\ a = [] /\ b = [].
Proof.
  intros P E B. destruct s; cbn [rstep tokens_of map] in E; try (apply text_role in E; discriminate); one_of E; cbn [proper] in P; try discriminate; auto;
    repeat match goal with H : _ /\ _ |- _ => destruct H | H : _ \/ _ |- _ => destruct H end; try congruence;
    try (destruct a; discriminate).
Qed.
Lemma speed_step s c r a t b : proper c s r -> rstep s = a ++ (t, ROut) :: b -> t_base t = F15_SPEED_ALTITUDE ->
  (s = SFirst t /\ a = [] /\ b = []) \/ (exists sl, s = SSpeed sl t /\ a = [(sl, ROut)] /\ b = []).
Proof.
  intros P E B. destruct s; cbn [rstep tokens_of map] in E; try (apply text_role in E; discriminate); one_of E; cbn [proper] in P; try discriminate; eauto 6;
    repeat match goal with H : _ /\ _ |- _ => destruct H | H : _ \/ _ |- _ => destruct H end; try congruence;
    try (destruct a; discriminate).
Qed.
Lemma len_ryield ss : length (ryield ss) = length (yield ss).
Proof. induction ss as [|s r IH]; [reflexivity|]. rewrite ryield_cons, yield_cons, !app_length, rstep_len, IH. reflexivity. Qed.
Lemma by_text_app_inv a b : by_text (a ++ b) -> by_text a /\ by_text b.
Proof. intro H. split; intros t Ht; apply H, in_or_app; auto. Qed.
Lemma er_same_seq s s' rs : s_ers s = mkErs rs [] (derived rs) -> map er_rec (e_recs (s_ers s')) = map er_rec rs -> e_errs (s_ers s') = [] -> e_rules (s_ers s') = derived rs ->
  same_sequence (s_ers s) (s_ers s').
Proof. intros -> E1 E2 E3. split; [|split]; cbn [e_recs e_errs e_rules]; [apply er_same_list; now symmetry|rewrite E2; constructor|now symmetry]. Qed.

(** ** Without the truncation mark *)
Theorem truncation_dropped depth depth' f s pre t g : parse_field15 G depth f = Ok true s -> field_roles f = pre ++ [(t, ROut)] -> t_base t = F15_TRUNCATE ->
  2 <= length pre -> element_texts g = wordsof pre -> 3 * n_tokens g <= depth' + 1 ->
  exists s', parse_field15 G depth' g = Ok true s' /\ same_sequence (s_ers s) (s_ers s').
Proof.
  intros H W Bt Hl Eg Hd. destruct (roles_steps f depth s H) as (ss & D & Y & R & B & Es). rewrite R in W.
  destruct (locate ss XStart _ _ _ D W) as (c & st & ss1 & ss2 & a & b & Ess & Er & Ep & Et & F & P & D2 & Ec).
  destruct (trunc_step _ _ _ _ _ _ P Er Bt) as (-> & -> & ->). rewrite app_nil_r in Ep. cbn [app] in Et.
  assert (ss2 = []) as ->. { destruct ss2 as [|x r]; [reflexivity|]. cbn [derives after] in D2. destruct D2 as (K & _). discriminate K. }
  assert (D' : derives XStart (ss1 ++ [])).
  { rewrite Ess in D. apply (exchange ss1 XStart [STrunc t] []); try rewrite <- Ec; auto.
    - destruct c as [| | | | | | | | |[]|[]| | |]; try discriminate F; reflexivity.
    - left. destruct c as [| | | | | | | | |[]|[]| | |]; try discriminate F; reflexivity.
    - intros _. exact I.
    - right. right. subst pre. rewrite len_ryield in Hl. destruct ss1 as [|x [|y r]]; [cbn in Hl; lia| |cbn [length]; lia]. exfalso.
      cbn [app derives] in D. destruct D as (F1 & _). destruct x; try discriminate F1; cbn in Hl; lia.
    - intros ->. discriminate F. }
  rewrite app_nil_r in D'. assert (B' : by_text (yield ss1)) by (rewrite Ess, yield_app in B; apply (by_text_app_inv _ _ B)).
  destruct (parse_steps depth' ss1 g D' B') as (s' & Hp & E1 & E2 & E3); [now rewrite Eg, Ep, words_ryield|exact Hd|].
  exists s'. split; [exact Hp|]. assert (Q : result_of ss = result_of ss1).
  { unfold result_of. rewrite Ess, effs_app. cbn [effs eff1]. f_equal. rewrite <- (app_nil_r ss1) at 2. apply vfr_first_same.
    intro K. subst pre. rewrite len_ryield, K in Hl. cbn in Hl. lia. }
  rewrite <- Q in *. exact (er_same_seq s s' _ Es E1 E2 E3).
Qed.

(** ** Without a speed/level that is overridden at once *)
Lemma sa_twice t t' p : wt t' -> t_base t' = F15_SPEED_ALTITUDE -> sa_eff t' (sa_eff t p) = sa_eff t' p.
Proof.
  intros W Bt. destruct (sa_perf t' p W Bt) as (a & _). unfold sa_eff. assert (N : sa_cut (t_sub t') <> None).
  { intro K. destruct (sa_fields t' W Bt) as (a' & K' & _). congruence. }
  destruct (sa_cut (t_sub t')) as [a'|]; [|congruence]. destruct (sa_cut (t_sub t)); [|reflexivity]. destruct p. reflexivity.
Qed.
Lemma two_steps (ss : list step) c x y : derives c ss -> forall w, ryield ss = (x, ROut) :: (y, ROut) :: w -> t_base x = F15_SLASH -> t_base y = F15_SPEED_ALTITUDE ->
  exists r, ss = SSpeed x y :: r /\ ryield r = w.
Proof.
  intros D w E Bx By. destruct ss as [|s r]; [discriminate|]. cbn [derives] in D. destruct D as (F & P & D). rewrite ryield_cons in E.
  destruct s; cbn [rstep tokens_of map app] in E; cbn [proper] in P;
    try (destruct P as (P1 & P2)); try (destruct txt as [|x0 txt]; [congruence|]; cbn [map app] in E); injection E; intros; subst;
    repeat match goal with H : _ /\ _ |- _ => destruct H | H : _ \/ _ |- _ => destruct H end; try congruence. exists r. auto.
Qed.
Theorem overridden_speed depth depth' f s pre sl t sl' t' rest g : parse_field15 G depth f = Ok true s ->
  field_roles f = pre ++ (sl, ROut) :: (t, ROut) :: (sl', ROut) :: (t', ROut) :: rest ->
  t_base t = F15_SPEED_ALTITUDE -> t_base sl' = F15_SLASH -> t_base t' = F15_SPEED_ALTITUDE ->
  element_texts g = wordsof (pre ++ (sl', ROut) :: (t', ROut) :: rest) -> 3 * n_tokens g <= depth' + 1 ->
  exists s', parse_field15 G depth' g = Ok true s' /\ same_sequence (s_ers s) (s_ers s').
Proof.
  intros H W Bt Bsl' Bt' Eg Hd. destruct (roles_steps f depth s H) as (ss & D & Y & R & B & Es). rewrite R in W.
  change (pre ++ (sl, ROut) :: (t, ROut) :: (sl', ROut) :: (t', ROut) :: rest) with (pre ++ [(sl, ROut)] ++ (t, ROut) :: (sl', ROut) :: (t', ROut) :: rest) in W. rewrite app_assoc in W.
  destruct (locate ss XStart _ _ _ D W) as (c & st & ss1 & ss2 & a & b & Ess & Er & Ep & Et & F & P & D2 & Ec).
  destruct (speed_step _ _ _ _ _ _ P Er Bt) as [(-> & -> & ->)|(sl0 & -> & -> & ->)].
  { exfalso. destruct c as [| | | | | | | | |[]|[]| | |]; try discriminate F. symmetry in Ec. rewrite Ess in D. rewrite (start_only _ _ D Ec) in Ep. destruct pre; discriminate. }
  apply app_inj_tail in Ep as (-> & Esl). injection Esl as <-. cbn [app] in Et. symmetry in Et.
  destruct (two_steps ss2 _ _ _ D2 _ Et Bsl' Bt') as (r & -> & Er2). clear Er Et. subst rest. cbn [derives] in D2. destruct D2 as (F2 & P2 & D2).
  assert (Hc : exists b, c = XPoint b \/ c = XThenSpeed b) by (destruct c as [| | | | | | | | |[]|[]| | |]; try discriminate F; eauto).
  assert (D' : derives XStart (ss1 ++ SSpeed sl' t' :: r)).
  { rewrite Ess in D. apply (exchange ss1 XStart _ _ D); try rewrite <- Ec.
    - cbn [derives]. split; [exact F|]. split; [exact P2|]. destruct Hc as (b & [-> | ->]); exact D2.
    - destruct Hc as (b & [-> | ->]); [left; reflexivity|right]. split; [exists b; reflexivity|]. rewrite !yield_cons. cbn [tokens_of app map firstn]. destruct P as (P3 & _). now rewrite P3, Bt, Bsl', Bt'.
    - destruct Hc as (b & [-> | ->]); discriminate.
    - left. rewrite yield_cons. discriminate.
    - destruct Hc as (b & [-> | ->]); discriminate. }
  assert (B1 : by_text (yield (ss1 ++ SSpeed sl' t' :: r))).
  { rewrite Ess in B. rewrite yield_app, !yield_cons in B. rewrite yield_app, yield_cons. intros x Hx. apply B. apply in_app_or in Hx as [Hx|Hx]; apply in_or_app; [now left|right]. apply in_or_app. now right. }
  destruct (parse_steps depth' _ g D' B1) as (s' & Hp & E1 & E2 & E3); [|exact Hd|].
  { rewrite Eg, <- words_ryield, ryield_app, ryield_cons. reflexivity. }
  exists s'. split; [exact Hp|]. assert (Q : result_of ss = result_of (ss1 ++ SSpeed sl' t' :: r)).
  { unfold result_of. rewrite Ess, !effs_app. cbn [effs eff1 tokens_of length].
    assert (Wt : wt t') by (symmetry; apply B1; rewrite yield_app, yield_cons; apply in_or_app; right; cbn [tokens_of app]; right; now left).
    rewrite (vfr_first_same ss1 _ (SSpeed sl' t' :: r)).
    - unfold k_with. cbn [k_l k_p k_js]. rewrite (sa_twice t t' _ Wt Bt'). match goal with |- core_final _ (effs _ ?i _ ?k) = core_final _ (effs _ ?j _ ?k') => destruct (effs_shift r i j k k' eq_refl eq_refl) end. now apply final_shift.
    - intro K. destruct ss1 as [|x ss1]; [cbn [fold_left] in Ec; destruct Hc as (b & [Hc|Hc]); congruence|].
      rewrite Ess in D. cbn [app derives] in D. destruct D as (_ & Px & _). apply step_tokens in Px. rewrite yield_cons in K. apply app_eq_nil in K as [K _]. congruence. }
  rewrite <- Q in *. exact (er_same_seq s s' _ Es E1 E2 E3).
Qed.

(** ** Without a speed/level that is in force already *)
Definition perf (m : pstr * pstr) (p : rrec) : Prop :=
  r_speed p = fst m /\ r_alt p = snd m /\ r_alt_si p = PyInt (lvl_si (snd m)) /\ r_speed_si p = PyInt (spd_si (fst m) (lvl_si (snd m))).
Lemma perf_sa t p : wt t -> t_base t = F15_SPEED_ALTITUDE -> perf (speed_part (t_text t), first_level (t_text t)) (sa_eff t p).
Proof. intros W B. destruct (sa_perf t p W B) as (a & -> & -> & ->). destruct p. repeat split. Qed.
Lemma perf_climb t p : wt t -> (t_base t = F15_SPEED_ALTITUDE_ALTITUDE \/ t_base t = F15_SPEED_ALTITUDE_PLUS) -> perf (speed_part (t_text t), first_level (t_text t)) (climb_eff t p).
Proof.
  intros W [B|B]; unfold climb_eff; rewrite B.
  - destruct (saa_perf t p W B) as (a & b & c & -> & -> & -> & _). destruct p. repeat split.
  - destruct (sap_perf t p W B) as (a & b & -> & -> & -> & _). destruct p. repeat split.
Qed.
Lemma perf_vfr t p : wt t -> t_base t = F15_SPEED_VFR -> perf (speed_part (t_text t), $"F050") (vfr_eff t p).
Proof. intros W B. destruct (vfr_perf t p W B) as (a & -> & ->). destruct p. repeat split. Qed.
Lemma perf_carry m q r : perf m q -> perf m (carry q r).
Proof. destruct q, r. exact (fun H => H). Qed.
Lemma perf_pt t m p : perf m p -> perf m (pt_rec G t p).
Proof. unfold pt_rec, move_bd. destruct p. destruct (t_sub t); exact (fun H => H). Qed.
Lemma perf_texts m : forall txt p, perf m p -> perf m (texts txt p).
Proof.
  induction txt as [|t txt IH]; intros p H; [exact H|]. change (texts (t :: txt) p) with (texts txt (append_break_text (t_text t) p)). apply IH.
  unfold append_break_text. destruct (pstr_eqb _ _); destruct p; exact H.
Qed.
Definition perf0 (m : option (pstr * pstr)) (c : ctx) (p : rrec) : Prop := match m with Some x => perf x p | None => c = XStart end.
Lemma mod_out t : modifier (t, ROut) = match t_base t with
      | F15_SPEED_ALTITUDE | F15_SPEED_ALTITUDE_PLUS | F15_SPEED_ALTITUDE_ALTITUDE => Some (speed_part (t_text t), first_level (t_text t))
      | F15_SPEED_VFR => Some (speed_part (t_text t), $"F050")
      | _ => None end.
Proof. reflexivity. Qed.
Lemma mod_text txt : last_some modifier (map (fun t => (t, RText)) txt) = None.
Proof. induction txt as [|t txt IH]; [reflexivity|]. cbn [map last_some]. now rewrite IH. Qed.
Lemma perf_step1 c s r j k m : follows c s = true -> proper c s r -> Forall wt (tokens_of s) -> perf0 m c (k_p k) ->
  perf0 (match last_some modifier (rstep s) with Some x => Some x | None => m end) (after c s) (k_p (eff1 G j s k)).
Proof.
  intros F P W H. assert (Hm : c <> XStart -> exists x, m = Some x /\ perf x (k_p k)) by (intro N; destruct m as [x|]; [eauto|contradiction]).
  destruct s; cbn [rstep tokens_of map last_some] in *; try rewrite mod_text; rewrite ?mod_out; cbn [proper] in P;
    repeat match goal with K : _ /\ _ |- _ => destruct K end; repeat match goal with K : _ \/ _ |- _ => destruct K end;
    repeat match goal with K : _ /\ _ |- _ => destruct K end;
    repeat match goal with K : t_base ?x = _ |- context [t_base ?x] => rewrite K end;
    repeat match goal with K : Forall wt (_ :: _) |- _ => inversion K; subst; clear K end;
    cbn [perf0 eff1 k_with k_p add_k rule_k pt_k vfr_k];
    try (now apply perf_sa); try (now apply perf_vfr); try (apply perf_climb; auto; fail);
    (destruct Hm as (x & -> & Hm); [intros ->; discriminate F|]).
  all: cbn [perf0 modifier snd].
  all: repeat match goal with K : t_base ?x = _ |- context [t_base ?x] => rewrite K end; cbn [perf0].
  all: try exact Hm; try (apply perf_texts; exact Hm).
  all: try (assert (C0 : perf x (carry (k_p k) (tok_rec t))) by (apply perf_carry; exact Hm)).
  all: try exact C0.
  all: try (apply perf_pt; exact C0).
  all: try (apply perf_pt; destruct (carry (k_p k) (tok_rec t)); exact C0).
  all: try (destruct (carry (k_p k) (tok_rec t)); exact C0).
  all: try (destruct (k_p k); exact Hm).
Qed.
Lemma perf_run : forall ss1 c ss2 j k m, derives c (ss1 ++ ss2) -> Forall wt (yield ss1) -> perf0 m c (k_p k) ->
  perf0 (match last_some modifier (ryield ss1) with Some x => Some x | None => m end) (fold_left after ss1 c) (k_p (effs G j ss1 k)).
Proof.
  induction ss1 as [|s r IH]; intros c ss2 j k m D W H; [exact H|]. cbn [app derives fold_left effs] in *. destruct D as (F & P & D).
  rewrite yield_cons, Forall_app in W. destruct W as [W1 W2]. rewrite ryield_cons, last_some_app.
  pose proof (IH _ ss2 (j + length (tokens_of s)) _ _ D W2 (perf_step1 c s _ j k m F P W1 H)) as K.
  destruct (last_some modifier (ryield r)); exact K.
Qed.
Lemma sa_same t p : wt t -> t_base t = F15_SPEED_ALTITUDE -> perf (speed_part (t_text t), first_level (t_text t)) p -> r_rules p = RULE_I -> sa_eff t p = p.
Proof.
  intros W B (H1 & H2 & H3 & H4) H5. destruct (sa_perf t p W B) as (a & -> & E1 & E2). cbn [fst snd] in *. rewrite E1, E2 in *.
  unfold sa_rec, set_alt, set_spd. destruct p as [n b1 e1 b2 sb al als sp sps br ru er0 sy ct cts la lo bg di lv]. cbn [r_alt_si r_alt r_speed r_speed_si r_rules set_r_rules set_r_speed_si set_r_speed set_r_alt_si set_r_alt num_z] in *. subst. reflexivity.
Qed.
Lemma snoc_ind_ctx (ss1 : list step) : ss1 = [] \/ exists ss0 s, ss1 = ss0 ++ [s].
Proof. induction ss1 as [|x l _] using rev_ind; [now left|right; eauto]. Qed.
Lemma derives_last ss0 s ss2 c : derives c ((ss0 ++ [s]) ++ ss2) -> follows (fold_left after ss0 c) s = true /\ proper (fold_left after ss0 c) s (yield ss2).
Proof. rewrite <- app_assoc. intro D. apply derives_app in D. cbn [app derives] in D. tauto. Qed.
Lemma rules_point ss1 ss2 b k j : derives XStart (ss1 ++ ss2) -> Forall wt (yield ss1) -> fold_left after ss1 XStart = XPoint b -> r_rules (k_p (effs G j ss1 k)) = RULE_I.
Proof.
  intros D W E. destruct (snoc_ind_ctx ss1) as [->|(ss0 & s & ->)]; [discriminate|]. destruct (derives_last _ _ _ _ D) as (F & P).
  rewrite fold_left_app in E. cbn [fold_left] in E. rewrite effs_app. cbn [effs]. set (k1 := effs G j ss0 k). clearbody k1. set (j1 := j + _). clearbody j1.
  rewrite yield_app, Forall_app in W. destruct W as [_ W]. unfold yield in W. cbn [flat_map] in W. rewrite app_nil_r in W.
  set (c := fold_left after ss0 XStart) in *. clearbody c. clear D. assert (Pt : forall t p, r_rules p = RULE_I -> r_rules (pt_rec G t p) = RULE_I) by (intros t p H; unfold pt_rec, move_bd; destruct (t_sub t); exact H).
  destruct s; cbn [after] in E; try discriminate E; cbn [eff1 k_with k_p pt_k rule_k add_k] in *; try (apply Pt; reflexivity).
  - cbn [proper] in P. destruct P as (_ & B & _). cbn [tokens_of] in W. inversion W as [|? ? _ W1]; subst. inversion W1 as [|? ? W2 _]; subst. destruct (sa_perf t (k_p k1) W2 B) as (a & -> & _). reflexivity.
  - destruct (begins (t_sub t)); discriminate E.
  - destruct c; discriminate E.
  - cbn [proper] in P. destruct P as (_ & B & _). cbn [tokens_of] in W. inversion W as [|? ? _ W1]; subst. inversion W1 as [|? ? W2 _]; subst. unfold climb_eff.
    destruct B as [B|B]; rewrite B; [destruct (saa_perf t (k_p k1) W2 B) as (a & b' & c' & -> & _)|destruct (sap_perf t (k_p k1) W2 B) as (a & b' & -> & _)]; reflexivity.
Qed.
Lemma section_last k x rest : rest <> [] -> forall u, section k (u ++ [x]) rest -> ends k (t_sub x) = true.
Proof.
  intro N. induction u as [|y u IH]; cbn [app section]; intros (_ & H).
  - destruct (ends k (t_sub x)); [reflexivity|contradiction].
  - destruct (ends k (t_sub y)); [|now apply IH]. destruct (resume k ((u ++ [x]) ++ rest)); [now apply IH|destruct u; discriminate H|contradiction].
Qed.
Lemma then_speed_after ss1 ss2 b : derives XStart (ss1 ++ ss2) -> fold_left after ss1 XStart = XThenSpeed b -> just_resumed (ryield ss1).
Proof.
  intros D E. destruct (snoc_ind_ctx ss1) as [->|(ss0 & s & ->)]; [discriminate|]. destruct (derives_last _ _ _ _ D) as (F & P). rewrite fold_left_app in E. cbn [fold_left] in E.
  destruct (fold_left after ss0 XStart) as [| | | | | | | | |[]|[]| | |] eqn:Ec; destruct s; try discriminate F; cbn [after] in E; try discriminate E; try (destruct (begins (t_sub t)); discriminate E).
  rewrite <- app_assoc in D. destruct (snoc_ind_ctx ss0) as [->|(ss3 & s & ->)]; [discriminate|]. rewrite fold_left_app in Ec. cbn [fold_left] in Ec. destruct (derives_last _ _ _ _ D) as (F' & P').
  destruct (fold_left after ss3 XStart) as [| | | | | | | | |[]|[]| | |]; destruct s; try discriminate F'; cbn [after] in Ec; try discriminate Ec; try (destruct (begins (t_sub _)); discriminate Ec).
  cbn [proper] in P'. destruct P' as (N & P'). destruct (exists_last N) as (u & x & ->). exists (ryield ss3 ++ map (fun t => (t, RText)) u), x, t.
  split; [|apply section_last in P'; [destruct (t_sub x); try discriminate P'; reflexivity|discriminate]].
  rewrite !ryield_app. unfold ryield at 2 3. cbn [flat_map rstep tokens_of map app]. rewrite app_nil_r, map_app, <- !app_assoc. reflexivity.
Qed.
Theorem repeated_speed depth depth' f s pre sl t rest g : parse_field15 G depth f = Ok true s ->
  field_roles f = pre ++ (sl, ROut) :: (t, ROut) :: rest -> t_base t = F15_SPEED_ALTITUDE -> ~ just_resumed pre ->
  in_force pre = Some (speed_part (t_text t), first_level (t_text t)) ->
  element_texts g = wordsof (pre ++ rest) -> 3 * n_tokens g <= depth' + 1 ->
  exists s', parse_field15 G depth' g = Ok true s' /\ same_sequence (s_ers s) (s_ers s').
Proof.
  intros H W Bt Nj If Eg Hd. destruct (roles_steps f depth s H) as (ss & D & Y & R & B & Es). rewrite R in W.
  change (pre ++ (sl, ROut) :: (t, ROut) :: rest) with (pre ++ [(sl, ROut)] ++ (t, ROut) :: rest) in W. rewrite app_assoc in W.
  destruct (locate ss XStart _ _ _ D W) as (c & st & ss1 & ss2 & a & b & Ess & Er & Ep & Et & F & P & D2 & Ec). rewrite Ess in D.
  destruct (speed_step _ _ _ _ _ _ P Er Bt) as [(-> & -> & ->)|(sl0 & -> & -> & ->)].
  { exfalso. destruct c as [| | | | | | | | |[]|[]| | |]; try discriminate F. symmetry in Ec. rewrite (start_only _ _ D Ec) in Ep. destruct pre; discriminate. }
  apply app_inj_tail in Ep as (-> & Esl). injection Esl as <-. cbn [app] in Et. subst rest.
  assert (Hc : exists b, c = XPoint b).
  { destruct c as [| | | | | | | | |[]|[]| | |]; try discriminate F; eauto. exfalso. apply Nj. symmetry in Ec. exact (then_speed_after _ _ _ D Ec). }
  destruct Hc as (b & ->). assert (Wt : Forall wt (yield ss)) by (rewrite Forall_forall; intros x Hx; symmetry; now apply B).
  rewrite Ess, yield_app, Forall_app, yield_cons, Forall_app in Wt. destruct Wt as (W1 & W2 & _). cbn [tokens_of] in W2. inversion W2 as [|? ? _ W3]; subst. inversion W3 as [|? ? W4 _]; subst.
  assert (D' : derives XStart (ss1 ++ ss2)).
  { apply (exchange ss1 XStart _ _ D); rewrite <- ?Ec.
    - exact D2.
    - now left.
    - discriminate.
    - destruct ss2 as [|x r].
      + right. right. destruct ss1 as [|x [|y r]]; [discriminate Ec| |cbn [length]; lia]. cbn [app derives] in D. destruct D as (F1 & _). destruct x; try discriminate F1; discriminate Ec.
      + left. cbn [derives] in D2. destruct D2 as (_ & P2 & _). apply step_tokens in P2. rewrite yield_cons. destruct (tokens_of x); [congruence|discriminate].
    - discriminate. }
  assert (B1 : by_text (yield (ss1 ++ ss2))).
  { rewrite yield_app, !yield_cons in B. rewrite yield_app. intros x Hx. apply B. apply in_app_or in Hx as [Hx|Hx]; apply in_or_app; [now left|right]. apply in_or_app. now right. }
  destruct (parse_steps depth' _ g D' B1) as (s' & Hp & E1 & E2 & E3); [|exact Hd|].
  { rewrite Eg, <- words_ryield, ryield_app. reflexivity. }
  exists s'. split; [exact Hp|]. assert (Q : result_of (ss1 ++ SSpeed sl t :: ss2) = result_of (ss1 ++ ss2)).
  { unfold result_of. rewrite !effs_app. cbn [effs eff1 tokens_of length]. rewrite (vfr_first_same ss1 _ ss2).
    - symmetry in Ec. pose proof (rules_point ss1 _ b core0 0 D W1 Ec) as Rp. pose proof (perf_run ss1 XStart _ 0 core0 None D W1 eq_refl) as Pf. unfold in_force in If. rewrite If in Pf. cbn [perf0] in Pf.
      rewrite (sa_same t _ W4 Bt Pf Rp). match goal with |- core_final _ (effs _ ?i _ ?k) = core_final _ (effs _ ?j _ ?k') => destruct (effs_shift ss2 i j k k' eq_refl eq_refl) end. now apply final_shift.
    - intro K. destruct ss1 as [|x ss1]; [discriminate Ec|]. cbn [app derives] in D. destruct D as (_ & Px & _). apply step_tokens in Px. rewrite yield_cons in K. apply app_eq_nil in K as [K _]. congruence. }
  rewrite Q in Es. exact (er_same_seq s s' _ Es E1 E2 E3).
Qed.

(** ** Without a DCT *)
Definition er_brg (r : rrec) : rrec := set_r_brg (S754_zero false) (set_r_dist (S754_zero false) r).
Definition er_leg (r : rrec) : rrec := er_rec (er_brg r).
Lemma azi_brg l p : map er_brg (azi G l p) = map er_brg l.
Proof.
  unfold azi. destruct (r_llv p); [|reflexivity]. destruct (rev l) as [|q m] eqn:E; [reflexivity|]. apply (f_equal (@rev _)) in E. rewrite rev_involutive in E. cbn [rev] in E. rewrite E. clear E.
  destruct (r_llv q); [rewrite !map_app; f_equal; destruct q; reflexivity|]. destruct m as [|q2 m2]; [reflexivity|]. destruct (r_llv q2); [|reflexivity].
  cbn [rev]. rewrite !map_app, <- app_assoc. f_equal; destruct q2; reflexivity.
Qed.
Lemma prev_brg t l p : map er_brg (pt_prev G t l p) = map er_brg l.
Proof. unfold pt_prev. destruct (t_sub t); rewrite ?azi_brg; reflexivity. Qed.
Lemma leg_brg l l' : map er_brg l = map er_brg l' -> map er_leg l = map er_leg l'.
Proof. intro E. change er_leg with (fun r => er_rec (er_brg r)). rewrite <- !(map_map er_brg er_rec), E. reflexivity. Qed.
Ltac legs p p' E :=
  destruct p as [n b1 e1 b2 sb al als sp sps br ru er0 sy ct cts la lo bg di lv], p' as [n' b1' e1' b2' sb' al' als' sp' sps' br' ru' er0' sy' ct' cts' la' lo' bg' di' lv'];
  unfold er_leg, er_brg, er_rec in E;
  cbn [r_name r_base r_sub r_alt r_alt_si r_speed r_speed_si r_break r_rules r_err r_stay r_cto r_cto_si r_lat r_lon r_brg r_dist r_llv set_r_brg set_r_dist] in E;
  injection E; intros; subst.
Lemma leg_sa t p p' : er_leg p = er_leg p' -> er_leg (sa_eff t p) = er_leg (sa_eff t p').
Proof. intro E. legs p p' E. unfold sa_eff. destruct (sa_cut (t_sub t)); reflexivity. Qed.
Lemma leg_climb t p p' : er_leg p = er_leg p' -> er_leg (climb_eff t p) = er_leg (climb_eff t p').
Proof. intro E. legs p p' E. unfold climb_eff, sap_eff, saa_eff. destruct (t_base t); try (destruct (saa_cut (t_sub t)) as [[[x y] z]|]; reflexivity); destruct (sap_cut (t_sub t)) as [[x y]|]; reflexivity. Qed.
Lemma leg_vfr t p p' : er_leg p = er_leg p' -> er_leg (vfr_eff t p) = er_leg (vfr_eff t p').
Proof. intro E. legs p p' E. unfold vfr_eff. destruct (vfr_cut (t_sub t)); reflexivity. Qed.
Lemma leg_rules ru0 p p' : er_leg p = er_leg p' -> er_leg (set_r_rules ru0 p) = er_leg (set_r_rules ru0 p').
Proof. intro E. legs p p' E. reflexivity. Qed.
Lemma leg_copy q q' p p' : er_leg q = er_leg q' -> er_leg p = er_leg p' -> er_leg (copy_perf q p) = er_leg (copy_perf q' p').
Proof.
  intros E E'. unfold copy_perf. assert (Q : r_alt_si q = r_alt_si q' /\ r_alt q = r_alt q' /\ r_speed_si q = r_speed_si q' /\ r_speed q = r_speed q').
  { legs q q' E. repeat split. }
  destruct Q as (-> & -> & -> & ->). legs p p' E'. reflexivity.
Qed.
Lemma leg_carry r p p' : er_leg p = er_leg p' -> er_leg (carry p r) = er_leg (carry p' r).
Proof. intro E. legs p p' E. reflexivity. Qed.
Lemma leg_pt t p p' : er_leg p = er_leg p' -> er_leg (pt_rec G t p) = er_leg (pt_rec G t p').
Proof. intro E. legs p p' E. unfold pt_rec, move_bd. destruct (t_sub t); reflexivity. Qed.
Lemma leg_texts : forall txt p p', er_leg p = er_leg p' -> er_leg (texts txt p) = er_leg (texts txt p').
Proof.
  induction txt as [|t txt IH]; intros p p' E; [exact E|]. change (er_leg (texts txt (append_break_text (t_text t) p)) = er_leg (texts txt (append_break_text (t_text t) p'))). apply IH.
  unfold append_break_text. assert (r_break p = r_break p') as -> by (legs p p' E; reflexivity). destruct (pstr_eqb (r_break p') []); legs p p' E; reflexivity.
Qed.
Definition Rel (A : list rrec) (r : rrec) (k k' : core) : Prop :=
  exists B, map er_brg (k_l k) = A ++ r :: B /\ map er_leg (k_l k') = map er_leg A ++ map er_leg B /\ er_leg (k_p k) = er_leg (k_p k').
Lemma er_twice r : er_leg (er_brg r) = er_leg r. Proof. destruct r; reflexivity. Qed.
Lemma Rel_add A r k k' q q' p p' js js' : Rel A r k k' -> er_leg q = er_leg q' -> er_leg p = er_leg p' -> Rel A r (mkK (k_l k ++ [q]) p js) (mkK (k_l k' ++ [q']) p' js').
Proof.
  intros (B & E1 & E2 & _) Eq Ep. exists (B ++ [er_brg q]). cbn [k_l k_p]. rewrite !map_app, E1, E2. cbn [map]. rewrite er_twice, Eq, <- !app_assoc. repeat split; auto.
Qed.
Lemma Rel_last A r k k' p p' js js' : Rel A r k k' -> er_leg p = er_leg p' -> Rel A r (mkK (k_l k) p js) (mkK (k_l k') p' js').
Proof. intros (B & E1 & E2 & _) Ep. exists B. auto. Qed.
Lemma Rel_pt A r t k k' : Rel A r k k' -> Rel A r (pt_k G t k) (pt_k G t k').
Proof.
  intros (B & E1 & E2 & E3). exists B. unfold pt_k. cbn [k_l k_p]. rewrite prev_brg. split; [exact E1|]. split; [|now apply leg_pt].
  rewrite <- E2. apply leg_brg, prev_brg.
Qed.
Lemma Rel_step A r s j j' k k' : Rel A r k k' -> Rel A r (eff1 G j s k) (eff1 G j' s k').
Proof.
  intro H. pose proof H as (_ & _ & _ & E). assert (Ad : forall i i' t, Rel A r (add_k i t k) (add_k i' t k')) by (intros; unfold add_k; apply Rel_add; auto; now apply leg_carry).
  assert (Ru : forall x y ru, Rel A r x y -> Rel A r (rule_k ru x) (rule_k ru y)).
  { intros x y ru K. unfold rule_k, k_with. apply Rel_last; [exact K|]. destruct K as (_ & _ & _ & K). now apply leg_rules. }
  assert (Rt : forall x y b sb, er_leg x = er_leg y -> er_leg (retype b sb x) = er_leg (retype b sb y)) by (intros x y b0 sb0 K; legs x y K; reflexivity).
  destruct s; cbn [eff1]; unfold k_with.
  all: try (apply Rel_last; [exact H|]).
  all: auto using leg_sa, leg_climb, leg_texts.
  - unfold vfr_k. apply Rel_add; [exact H|apply leg_copy; auto using leg_vfr|auto using leg_vfr].
  - apply Rel_pt. auto.
  - cbv zeta. unfold add_k. cbn [k_l k_p k_js]. apply Rel_add; [exact H|exact E|]. apply Rt. now apply leg_carry.
  - cbv zeta. unfold add_k. cbn [k_l k_p k_js]. apply Rel_add; [exact H|exact E|]. apply Rt. now apply leg_carry.
  - unfold vfr_k. apply Rel_add; [exact H|apply leg_copy; auto using leg_vfr|auto using leg_vfr].
  - apply Rel_pt. auto.
  - clear -E. set (p := k_p k) in *. set (p' := k_p k') in *. clearbody p p'. legs p p' E. reflexivity.
Qed.
Lemma Rel_steps A r : forall ss j j' k k', Rel A r k k' -> Rel A r (effs G j ss k) (effs G j' ss k').
Proof. induction ss as [|s ss IH]; intros j j' k k' H; [exact H|]. cbn [effs]. apply IH. now apply Rel_step. Qed.

Lemma same_leg r r' : er_leg r = er_leg r' -> same_but_leg r r'.
Proof. unfold er_leg, er_brg, er_rec, same_but_leg. cbn [r_name r_base r_sub r_alt r_alt_si r_speed r_speed_si r_break r_rules r_err r_stay r_cto r_cto_si r_lat r_lon r_brg r_dist r_llv set_r_brg set_r_dist]. intro H. injection H. intros. repeat split; assumption. Qed.
Lemma same_legs l : forall l', map er_leg l = map er_leg l' -> Forall2 same_but_leg l l'.
Proof. induction l as [|a l IH]; intros [|b l'] H; try discriminate; constructor; [apply same_leg|apply IH]; cbn [map] in H; congruence. Qed.
Lemma leg_sym r r' : same_but_leg r r' -> same_but_leg r' r.
Proof. unfold same_but_leg. intro H. decompose [and] H. repeat split; symmetry; assumption. Qed.
Lemma cons_leg a l a' l' : map er_leg (a :: l) = map er_leg (a' :: l') -> er_leg a = er_leg a' /\ map er_leg l = map er_leg l'.
Proof. intro H. split; [exact (f_equal (hd (er_leg a)) H)|exact (f_equal (@tl _) H)]. Qed.
Definition upd_first (v : bool) (l : list rrec) : list rrec := if v then list_upd 0 (set_r_rules RULE_V) l else l.
Lemma core_recs_eq v k : core_recs v k = upd_first v (k_l k ++ [k_p k]).
Proof. unfold core_recs, upd_first. destruct v; reflexivity. Qed.
Lemma upd_first_app v a l b : upd_first v ((a :: l) ++ b) = upd_first v (a :: l) ++ b.
Proof. destruct v; reflexivity. Qed.
Lemma upd_first_leg v l l' : map er_leg l = map er_leg l' -> map er_leg (upd_first v l) = map er_leg (upd_first v l').
Proof.
  destruct v; [|exact (fun H => H)]. destruct l as [|a l], l' as [|a' l']; try discriminate; [reflexivity|]. intro H. apply cons_leg in H as [H1 H2]. cbn [upd_first list_upd map]. f_equal; [|exact H2]. now apply leg_rules.
Qed.
Lemma rules_of_legs l : forall l', map er_leg l = map er_leg l' -> map r_rules l = map r_rules l'.
Proof.
  induction l as [|a l IH]; intros [|b l'] H; try discriminate; [reflexivity|]. apply cons_leg in H as [H1 H2]. cbn [map]. f_equal; [|now apply IH].
  pose proof (same_leg _ _ H1) as K. apply K.
Qed.
Lemma derived_rules l l' : map r_rules l = map r_rules l' -> derived l = derived l'.
Proof.
  intro H. assert (Sm : forall ru a b, map r_rules a = map r_rules b -> some_rules ru a = some_rules ru b).
  { intros ru. induction a as [|x a IH]; intros [|y b] E; try discriminate; [reflexivity|]. cbn [map] in E. injection E as E1 E2. unfold some_rules in *. cbn [existsb]. now rewrite E1, (IH _ E2). }
  unfold derived. destruct l as [|x l], l' as [|y l']; try discriminate; [reflexivity|]. rewrite !(Sm _ _ _ H). cbn [map] in H. injection H as -> _. reflexivity.
Qed.
Lemma derived_without u U x V : In (r_rules x) (map r_rules (u :: U)) -> derived ((u :: U) ++ x :: V) = derived ((u :: U) ++ V).
Proof.
  intro H. assert (Sm : forall ru, some_rules ru ((u :: U) ++ x :: V) = some_rules ru ((u :: U) ++ V)).
  { intro ru. unfold some_rules. rewrite !existsb_app. cbn [existsb]. destruct (pstr_eqb (r_rules x) ru) eqn:E; [|reflexivity]. cbn [orb].
    assert (K : existsb (fun r => pstr_eqb (r_rules r) ru) (u :: U) = true).
    { apply existsb_exists. apply in_map_iff in H as (y & Ey & Hy). exists y. split; [exact Hy|]. now rewrite Ey. }
    cbn [existsb] in K. rewrite K. reflexivity. }
  cbn [app] in *. unfold derived. now rewrite !Sm.
Qed.
Lemma map_split {X Y} (h : X -> Y) : forall l A r B, map h l = A ++ r :: B -> exists A0 x B0, l = A0 ++ x :: B0 /\ map h A0 = A /\ h x = r /\ map h B0 = B.
Proof.
  induction l as [|y l IH]; intros [|a A] r B E; cbn [map app] in E; try discriminate; injection E as E1 E2.
  - exists [], y, l. auto.
  - destruct (IH _ _ _ E2) as (A0 & x & B0 & -> & <- & <- & <-). exists (y :: A0), x, B0. rewrite <- E1. auto.
Qed.
Lemma leg_of_brg l : map er_leg (map er_brg l) = map er_leg l.
Proof. rewrite map_map. apply map_ext. intro. apply er_twice. Qed.
Lemma last_leg l l' d : map er_leg l = map er_leg l' -> er_leg (last l d) = er_leg (last l' d).
Proof.
  revert l'. induction l as [|a l IH]; intros [|b l'] H; try discriminate; [reflexivity|]. apply cons_leg in H as [H1 H2]. destruct l as [|a2 l], l' as [|b2 l']; try discriminate; [exact H1|].
  change (er_leg (last (a2 :: l) d) = er_leg (last (b2 :: l') d)). now apply IH.
Qed.
Lemma Rel_final (v : bool) A r k k' : Rel A r k k' -> (exists a A1, A = a :: A1 /\ In (r_rules r) (map r_rules (if v then A1 else A))) ->
  exists U x V, core_final v k = U ++ x :: V /\ er_brg x = r /\ Forall2 same_but_leg (U ++ V) (core_final v k') /\ derived (core_final v k) = derived (core_final v k').
Proof.
  intros (B & E1 & E2 & E3) (a & A1 & -> & Hin). apply map_split in E1 as (A0 & x & B0 & El & EA & Ex & EB). destruct A0 as [|a0 A0]; [discriminate EA|]. cbn [map] in EA. injection EA as Ea EA.
  assert (Ek : core_recs v k = upd_first v (a0 :: A0) ++ x :: B0 ++ [k_p k]).
  { rewrite core_recs_eq, El, <- app_assoc. apply (upd_first_app v a0 A0). }
  assert (Ek' : map er_leg (core_recs v k') = map er_leg (upd_first v (a0 :: A0) ++ B0 ++ [k_p k])).
  { rewrite core_recs_eq, <- (upd_first_app v a0 A0). apply upd_first_leg. rewrite !map_app, E2, <- Ea, <- EA, <- EB. cbn [map]. rewrite er_twice, E3, !leg_of_brg. rewrite <- !app_assoc. reflexivity. }
  assert (Ea' : er_leg (ades_rec (core_recs v k')) = er_leg (ades_rec (core_recs v k))).
  { pose proof (last_leg _ _ adep0 Ek') as K. unfold ades_rec. assert (Q : r_rules (last (core_recs v k') adep0) = r_rules (last (core_recs v k) adep0)); [|now rewrite Q].
    transitivity (r_rules (last (upd_first v (a0 :: A0) ++ B0 ++ [k_p k]) adep0)); [apply (same_leg _ _ K)|]. rewrite Ek. f_equal. rewrite app_assoc.
    change (x :: B0 ++ [k_p k]) with ((x :: B0) ++ [k_p k]). rewrite app_assoc, !last_last. reflexivity. }
  exists (upd_first v (a0 :: A0)), x, (B0 ++ [k_p k] ++ [ades_rec (core_recs v k)]).
  assert (Ef : core_final v k = upd_first v (a0 :: A0) ++ x :: (B0 ++ [k_p k] ++ [ades_rec (core_recs v k)])).
  { unfold core_final. rewrite Ek at 1. rewrite <- app_assoc. cbn [app]. rewrite <- app_assoc. reflexivity. }
  assert (Eg : map er_leg (core_final v k') = map er_leg (upd_first v (a0 :: A0) ++ (B0 ++ [k_p k] ++ [ades_rec (core_recs v k)]))).
  { unfold core_final. rewrite map_app, Ek'. rewrite !map_app. cbn [map]. rewrite Ea', <- !app_assoc. reflexivity. }
  split; [exact Ef|]. split; [exact Ex|]. split; [apply same_legs; now symmetry|]. rewrite Ef, (derived_rules _ _ (rules_of_legs _ _ Eg)).
  assert (Rb : forall l, map r_rules (map er_brg l) = map r_rules l) by (intro l; rewrite map_map; apply map_ext; intros []; reflexivity).
  assert (Rx : r_rules r = r_rules x) by (rewrite <- Ex; destruct x; reflexivity). rewrite Rx in Hin.
  destruct v; cbn [upd_first list_upd]; apply derived_without; cbn [map].
  - right. rewrite <- EA, Rb in Hin. exact Hin.
  - rewrite <- Ea, <- EA in Hin. cbn [map] in Hin. rewrite Rb in Hin. destruct Hin as [Hin|Hin]; [left|now right]. rewrite <- Hin. destruct a0; reflexivity.
Qed.
Lemma eff_len j s k : length (k_l k) <= length (k_l (eff1 G j s k)).
Proof.
  assert (Pv : forall t l p, length (pt_prev G t l p) = length l) by (intros t l p; rewrite <- (map_length er_brg), prev_brg; apply map_length).
  destruct s; cbn [eff1 k_l k_with add_k rule_k pt_k vfr_k]; rewrite ?Pv, ?app_length; cbn [length]; lia.
Qed.
Lemma effs_len : forall ss j k, length (k_l k) <= length (k_l (effs G j ss k)).
Proof. induction ss as [|s ss IH]; intros j k; [reflexivity|]. cbn [effs]. pose proof (eff_len j s k). pose proof (IH (j + length (tokens_of s)) (eff1 G j s k)). lia. Qed.
Definition adds (s : step) : bool := match s with SPoint _ | SC _ | SClimb _ _ _ => true | _ => false end.
Theorem dct_effect ss1 d s2 ss2 : derives XStart (ss1 ++ SDct d :: s2 :: ss2) -> adds s2 = true ->
  exists U x V, result_of (ss1 ++ SDct d :: s2 :: ss2) = U ++ x :: V /\ (r_name x = t_text d /\ r_start x = t_start d /\ r_end x = t_end d /\ r_base x = F15_DCT) /\
    Forall2 same_but_leg (U ++ V) (result_of (ss1 ++ s2 :: ss2)) /\ derived (result_of (ss1 ++ SDct d :: s2 :: ss2)) = derived (result_of (ss1 ++ s2 :: ss2)).
Proof.
  intros D Ha. assert (N1 : yield ss1 <> []).
  { destruct ss1 as [|x ss1]; [cbn [app derives] in D; destruct D as (K & _); discriminate K|]. cbn [app derives] in D. destruct D as (_ & Px & _). apply step_tokens in Px. rewrite yield_cons. destruct (tokens_of x); [congruence|discriminate]. }
  assert (Bd : t_base d = F15_DCT) by (apply derives_app in D; cbn [derives proper] in D; tauto).
  unfold result_of. rewrite <- (vfr_first_same ss1 (SDct d :: s2 :: ss2) (s2 :: ss2) N1). set (v := is_vfr_first _).
  rewrite !effs_app. set (k0 := effs G 0 ss1 core0). cbn [effs].
  set (j := 0 + length (yield ss1)). cbn [tokens_of length]. set (A := map er_brg (k_l k0 ++ [k_p k0])). set (r := er_brg (carry (k_p k0) (tok_rec d))).
  assert (R0 : forall j1 j2 j3 t, Rel A r (add_k j1 t (add_k j2 d k0)) (add_k j3 t k0)).
  { intros j1 j2 j3 t. exists []. unfold add_k. cbn [k_l k_p k_js]. split; [|split].
    - unfold A, r. rewrite !map_app. reflexivity.
    - unfold A. rewrite leg_of_brg. cbn [map]. now rewrite app_nil_r.
    - f_equal. }
  assert (R1 : Rel A r (eff1 G (j + 1) s2 (eff1 G j (SDct d) k0)) (eff1 G j s2 k0)).
  { destruct s2; try discriminate Ha; cbn [eff1].
    - apply Rel_pt. destruct (R0 (j + 1) j j t) as (B & E1 & E2 & E3). exists B. unfold rule_k, k_with. cbn [k_l k_p]. split; [exact E1|]. split; [exact E2|]. now apply leg_rules.
    - apply R0.
    - apply Rel_pt, R0. }
  pose proof (Rel_steps A r ss2 (j + 1 + length (tokens_of s2)) (j + length (tokens_of s2)) _ _ R1) as R2.
  destruct (Rel_final v A r _ _ R2) as (U & x & V & F1 & F2 & F3 & F4).
  - assert (Lr : r_rules r = r_rules (er_brg (k_p k0))) by (unfold r; destruct (k_p k0); reflexivity).
    unfold A. rewrite map_app. cbn [map]. destruct (k_l k0) as [|a l] eqn:El; cbn [map app].
    + exists (er_brg (k_p k0)), []. split; [reflexivity|]. assert (Hv : v = false).
      { unfold v. rewrite yield_app. destruct ss1 as [|x ss1]; [exfalso; apply N1; reflexivity|]. cbn [app derives] in D. destruct D as (F & P & _). destruct x; try discriminate F; cbn [proper] in P.
        - rewrite yield_cons. cbn [tokens_of app is_vfr_first]. destruct P as (P & _). rewrite P. reflexivity.
        - exfalso. unfold k0 in El. cbn [effs] in El. pose proof (effs_len ss1 (0 + length (tokens_of (SFirstVfr t))) (eff1 G 0 (SFirstVfr t) core0)) as K. rewrite El in K. cbn in K. lia. }
      rewrite Hv. left. now symmetry.
    + exists (er_brg a), (map er_brg l ++ [er_brg (k_p k0)]). split; [reflexivity|]. rewrite Lr. apply in_map. destruct v; [|right]; apply in_or_app; right; now left.
  - exists U, x, V. split; [exact F1|]. split; [|split; [exact F3|exact F4]].
    assert (Q : forall y, r_name (er_brg y) = r_name y /\ r_start (er_brg y) = r_start y /\ r_end (er_brg y) = r_end y /\ r_base (er_brg y) = r_base y) by (intros []; repeat split).
    destruct (Q x) as (<- & <- & <- & <-). rewrite F2. unfold r. destruct (Q (carry (k_p k0) (tok_rec d))) as (-> & -> & -> & ->). cbn. auto.
Qed.

Lemma next_step ss c q ro w : derives c ss -> ryield ss = (q, ro) :: w -> (t_base q = F15_POINT \/ t_base q = F15_C) -> c = XDct ->
  exists s2 r, ss = s2 :: r /\ adds s2 = true /\ (t_base q = F15_POINT -> exists t, s2 = SPoint t).
Proof.
  intros D E B ->. destruct ss as [|s r]; [discriminate|]. cbn [derives] in D. destruct D as (F & P & D). exists s, r. split; [reflexivity|].
  destruct s; try discriminate F; rewrite ryield_cons in E; cbn [rstep tokens_of map app] in E; injection E; intros; subst; cbn [proper adds] in *; (split; [try reflexivity|eauto]).
  - intro K. destruct P as (P & _). congruence.
  - destruct P as (P & _). destruct B; congruence.
  - intro K. destruct P as (P & _). congruence.
  - intro K. destruct P as (P & _). congruence.
Qed.
Theorem dct_dropped depth depth' f s pre d q ro rest g : parse_field15 G depth f = Ok true s ->
  field_roles f = pre ++ (d, ROut) :: (q, ro) :: rest -> t_base d = F15_DCT -> (t_base q = F15_POINT \/ (t_base q = F15_C /\ 2 <= length pre)) ->
  element_texts g = wordsof (pre ++ (q, ro) :: rest) -> 3 * n_tokens g <= depth' + 1 ->
  exists s' U x V, parse_field15 G depth' g = Ok true s' /\
    e_recs (s_ers s) = U ++ x :: V /\ (r_name x = t_text d /\ r_start x = t_start d /\ r_end x = t_end d /\ r_base x = F15_DCT) /\
    Forall2 same_but_leg (U ++ V) (e_recs (s_ers s')) /\ e_errs (s_ers s') = [] /\ e_rules (s_ers s') = e_rules (s_ers s).
Proof.
  intros H W Bd Hq Eg Hd. destruct (roles_steps f depth s H) as (ss & D & Y & R & B & Es). rewrite R in W.
  destruct (locate ss XStart _ _ _ D W) as (c & st & ss1 & ss2 & a & b & Ess & Er & Ep & Et & F & P & D2 & Ec). rewrite Ess in D.
  destruct (dct_step _ _ _ _ _ _ P Er Bd) as (-> & -> & ->). rewrite app_nil_r in Ep. cbn [app] in Et. subst pre. cbn [after] in D2.
  destruct (next_step ss2 XDct q ro rest D2) as (s2 & r & -> & Ha & Hs); [now symmetry|tauto|reflexivity|]. cbn [derives] in D2. destruct D2 as (F2 & P2 & D2).
  assert (Nb : yield (s2 :: r) <> []) by (apply step_tokens in P2; rewrite yield_cons; destruct (tokens_of s2); [congruence|discriminate]).
  assert (Hn : no_slash (yield (s2 :: r))).
  { rewrite yield_cons. destruct s2; try discriminate Ha; cbn [tokens_of app no_slash proper] in *; [destruct P2 as (K & _)|destruct P2 as (K & _)|destruct P2 as (K & _)]; rewrite K; discriminate. }
  assert (D' : derives XStart (ss1 ++ s2 :: r)).
  { apply (exchange ss1 XStart _ _ D); rewrite <- ?Ec.
    - cbn [derives]. assert (Nc : c = XAdep -> exists t, s2 = SPoint t).
      { intro K. apply Hs. destruct Hq as [Hq|(_ & Hq)]; [exact Hq|exfalso]. rewrite K in Ec. symmetry in Ec. destruct (adep_only _ _ D Ec) as (t & ->). cbn in Hq. lia. }
      destruct c as [| | | | | | | | |[]|[]| | |]; try discriminate F; destruct s2; try discriminate Ha; try (destruct (Nc eq_refl) as (? & K); discriminate K);
        (split; [reflexivity|]); (split; [exact P2|exact D2]).
    - left. destruct c as [| | | | | | | | |[]|[]| | |]; try discriminate F; reflexivity.
    - intros _. exact Hn.
    - now left.
    - destruct c as [| | | | | | | | |[]|[]| | |]; try discriminate F; discriminate. }
  assert (B1 : by_text (yield (ss1 ++ s2 :: r))).
  { rewrite Ess in B. rewrite yield_app, yield_cons in B. rewrite yield_app. intros x Hx. apply B. apply in_app_or in Hx as [Hx|Hx]; apply in_or_app; [now left|right]. apply in_or_app. now right. }
  destruct (parse_steps depth' _ g D' B1) as (s' & Hp & E1 & E2 & E3); [|exact Hd|].
  { rewrite Eg, Et, <- words_ryield, ryield_app. reflexivity. }
  destruct (dct_effect ss1 d s2 r D Ha) as (U & x & V & K1 & K2 & K3 & K4). exists s', U, x, V. split; [exact Hp|]. rewrite Es. cbn [e_recs e_rules]. rewrite Ess. split; [exact K1|]. split; [exact K2|].
  split; [|split; [exact E2|rewrite E3; symmetry; exact K4]].
  assert (Tr : forall l m n, Forall2 same_but_leg l m -> map er_rec n = map er_rec m -> Forall2 same_but_leg l n).
  { clear. induction l as [|x l IH]; intros m n HF E; inversion HF; subst; destruct n as [|z n]; try discriminate E; constructor.
    - cbn [map] in E. assert (Q : er_rec z = er_rec y) by exact (f_equal (hd (er_rec z)) E). apply er_same in Q. unfold same_but_place, same_but_leg in *. decompose [and] Q. decompose [and] H1. repeat split; congruence.
    - apply (IH l'); [assumption|]. exact (f_equal (@tl _) E). }
  exact (Tr _ _ _ K3 E1).
Qed.
(** ** With a DCT more *)
Lemma last_is c s : follows c s = true ->
  match after c s with XBreak _ => exists txt, s = SText txt | XRoute => exists t, s = SRoute t | XDct => exists t, s = SDct t | XSid => exists t, s = SSid t | _ => True end.
Proof.
  intro F. destruct s; cbn [after]; eauto; destruct c as [| | | | | | | | |[]|[]| | |]; try discriminate F; eauto; try exact I; destruct (begins (t_sub t)); exact I.
Qed.
Definition dct_token : token := mkToken ($"DCT") 0 0 (fst (classify ($"DCT"))) (snd (classify ($"DCT"))).
Theorem dct_inserted depth depth' f s pre x q rest g : parse_field15 G depth f = Ok true s ->
  field_roles f = pre ++ x :: (q, ROut) :: rest -> before_dct x -> t_base q = F15_POINT ->
  element_texts g = wordsof (pre ++ [x]) ++ $"DCT" :: wordsof ((q, ROut) :: rest) -> 3 * n_tokens g <= depth' + 1 ->
  exists s' U y V, parse_field15 G depth' g = Ok true s' /\
    e_recs (s_ers s') = U ++ y :: V /\ (r_name y = $"DCT" /\ r_base y = F15_DCT) /\
    Forall2 same_but_leg (U ++ V) (e_recs (s_ers s)) /\ e_errs (s_ers s') = [] /\ e_rules (s_ers s') = e_rules (s_ers s).
Proof.
  intros H W Bx Bq Eg Hd. destruct (roles_steps f depth s H) as (ss & D & Y & R & B & Es). rewrite R in W.
  change (pre ++ x :: (q, ROut) :: rest) with (pre ++ [x] ++ (q, ROut) :: rest) in W. rewrite app_assoc in W.
  destruct (locate ss XStart _ _ _ D W) as (c & st & ss1 & ss2 & a & b & Ess & Er & Ep & Et & F & P & D2 & Ec). rewrite Ess in D.
  destruct (point_step _ _ _ _ _ _ P Er Bq) as (Hst & -> & ->). rewrite app_nil_r in Ep. cbn [app] in Et. subst rest.
  assert (Hc : follows c (SDct dct_token) = true /\ st = SPoint q).
  { destruct (snoc_ind_ctx ss1) as [->|(ss0 & s1 & ->)]; [destruct pre; discriminate|]. destruct (derives_last _ _ _ _ D) as (F0 & P0). rewrite fold_left_app in Ec. cbn [fold_left] in Ec.
    rewrite ryield_app in Ep. unfold ryield in Ep at 2. cbn [flat_map] in Ep. rewrite app_nil_r in Ep. destruct Bx as (Bx1 & Bx2). destruct x as (x & rx). cbn [fst snd] in *. subst rx.
    assert (Lx : exists a0, rstep s1 = a0 ++ [(x, ROut)]).
    { apply step_tokens in P0. destruct (exists_last (l := rstep s1)) as (u & z & Eu); [intro K; apply (f_equal (@length _)) in K; rewrite rstep_len in K; destruct (tokens_of s1); [congruence|discriminate K]|].
      rewrite Eu, app_assoc in Ep. apply app_inj_tail in Ep as (_ & <-). exists u. exact Eu. }
    destruct Lx as (a0 & Lx).
    assert (Nt : forall txt, s1 <> SText txt) by (intros txt ->; cbn [rstep] in Lx; apply text_role in Lx; discriminate).
    assert (Nr : forall t, s1 <> SRoute t) by (intros t ->; cbn [rstep tokens_of map] in Lx; one_of Lx; cbn [proper] in P0; rewrite P0 in Bx2; exact Bx2).
    assert (Nd : forall t, s1 <> SDct t) by (intros t ->; cbn [rstep tokens_of map] in Lx; one_of Lx; cbn [proper] in P0; rewrite P0 in Bx2; exact Bx2).
    assert (Ns : forall t, s1 <> SSid t) by (intros t ->; cbn [rstep tokens_of map] in Lx; one_of Lx; cbn [proper] in P0; destruct P0 as [P0|P0]; rewrite P0 in Bx2; exact Bx2).
    pose proof (last_is _ _ F0) as Li. rewrite <- Ec in Li.
    destruct Hst as [-> | ->]; destruct c as [| | | | | | | | |k|k| | |]; try discriminate F; try (exfalso; destruct Li as (u & Li); first [now apply (Nt u)|now apply (Nr u)|now apply (Nd u)|now apply (Ns u)]); auto. }
  destruct Hc as (Hc & ->). clear Hst.
  assert (Nx : c <> XEnd /\ halfway c = false) by (destruct c as [| | | | | | | | |[]|[]| | |]; try discriminate Hc; split; (discriminate || reflexivity)). destruct Nx as (Nx & Nh).
  assert (Dd : t_base dct_token = F15_DCT) by (vm_compute; reflexivity).
  assert (D' : derives XStart (ss1 ++ SDct dct_token :: SPoint q :: ss2)).
  { apply (exchange ss1 XStart _ _ D); rewrite <- ?Ec.
    - cbn [derives after follows]. split; [exact Hc|]. split; [exact Dd|]. split; [reflexivity|]. split; [exact P|].
      destruct c as [| | | | | | | | |[]|[]| | |]; try discriminate Hc; exact D2.
    - now left.
    - intros _. rewrite yield_cons. cbn [tokens_of app no_slash]. rewrite Dd. discriminate.
    - left. rewrite yield_cons. discriminate.
    - exact Nx. }
  assert (B1 : by_text (yield (ss1 ++ SDct dct_token :: SPoint q :: ss2))).
  { rewrite Ess in B. rewrite yield_app in B. rewrite yield_app, yield_cons. intros y Hy. apply in_app_or in Hy as [Hy|Hy]; [apply B, in_or_app; now left|].
    cbn [tokens_of app] in Hy. destruct Hy as [<-|Hy]; [vm_compute; reflexivity|]. apply B, in_or_app. now right. }
  destruct (parse_steps depth' _ g D' B1) as (s' & Hp & E1 & E2 & E3); [|exact Hd|].
  { rewrite Eg, Ep. rewrite <- words_ryield, ryield_app, !ryield_cons. unfold wordsof. rewrite !map_app. reflexivity. }
  destruct (dct_effect ss1 dct_token (SPoint q) ss2 D' eq_refl) as (U & y & V & K1 & K2 & K3 & K4).
  rewrite K1 in E1. rewrite K4 in E3. rewrite <- Ess in K3, E3. rewrite map_app in E1. cbn [map] in E1. apply map_split in E1 as (U' & y' & V' & E4 & EU & Ey & EV).
  exists s', U', y', V'. split; [exact Hp|]. split; [exact E4|]. apply er_same in Ey. destruct Ey as (Y1 & Y2 & _). destruct K2 as (Z1 & _ & _ & Z2). split; [split; [now rewrite Y1|now rewrite Y2]|].
  rewrite Es. cbn [e_recs e_rules]. split; [|split; [exact E2|exact E3]].
  assert (Tr : forall l m n, Forall2 same_but_leg l m -> map er_rec n = map er_rec l -> Forall2 same_but_leg n m).
  { clear. induction l as [|x l IH]; intros m n HF E; inversion HF; subst; destruct n as [|z n]; try discriminate E; constructor.
    - cbn [map] in E. assert (Q : er_rec z = er_rec x) by exact (f_equal (hd (er_rec z)) E). apply er_same in Q. unfold same_but_place, same_but_leg in *. decompose [and] Q. decompose [and] H1. repeat split; congruence.
    - apply (IH l'); [assumption|]. exact (f_equal (@tl _) E). }
  apply (Tr _ _ _ K3). rewrite !map_app. now rewrite EU, EV.
Qed.
End G.
