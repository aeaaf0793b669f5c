(** * Describe: the records of a derivation are described by the tokens. *)
From Coq Require Import ZArith NArith List Bool String Lia.
From Coq Require Import ZifyBool ZifyNat ZifyN.
From Verif Require Import PyBase PyFloat Enums ErrorTable Regex SyntaxTable Syntax Tokenizer Ers Utils Parser.
From Verif Require Import SpecTokenizer TokenizerProofs RegexProofs SyntaxProofs SpecNum NumTables NumProofs ParserPrims PerfEq PointEq Trace ParseTrace SpecParser ParserInv.
From Verif Require Import SpecGrammar GrammarSem Grammar SpecAccept Accept.
Import List ListNotations.
Local Open Scope list_scope.
Local Open Scope nat_scope.

(** ** Roles of the tokens of a derivation *)
Definition rstep (s : step) : list (token * role) :=
  match s with
  | SText txt => map (fun t => (t, RText)) txt
  | SClimb c sl t => [(c, ROut); (sl, ROut); (t, RClimb)]
  | _ => map (fun t => (t, ROut)) (tokens_of s)
  end.
Definition ryield (ss : list step) : list (token * role) := flat_map rstep ss.
Definition ctx_kind (c : ctx) : option kind := match c with XText k => Some k | _ => None end.
Lemma rstep_len s : length (rstep s) = length (tokens_of s).
Proof. destruct s; cbn [rstep tokens_of]; rewrite ?map_length; reflexivity. Qed.
Lemma rstep_fst s : map fst (rstep s) = tokens_of s.
Proof. destruct s; cbn [rstep tokens_of map fst]; rewrite ?map_map; cbn [fst]; rewrite ?map_id; reflexivity. Qed.
Lemma ryield_cons s r : ryield (s :: r) = rstep s ++ ryield r. Proof. reflexivity. Qed.
Lemma section_roled k : forall txt rest, section k txt rest -> roled (Some k) (txt ++ rest) = map (fun t => (t, RText)) txt ++ roled None rest.
Proof.
  induction txt as [|t txt IH]; intros rest H; cbn [section] in H.
  - subst rest. reflexivity.
  - destruct H as [_ H]. cbn [app roled map]. f_equal. unfold closes. destruct (ends k (t_sub t)); cbn [andb]; [|now apply IH].
    destruct (resume k (txt ++ rest)); [now apply IH| |contradiction]. subst txt. reflexivity.
Qed.
Lemma roled_plain t r : t_base t <> F15_C -> roled None (t :: r) = (t, ROut) :: roled (opens t) r.
Proof. intro H. cbn [roled]. destruct (t_base t); try reflexivity. contradiction. Qed.
Lemma roled_c t r : t_base t = F15_C -> match r with n :: _ => t_base n <> F15_SLASH | [] => True end -> roled None (t :: r) = (t, ROut) :: roled None r.
Proof.
  intros B H. cbn [roled]. unfold opens. rewrite B. destruct r as [|n r]; [reflexivity|]. destruct r as [|p r]; [reflexivity|].
  destruct (base_eqb (t_base n) F15_SLASH) eqn:E; [apply base_eqb_eq in E; contradiction|reflexivity].
Qed.
Lemma opens_none t : t_base t <> F15_SPEED_VFR -> t_base t <> F15_BREAK_START -> opens t = None.
Proof. unfold opens. destruct (t_base t); intros; congruence. Qed.
Theorem roled_derives : forall ss c, derives c ss -> roled (ctx_kind c) (yield ss) = ryield ss.
Proof.
  induction ss as [|s r IH]; intros c D; [destruct c; reflexivity|]. cbn [derives] in D. destruct D as (F & P & D). specialize (IH _ D).
  rewrite yield_cons, ryield_cons.
  assert (One : forall t, tokens_of s = [t] -> rstep s = [(t, ROut)] -> ctx_kind c = None -> t_base t <> F15_C -> opens t = ctx_kind (after c s) ->
    roled (ctx_kind c) (tokens_of s ++ yield r) = rstep s ++ ryield r).
  { intros t E1 E2 E3 E4 E5. rewrite E1, E2, E3. cbn [app]. rewrite roled_plain, E5, IH by exact E4. reflexivity. }
  assert (Two : forall sl t, tokens_of s = [sl; t] -> rstep s = [(sl, ROut); (t, ROut)] -> ctx_kind c = None -> t_base sl = F15_SLASH -> t_base t <> F15_C -> opens t = ctx_kind (after c s) ->
    roled (ctx_kind c) (tokens_of s ++ yield r) = rstep s ++ ryield r).
  { intros sl t E1 E2 E3 E4 E5 E6. rewrite E1, E2, E3. cbn [app]. rewrite roled_plain by (rewrite E4; discriminate).
    rewrite (opens_none sl) by (rewrite E4; discriminate). rewrite roled_plain, E6, IH by exact E5. reflexivity. }
  assert (K : match s with SText _ => True | _ => ctx_kind c = None end) by (destruct s; try exact I; destruct c; try reflexivity; discriminate F).
  destruct s; cbn [proper] in P.
  - destruct P as [B _]. refine (One t eq_refl eq_refl K _ _); [rewrite B; discriminate|]. unfold opens. rewrite B. reflexivity.
  - refine (One t eq_refl eq_refl K _ _); [rewrite P; discriminate|]. unfold opens. rewrite P. reflexivity.
  - refine (One t eq_refl eq_refl K _ _); [rewrite P; discriminate|]. unfold opens. rewrite P. reflexivity.
  - refine (One t eq_refl eq_refl K _ _); [rewrite P; discriminate|]. unfold opens. rewrite P. reflexivity.
  - destruct P as [B _]. refine (One t eq_refl eq_refl K _ _); [rewrite B; discriminate|]. unfold opens. rewrite B. destruct c; try reflexivity. destruct k; reflexivity.
  - destruct P as [B Hn]. rewrite K. cbn [tokens_of app rstep map after ctx_kind] in *. rewrite (roled_c t _ B Hn), IH. reflexivity.
  - refine (One t eq_refl eq_refl K _ _); [destruct P as [B|B]; rewrite B; discriminate|]. apply opens_none; destruct P as [B|B]; rewrite B; discriminate.
  - destruct P as [P _]. refine (One t eq_refl eq_refl K _ _); [destruct P as [B|[B _]]; rewrite B; discriminate|]. apply opens_none; destruct P as [B|[B _]]; rewrite B; discriminate.
  - destruct P as [B _]. refine (One t eq_refl eq_refl K _ _); [rewrite B; discriminate|]. unfold opens. rewrite B. reflexivity.
  - destruct P as (B1 & B2 & _). refine (Two sl t eq_refl eq_refl K B1 _ _); [rewrite B2; discriminate|]. unfold opens. rewrite B2. destruct c; try discriminate F; reflexivity.
  - destruct P as (B1 & B2). refine (Two sl t eq_refl eq_refl K B1 _ _); [rewrite B2; discriminate|]. unfold opens. rewrite B2. reflexivity.
  - destruct P as (B1 & B2). refine (One t eq_refl eq_refl K _ _); [rewrite B1; discriminate|]. unfold opens. rewrite B1. cbn [after]. destruct (begins (t_sub t)); [reflexivity|contradiction].
  - destruct P as [_ P]. destruct c; try contradiction. cbn [ctx_kind tokens_of rstep after] in *. rewrite (section_roled k txt _ P), IH. reflexivity.
  - refine (One t eq_refl eq_refl K _ _); [rewrite P; discriminate|]. unfold opens. rewrite P. reflexivity.
  - destruct P as (B1 & B2 & _). rewrite K. cbn [tokens_of app rstep map after ctx_kind roled] in *. rewrite B1. rewrite B2. change (base_eqb F15_SLASH F15_SLASH) with true. cbv iota. now rewrite IH.
  - destruct P as (B1 & B2 & _). refine (Two sl t eq_refl eq_refl K B1 _ _); [destruct B2 as [B|B]; rewrite B; discriminate|].
    assert (opens t = None) as -> by (apply opens_none; destruct B2 as [B|B]; rewrite B; discriminate). destruct c; try discriminate F; reflexivity.
  - destruct P as (B1 & B2 & B3). rewrite K. cbn [tokens_of app rstep map after ctx_kind] in *.
    rewrite roled_plain by (rewrite B1; discriminate). rewrite (opens_none st) by (rewrite B1; discriminate).
    rewrite roled_plain by (rewrite B2; discriminate). rewrite (opens_none sl) by (rewrite B2; discriminate).
    rewrite roled_plain by (rewrite B3; discriminate). rewrite (opens_none tm) by (rewrite B3; discriminate). now rewrite IH.
Qed.

(** ** Indices of the records *)
Definition rec_js (j : nat) (s : step) : list nat :=
  match s with
  | SFirstVfr _ | SDct _ | SC _ | SRoute _ | SRejoin _ | SPoint _ | SSid _ | SStar _ | SBreak _ => [j]
  | SVfr _ _ => [S j]
  | SClimb _ _ _ => [S (S j)]
  | _ => []
  end.
Lemma eff_js G j s k : k_js (eff1 G j s k) = k_js k ++ rec_js j s.
Proof. destruct s; cbn [eff1 rec_js k_js k_with add_k rule_k pt_k vfr_k]; rewrite ?app_nil_r; reflexivity. Qed.
Lemma recorded_texts txt : forall i w, recorded_at i (map (fun t => (t, RText)) txt ++ w) = recorded_at (i + length txt) w.
Proof. induction txt as [|t txt IH]; intros i w; cbn [map app length]; [now rewrite Nat.add_0_r|]. cbn [recorded_at recorded snd]. rewrite IH. f_equal. lia. Qed.
Lemma hd_ryield r : match yield r with n :: _ => t_base n <> F15_SLASH | [] => True end -> is_slash (hd_error (ryield r)) = false.
Proof.
  intro H. assert (E : map fst (ryield r) = yield r).
  { induction r as [|s r IH] in |- *; [reflexivity|]. rewrite ryield_cons, yield_cons, map_app, rstep_fst, IH. reflexivity. }
  rewrite <- E in H. destruct (ryield r) as [|x w]; [reflexivity|]. cbn [map hd_error is_slash] in *. destruct (base_eqb _ _) eqn:B; [apply base_eqb_eq in B; contradiction|reflexivity].
Qed.
Lemma recorded_step c s r i : follows c s = true -> proper c s (yield r) ->
  recorded_at i (rstep s ++ ryield r) = rec_js i s ++ recorded_at (i + length (tokens_of s)) (ryield r).
Proof.
  intros F P. rewrite ?Nat.add_1_r.
  destruct s; cbn [proper] in P; cbn [rstep tokens_of map app length rec_js]; rewrite ?recorded_texts; cbn [recorded_at]; unfold recorded; cbn [snd fst];
    repeat match goal with H : _ /\ _ |- _ => destruct H | H : _ \/ _ |- _ => destruct H end;
    repeat match goal with H : t_base _ = _ |- _ => rewrite H end; cbn [hd_error is_slash fst base_eqb base_code Z.eqb Pos.eqb negb];
    repeat match goal with H : t_base _ = _ |- _ => rewrite H end; cbn [base_eqb base_code Z.eqb Pos.eqb negb];
    rewrite ?Nat.add_1_r; try reflexivity; try (replace (i + 2) with (S (S i)) by lia; reflexivity); try (replace (i + 3) with (S (S (S i))) by lia; reflexivity).
  rewrite (hd_ryield r) by assumption. reflexivity.
Qed.
Theorem effs_js G : forall ss c i k, derives c ss -> k_js (effs G i ss k) = k_js k ++ recorded_at i (ryield ss).
Proof.
  induction ss as [|s r IH]; intros c i k D; [cbn; now rewrite app_nil_r|]. cbn [derives] in D. destruct D as (F & P & D).
  cbn [effs]. rewrite (IH _ _ _ D), eff_js, ryield_cons, (recorded_step c s r i F P), app_assoc. reflexivity.
Qed.

(** ** Lists *)
Lemma last_some_app {A B} (f : A -> option B) a b : last_some f (a ++ b) = match last_some f b with Some x => Some x | None => last_some f a end.
Proof. induction a as [|x a IH]; cbn [app last_some]; [destruct (last_some f b); reflexivity|]. rewrite IH. destruct (last_some f b); reflexivity. Qed.
Lemma last_some_none {A B} (f : A -> option B) l : Forall (fun x => f x = None) l -> last_some f l = None.
Proof. induction 1 as [|x l H _ IH]; [reflexivity|]. cbn [last_some]. now rewrite IH. Qed.
Lemma texts_app a b : texts_of (a ++ b) = texts_of a ++ texts_of b.
Proof. induction a as [|(t & []) a IH]; cbn [app texts_of]; [reflexivity|exact IH|now rewrite IH|exact IH]. Qed.
Lemma texts_none l : Forall (fun x => snd x <> RText) l -> texts_of l = [].
Proof. induction 1 as [|(t & []) l H _ IH]; cbn [texts_of]; [reflexivity|exact IH|contradiction|exact IH]. Qed.
Lemma texts_map txt : texts_of (map (fun t => (t, RText)) txt) = map t_text txt.
Proof. induction txt as [|t txt IH]; cbn [map texts_of]; [reflexivity|now rewrite IH]. Qed.
Lemma joined_snoc l s : joined (l ++ [s]) = match l with [] => s | _ => joined l ++ 32%N :: s end.
Proof.
  induction l as [|a l IH]; [reflexivity|]. destruct l as [|b l]; [reflexivity|].
  change ((a :: b :: l) ++ [s]) with (a :: (b :: l) ++ [s]). change (joined (a :: b :: l)) with (a ++ 32%N :: joined (b :: l)).
  rewrite <- app_assoc. change (joined (a :: (b :: l) ++ [s])) with (a ++ 32%N :: joined ((b :: l) ++ [s])). rewrite IH. reflexivity.
Qed.
Lemma joined_nil l : Forall (fun s => s <> []) l -> joined l = [] -> l = [].
Proof. intros H E. destruct H as [|s l H _]; [reflexivity|exfalso]. destruct l; cbn [joined] in E; [contradiction|]. apply app_eq_nil in E as [E _]. contradiction. Qed.
Lemma texts_break : forall txt p l, Forall (fun s => s <> []) l -> Forall (fun s => s <> []) (map t_text txt) -> r_break p = joined l ->
  r_break (texts txt p) = joined (l ++ map t_text txt).
Proof.
  induction txt as [|t txt IH]; intros p l Hl Ht E; cbn [map]; [now rewrite app_nil_r|].
  change (texts (t :: txt) p) with (texts txt (append_break_text (t_text t) p)). inversion Ht as [|? ? H1 H2]; subst.
  rewrite (IH _ (l ++ [t_text t])).
  - now rewrite <- app_assoc.
  - apply Forall_app. auto.
  - exact H2.
  - unfold append_break_text. rewrite joined_snoc. destruct (pstr_eqb (r_break p) []) eqn:B.
    + assert (B' : r_break p = []) by (destruct (r_break p); [reflexivity|discriminate]). rewrite B' in E. symmetry in E. apply (joined_nil l Hl) in E. subst l. reflexivity.
    + destruct l as [|a l]; [rewrite E in B; discriminate|]. cbn [set_r_break r_break]. rewrite E. reflexivity.
Qed.
(** What [texts] does not change. *)
Definition face (r : rrec) := (r_name r, r_start r, r_end r, (r_base r, r_sub r), r_rules r, r_stay r, r_speed r, r_alt r, r_cto r, r_cto_si r).
Lemma texts_face : forall txt p, face (texts txt p) = face p.
Proof.
  induction txt as [|t txt IH]; intro p; [reflexivity|]. change (texts (t :: txt) p) with (texts txt (append_break_text (t_text t) p)). rewrite IH.
  unfold append_break_text. destruct (pstr_eqb _ _); reflexivity.
Qed.

Lemma skipn_skipn {A} : forall n m (l : list A), skipn n (skipn m l) = skipn (n + m) l.
Proof.
  intros n m. revert n. induction m as [|m IH]; intros n l; [now rewrite Nat.add_0_r|]. rewrite Nat.add_succ_r. destruct l as [|a l]; cbn [skipn]; [apply skipn_nil|apply IH].
Qed.

(** ** Parts *)
Fixpoint closed (lo : option nat) (js : list nat) : list (option nat * nat) :=
  match js with [] => [] | j :: r => (lo, j) :: closed (Some j) r end.
Fixpoint last_lo (lo : option nat) (js : list nat) : option nat := match js with [] => lo | j :: r => last_lo (Some j) r end.
Lemma parts_closed : forall js lo n, parts lo js n = closed lo js ++ [(last_lo lo js, n)].
Proof. induction js as [|j js IH]; intros lo n; cbn [parts closed last_lo app]; [reflexivity|now rewrite IH]. Qed.
Lemma closed_snoc : forall js lo j, closed lo (js ++ [j]) = closed lo js ++ [(last_lo lo js, j)].
Proof. induction js as [|a js IH]; intros lo j; cbn [closed last_lo app]; [reflexivity|now rewrite IH]. Qed.
Lemma last_lo_snoc : forall js lo j, last_lo lo (js ++ [j]) = Some j.
Proof. induction js as [|a js IH]; intros lo j; cbn [last_lo app]; [reflexivity|apply IH]. Qed.

Section W.
Variable W : list (token * role).
Hypothesis HW : Forall (fun x => wt (fst x) /\ t_text (fst x) <> []) W.

Lemma skip_len pos (a b : list (token * role)) : skipn pos W = a ++ b -> a <> [] -> pos + length a <= length W.
Proof.
  intros H Ha. apply (f_equal (@length _)) in H. rewrite skipn_length, app_length in H. destruct a; [contradiction|]. cbn [length] in *. lia.
Qed.
Lemma cut_ext lo pos a b : skipn pos W = a ++ b -> lo <= pos -> a <> [] -> cut W lo (pos + length a) = cut W lo pos ++ a.
Proof.
  intros H Hl Ha. pose proof (skip_len pos a b H Ha) as B. unfold cut.
  replace (pos + length a - lo) with ((pos - lo) + length a) by lia.
  assert (E : skipn (pos - lo) (skipn lo W) = a ++ b) by (rewrite skipn_skipn; replace (pos - lo + lo) with pos by lia; exact H).
  rewrite <- (firstn_skipn (pos - lo) (skipn lo W)) at 1. rewrite E, app_assoc. rewrite firstn_app.
  rewrite (firstn_all2 (firstn (pos - lo) (skipn lo W) ++ a)).
  2: { rewrite app_length, firstn_length, skipn_length. lia. }
  rewrite app_length, firstn_length, skipn_length.
  replace (pos - lo + length a - (Nat.min (pos - lo) (length W - lo) + length a)) with 0 by lia. cbn [firstn]. now rewrite app_nil_r.
Qed.
Lemma first_ext pos a b : skipn pos W = a ++ b -> a <> [] -> firstn (pos + length a) W = firstn pos W ++ a.
Proof.
  intros H Ha. pose proof (cut_ext 0 pos a b H ltac:(lia) Ha) as E. unfold cut in E. cbn [skipn] in E. rewrite !Nat.sub_0_r in E. exact E.
Qed.
Lemma skip_nth pos a x b : skipn pos W = a ++ x :: b -> nth_error W (pos + length a) = Some x.
Proof.
  intro H. assert (E : skipn pos W = (a ++ x :: b)) by exact H. rewrite <- (firstn_skipn pos W), E.
  assert (Ln : length (firstn pos W) = pos) by (apply firstn_length_le; pose proof (skip_len pos (a ++ [x]) b) as K; rewrite <- app_assoc in K; specialize (K H ltac:(destruct a; discriminate)); lia).
  rewrite nth_error_app2 by lia. rewrite Ln. rewrite nth_error_app2 by lia. replace (pos + length a - pos - length a) with 0 by lia. reflexivity.
Qed.

(** The state between two steps. *)
Definition vfr1 : bool := match W with x :: _ => in_route x F15_SPEED_VFR | [] => false end.
Definition rules0 (r : rrec) (lo : option nat) : Prop :=
  match lo with
  | None => r_rules r = if vfr1 then [] else $"IFR"
  | Some j => exists x, nth_error W j = Some x /\ r_rules r = rules_of x
  end.
Definition closed_ok (r : rrec) (part : option nat * nat) : Prop :=
  identity W r (fst part) /\ rules0 r (fst part) /\ text_right W r (fst part) (snd part) /\ stay_right W r (fst part) (snd part) /\ target_right W r (fst part) (snd part) /\ performance_right W r (snd part).
Definition open_ok (pos : nat) (p : rrec) (lo : option nat) : Prop :=
  from lo <= pos /\ identity W p lo /\ rules0 p lo /\ text_right W p lo pos /\ stay_right W p lo pos /\ target_right W p lo pos /\
  last_some modifier (firstn pos W) = Some (r_speed p, r_alt p).
Definition quiet (c : ctx) : bool := match c with XText _ | XBreak _ | XEnd => false | _ => true end.
Definition Inv (pos : nat) (c : ctx) (k : core) : Prop :=
  Forall2 closed_ok (k_l k) (closed None (k_js k)) /\ open_ok pos (k_p k) (last_lo None (k_js k)) /\
  (quiet c = true -> r_rules (k_p k) = $"IFR").

Definition neutral (x : token * role) : Prop := snd x = ROut /\ modifier x = None /\ stay_value x = None /\ target_text x = None /\ target_num x = None.
Lemma neutral_base t : (match t_base t with F15_SPEED_ALTITUDE | F15_SPEED_ALTITUDE_PLUS | F15_SPEED_ALTITUDE_ALTITUDE | F15_SPEED_VFR | F15_STAY_TIME => false | _ => true end) = true -> neutral (t, ROut).
Proof. unfold neutral, modifier, stay_value, target_text, target_num, in_route. cbn [fst snd]. destruct (t_base t); intro H; try discriminate H; repeat split. Qed.

(** Nothing happens to the last record while neutral tokens are passed. *)
Lemma open_pass pos p lo a b : open_ok pos p lo -> skipn pos W = a ++ b -> Forall neutral a -> open_ok (pos + length a) p lo.
Proof.
  intros H E N. destruct a as [|x a]; [now rewrite Nat.add_0_r|]. destruct H as (H1 & H2 & H3 & H4 & H5 & H7 & H6).
  assert (Ha : x :: a <> []) by discriminate. unfold open_ok, text_right, stay_right, target_right in *.
  rewrite (cut_ext _ _ _ _ E H1 Ha), (first_ext _ _ _ E Ha), texts_app, !last_some_app.
  rewrite (texts_none (x :: a)), (last_some_none stay_value (x :: a)), (last_some_none modifier (x :: a)), (last_some_none target_text (x :: a)), (last_some_none target_num (x :: a)); rewrite ?app_nil_r;
    try (revert N; apply Forall_impl; intros y Hy; apply Hy).
  - split; [lia|]. auto 10.
  - revert N. apply Forall_impl. intros y (Hy & _). rewrite Hy. discriminate.
Qed.
Lemma close_here j p lo x : open_ok j p lo -> nth_error W j = Some x -> in_route x F15_SPEED_VFR = false -> closed_ok p (lo, j).
Proof.
  intros (H1 & H2 & H3 & H4 & H5 & H7 & H6) E V. unfold closed_ok. cbn [fst snd]. repeat (split; [assumption|]).
  unfold performance_right, upto. rewrite E, V. exact H6.
Qed.
Lemma close_end p lo : open_ok (length W) p lo -> closed_ok p (lo, length W).
Proof.
  intros (H1 & H2 & H3 & H4 & H5 & H7 & H6). unfold closed_ok. cbn [fst snd]. repeat (split; [assumption|]).
  unfold performance_right, upto. assert (nth_error W (length W) = None) as -> by now apply nth_error_None. exact H6.
Qed.
Lemma identity_face a r r' : face r = face r' -> identity W r a -> identity W r' a.
Proof. unfold face. intro E. injection E as E1 E2 E3 E4 E5 E6 E7 E8 E9 E10 E11. unfold identity, aerodrome. destruct a; rewrite E1, E2, E3, E4, E5; auto. Qed.
Lemma rules0_face a r r' : r_rules r = r_rules r' -> rules0 r a -> rules0 r' a.
Proof. unfold rules0. intros ->. auto. Qed.

(** A new record. *)
Lemma new_open j p x b : skipn j W = x :: b -> snd x <> RText -> stay_value x = None -> target_text x = None -> target_num x = None ->
  r_cto p = [] -> r_cto_si p = PyZeroFloat ->
  r_name p = name_of x -> r_start p = t_start (fst x) -> r_end p = t_end (fst x) -> (r_base p, r_sub p) = types_at j x ->
  r_rules p = rules_of x -> r_break p = [] -> r_stay p = 0%Z ->
  last_some modifier (firstn (S j) W) = Some (r_speed p, r_alt p) -> open_ok (S j) p (Some j).
Proof.
  intros E R Sv T1 T2 T3 T4 N1 N2 N3 N4 N5 N6 N7 N8. pose proof (skip_nth j [] x b E) as Nx. cbn [length] in Nx. rewrite Nat.add_0_r in Nx.
  assert (C : cut W j (S j) = [x]).
  { pose proof (cut_ext j j [x] b E (le_n _) ltac:(discriminate)) as K. cbn [length] in K. rewrite Nat.add_1_r in K. rewrite K. unfold cut. now rewrite Nat.sub_diag. }
  unfold open_ok, text_right, stay_right, target_right. cbn [from identity rules0]. rewrite C. split; [lia|]. split; [exists x; auto|]. split; [exists x; auto|].
  split; [rewrite N6, texts_none; [reflexivity|auto]|]. split; [cbn [last_some]; rewrite Sv; exact N7|]. split; [cbn [last_some]; rewrite T1, T2; auto|exact N8].
Qed.
Lemma perf_step j p x b : skipn j W = x :: b -> last_some modifier (firstn j W) = Some (r_speed p, r_alt p) -> modifier x = None ->
  last_some modifier (firstn (S j) W) = Some (r_speed p, r_alt p).
Proof.
  intros E H M. pose proof (first_ext j [x] b E ltac:(discriminate)) as K. cbn [length] in K. rewrite Nat.add_1_r in K. rewrite K, last_some_app. cbn [last_some]. rewrite M. exact H.
Qed.

(** Creation of a record for [x] after neutral tokens [a]. *)
Lemma create pos c k a x b c' (p' : rrec) : Inv pos c k -> skipn pos W = a ++ x :: b -> Forall neutral a ->
  snd x <> RText -> stay_value x = None -> modifier x = None -> target_text x = None -> target_num x = None -> r_cto p' = [] -> r_cto_si p' = PyZeroFloat ->
  r_name p' = t_text (fst x) -> r_start p' = t_start (fst x) -> r_end p' = t_end (fst x) -> (r_base p', r_sub p') = types_at (pos + length a) x ->
  r_rules p' = rules_of x -> r_break p' = [] -> r_stay p' = 0%Z -> r_speed p' = r_speed (k_p k) -> r_alt p' = r_alt (k_p k) ->
  (quiet c' = true -> rules_of x = $"IFR") ->
  Inv (S (pos + length a)) c' (mkK (k_l k ++ [k_p k]) p' (k_js k ++ [pos + length a])).
Proof.
  intros (I1 & I2 & I3) E N R Sv M T1 T2 T3 T4 N1 N2 N3 N4 N5 N6 N7 N8 N9 Q. set (j := pos + length a) in *.
  pose proof (open_pass pos _ _ a (x :: b) I2 E N) as O. fold j in O.
  assert (Ej : skipn j W = x :: b).
  { unfold j. rewrite Nat.add_comm, <- skipn_skipn, E, skipn_app, skipn_all, Nat.sub_diag. reflexivity. }
  pose proof (skip_nth pos a x b E) as Nx. fold j in Nx.
  assert (V : in_route x F15_SPEED_VFR = false).
  { unfold modifier in M. unfold in_route. destruct (snd x); try reflexivity. destruct (t_base (fst x)); try reflexivity; discriminate M. }
  unfold Inv. cbn [k_l k_p k_js]. rewrite closed_snoc, last_lo_snoc. split; [|split].
  - apply Forall2_app; [exact I1|]. constructor; [|constructor]. exact (close_here j _ _ x O Nx V).
  - apply (new_open j p' x b Ej R Sv T1 T2 T3 T4); auto; [unfold name_of; now rewrite V|]. rewrite N8, N9. apply (perf_step j (k_p k) x b Ej); [apply O|exact M].
  - rewrite N5. exact Q.
Qed.
Lemma create_vfr pos c k a t b (p' q : rrec) : Inv pos c k -> skipn pos W = a ++ (t, ROut) :: b -> Forall neutral a -> t_base t = F15_SPEED_VFR ->
  r_name p' = $"VFR" -> r_start p' = t_start t -> r_end p' = t_end t -> (r_base p', r_sub p') = (t_base t, t_sub t) -> r_cto p' = [] -> r_cto_si p' = PyZeroFloat ->
  r_rules p' = $"VFR" -> r_break p' = [] -> r_stay p' = 0%Z -> r_speed p' = speed_part (t_text t) -> r_alt p' = $"F050" ->
  q = copy_perf p' (k_p k) ->
  Inv (S (pos + length a)) (XText KVfr) (mkK (k_l k ++ [q]) p' (k_js k ++ [pos + length a])).
Proof.
  intros (I1 & I2 & I3) E N B N1 N2 N3 N4 T3 T4 N5 N6 N7 N8 N9 ->. set (j := pos + length a) in *. set (x := (t, ROut)) in *.
  pose proof (open_pass pos _ _ a (x :: b) I2 E N) as O. fold j in O.
  assert (Ej : skipn j W = x :: b).
  { unfold j. rewrite Nat.add_comm, <- skipn_skipn, E, skipn_app, skipn_all, Nat.sub_diag. reflexivity. }
  pose proof (skip_nth pos a x b E) as Nx. fold j in Nx.
  assert (V : in_route x F15_SPEED_VFR = true) by (unfold in_route, x; cbn [fst snd]; rewrite B; reflexivity).
  assert (M : modifier x = Some (speed_part (t_text t), $"F050")) by (unfold modifier, x; cbn [fst snd]; rewrite B; reflexivity).
  assert (Pf : last_some modifier (firstn (S j) W) = Some (speed_part (t_text t), $"F050")).
  { pose proof (first_ext j [x] b Ej ltac:(discriminate)) as K. cbn [length] in K. rewrite Nat.add_1_r in K. rewrite K, last_some_app. cbn [last_some]. now rewrite M. }
  unfold Inv. cbn [k_l k_p k_js]. rewrite closed_snoc, last_lo_snoc. split; [|split].
  - apply Forall2_app; [exact I1|]. constructor; [|constructor]. destruct O as (O1 & O2 & O3 & O4 & O5 & O7 & O6).
    unfold closed_ok. cbn [fst snd]. split; [exact O2|]. split; [exact O3|]. split; [exact O4|]. split; [exact O5|]. split; [exact O7|].
    unfold performance_right, upto. rewrite Nx, V, Pf. unfold copy_perf. cbn [r_speed r_alt set_r_alt_si set_r_alt set_r_speed_si set_r_speed]. now rewrite N8, N9.
  - apply (new_open j p' x b Ej); auto.
    + discriminate.
    + unfold stay_value, in_route, x. cbn [fst snd]. now rewrite B.
    + unfold target_text, x. cbn [fst snd]. now rewrite B.
    + unfold target_num, x. cbn [fst snd]. now rewrite B.
    + unfold name_of. now rewrite V.
    + unfold types_at, x. cbn [fst snd]. rewrite B in *. exact N4.
    + unfold rules_of, x, opens. cbn [fst snd]. rewrite B. exact N5.
    + now rewrite Pf, N8, N9.
  - discriminate.
Qed.
(** A change of speed and level of the last record. *)
Lemma modify pos c k a t c' (p' : rrec) b m : Inv pos c k -> skipn pos W = (a ++ [(t, ROut)]) ++ b -> Forall neutral a -> modifier (t, ROut) = Some m ->
  stay_value (t, ROut) = None -> quiet c = true ->
  (r_name p', r_start p', r_end p', (r_base p', r_sub p'), r_break p', r_stay p') = (r_name (k_p k), r_start (k_p k), r_end (k_p k), (r_base (k_p k), r_sub (k_p k)), r_break (k_p k), r_stay (k_p k)) ->
  r_cto p' = or_else (target_text (t, ROut)) (r_cto (k_p k)) -> r_cto_si p' = or_else (target_num (t, ROut)) (r_cto_si (k_p k)) ->
  r_rules p' = $"IFR" -> m = (r_speed p', r_alt p') -> Inv (pos + length (a ++ [(t, ROut)])) c' (k_with k p').
Proof.
  intros (I1 & I2 & I3) E N M Sv Q F T1 T2 R P. specialize (I3 Q). unfold Inv, k_with. cbn [k_l k_p k_js]. split; [exact I1|]. split; [|auto].
  destruct I2 as (H1 & H2 & H3 & H4 & H5 & H7 & H6). injection F as F1 F2 F3 F4 F5 F6 F7.
  assert (Ha : a ++ [(t, ROut)] <> []) by (destruct a; discriminate).
  unfold open_ok, text_right, stay_right, target_right in *. rewrite (cut_ext _ _ _ _ E H1 Ha), (first_ext _ _ _ E Ha), texts_app, !last_some_app.
  assert (T : texts_of (a ++ [(t, ROut)]) = []).
  { apply texts_none. apply Forall_app. split; [|constructor; [discriminate|constructor]]. revert N. apply Forall_impl. intros y (Hy & _). rewrite Hy. discriminate. }
  assert (St : last_some stay_value a = None) by (apply last_some_none; revert N; apply Forall_impl; intros y Hy; apply Hy).
  assert (St1 : last_some target_text a = None) by (apply last_some_none; revert N; apply Forall_impl; intros y Hy; apply Hy).
  assert (St2 : last_some target_num a = None) by (apply last_some_none; revert N; apply Forall_impl; intros y Hy; apply Hy).
  rewrite T, app_nil_r. cbn [last_some]. rewrite Sv, M, St, St1, St2. split; [lia|]. split; [|split; [|split; [|split; [|split]]]].
  - unfold identity, aerodrome in *. destruct (last_lo None (k_js k)); rewrite F1, F2, F3, F4, F5; exact H2.
  - apply (rules0_face _ (k_p k)); [congruence|exact H3].
  - now rewrite F6.
  - now rewrite F7.
  - rewrite T1, T2. destruct H7 as [-> ->]. split; [destruct (target_text (t, ROut)); reflexivity|destruct (target_num (t, ROut)); reflexivity].
  - now rewrite P.
Qed.

(** Only names, positions, types, rules, stays, speeds, levels and texts matter. *)
Definition allf (r : rrec) := (face r, r_break r).
Lemma keeps_allf : keeps allf.
Proof. repeat split; intros []; reflexivity. Qed.
Lemma allf_parts r r' : allf r = allf r' ->
  r_name r' = r_name r /\ r_start r' = r_start r /\ r_end r' = r_end r /\ r_base r' = r_base r /\ r_sub r' = r_sub r /\ r_rules r' = r_rules r /\
  r_stay r' = r_stay r /\ r_speed r' = r_speed r /\ r_alt r' = r_alt r /\ r_break r' = r_break r /\ r_cto r' = r_cto r /\ r_cto_si r' = r_cto_si r.
Proof. unfold allf, face. intro H. injection H as <- <- <- <- <- <- <- <- <- <- <- <-. auto 20. Qed.
Lemma closed_allf r r' part : allf r = allf r' -> closed_ok r part -> closed_ok r' part.
Proof.
  intros E (H1 & H2 & H3 & H4 & H7 & H5). pose proof (identity_face (fst part) r r' (f_equal fst E) H1) as K. apply allf_parts in E as (E1 & E2 & E3 & E4 & E5 & E6 & E7 & E8 & E9 & E10 & E11 & E12).
  unfold closed_ok, text_right, stay_right, target_right, performance_right in *. rewrite E7, E8, E9, E10, E11, E12. split; [exact K|]. split; [now apply (rules0_face _ r)|]. auto.
Qed.
Lemma open_allf pos r r' lo : allf r = allf r' -> open_ok pos r lo -> open_ok pos r' lo.
Proof.
  intros E (H1 & H2 & H3 & H4 & H5 & H7 & H6). pose proof (identity_face lo r r' (f_equal fst E) H2) as K. apply allf_parts in E as (E1 & E2 & E3 & E4 & E5 & E6 & E7 & E8 & E9 & E10 & E11 & E12).
  unfold open_ok, text_right, stay_right, target_right in *. rewrite E7, E8, E9, E10, E11, E12. split; [exact H1|]. split; [exact K|]. split; [now apply (rules0_face _ r)|]. auto.
Qed.
Lemma closed_list l l' ps : map allf l = map allf l' -> Forall2 closed_ok l ps -> Forall2 closed_ok l' ps.
Proof.
  intros E H. revert l' E. induction H as [|r part l ps H _ IH]; intros l' E; destruct l' as [|r' l']; try discriminate E; [constructor|].
  cbn [map] in E. assert (E1 : allf r = allf r') by congruence. assert (E2 : map allf l = map allf l') by congruence. constructor; [now apply (closed_allf r)|]. apply IH. exact E2.
Qed.
Lemma Inv_pt G pos c t k : Inv pos c k -> Inv pos c (pt_k G t k).
Proof.
  intros (H1 & H2 & H3). unfold Inv, pt_k. cbn [k_l k_p k_js]. split; [|split].
  - apply (closed_list (k_l k)); [|exact H1]. symmetry. apply (keeps_prev _ G keeps_allf).
  - apply (open_allf pos (k_p k)); [|exact H2]. symmetry. apply (keeps_pt _ G keeps_allf).
  - rewrite (keeps_pt _ G keeps_rules). exact H3.
Qed.
Lemma Inv_ctx pos c c' k : Inv pos c k -> (quiet c' = true -> quiet c = true) -> Inv pos c' k.
Proof. intros (H1 & H2 & H3) Q. split; [exact H1|]. split; [exact H2|]. auto. Qed.

(** Speeds and levels. *)
Lemma speed_cut a b sh s : cuts a b sh = true -> shape_in sh s -> speed_part s = slice s (Some 0%Z) (Some (Z.of_nat a)).
Proof.
  intros H Hs. destruct (cuts_spec a b sh s H Hs) as (E1 & _ & E3 & E4 & _). unfold speed_part. rewrite E1.
  change (Some 0%Z) with (Some (Z.of_nat 0)). rewrite slice_sub by lia. now rewrite Nat.sub_0_r.
Qed.
Lemma sa_perf t p : wt t -> t_base t = F15_SPEED_ALTITUDE -> exists a, sa_eff t p = sa_rec a t p /\ speed_part (t_text t) = text_to a t /\ first_level (t_text t) = text_from a t.
Proof.
  intros H Hb. destruct (sa_fields t H Hb) as (a & Ha & _). exists a. unfold sa_eff. rewrite Ha. split; [reflexivity|]. split; [|now apply sa_first].
  destruct (all_rows_spec F15_SPEED_ALTITUDE _ t ltac:(discriminate) ltac:(discriminate) H Hb sa_cuts_all) as (sh & Hs & K).
  unfold sa_cuts in K. rewrite Ha in K. pose proof (sa_cut_pos _ _ Ha). rewrite (speed_cut _ _ _ _ K Hs). unfold text_to. now rewrite of_to by lia.
Qed.
Lemma skipn_tail {A} n (l : list A) : skipn 1 (skipn n l) = skipn (S n) l.
Proof. revert l. induction n as [|n IH]; intros [|x l]; try reflexivity. cbn [skipn] in *. apply IH. Qed.
Lemma second_cut a b sh s : cuts a b sh = true -> shape_in sh s -> second_level s = skipn b s.
Proof.
  intros H Hs. destruct (cuts_spec a b sh s H Hs) as (E1 & E2 & E3 & E4 & _). unfold second_level. rewrite E2. unfold after_speed. rewrite E1, skipn_skipn. now replace (b - a + a) with b by lia.
Qed.
Lemma text_from_skipn b t : (0 <= b)%Z -> text_from b t = skipn (Z.to_nat b) (t_text t).
Proof. intro H. unfold text_from. rewrite <- (of_to b) at 1 by lia. apply slice_from. Qed.
Lemma sap_perf t p : wt t -> t_base t = F15_SPEED_ALTITUDE_PLUS -> exists a b, sap_eff t p = sap_rec a b t p /\ speed_part (t_text t) = text_to a t /\ first_level (t_text t) = text_mid a b t /\ second_level (t_text t) = text_from b t.
Proof.
  intros H Hb. destruct (all_rows_spec F15_SPEED_ALTITUDE_PLUS _ t ltac:(discriminate) ltac:(discriminate) H Hb sap_cuts_all) as (sh & Hs & K).
  unfold sap_cuts in K. destruct (sap_cut (t_sub t)) as [[a b]|] eqn:Ha; [|discriminate]. exists a, b. unfold sap_eff. rewrite Ha. split; [reflexivity|]. split; [|split; [now apply sap_first|]].
  2:{ rewrite (second_cut _ _ _ _ K Hs). symmetry. apply text_from_skipn. now destruct (sap_cut_pos _ _ _ Ha). }
  destruct (sap_cut_pos _ _ _ Ha). rewrite (speed_cut _ _ _ _ K Hs). unfold text_to. now rewrite of_to by lia.
Qed.
Lemma saa_perf t p : wt t -> t_base t = F15_SPEED_ALTITUDE_ALTITUDE -> exists a b c, saa_eff t p = saa_rec a b c t p /\ speed_part (t_text t) = text_to a t /\ first_level (t_text t) = text_mid a b t /\ stored_target (t_text t) = text_from c t.
Proof.
  intros H Hb. destruct (all_rows_spec F15_SPEED_ALTITUDE_ALTITUDE _ t ltac:(discriminate) ltac:(discriminate) H Hb saa_cuts_all) as (sh & Hs & K).
  unfold saa_cuts in K. destruct (saa_cut (t_sub t)) as [[[a b] c]|] eqn:Ha; [|discriminate]. apply andb_true_iff in K as [K K2]. exists a, b, c. unfold saa_eff. rewrite Ha. split; [reflexivity|].
  destruct (saa_cut_pos _ _ _ _ Ha) as (P1 & P2 & P3). split; [rewrite (speed_cut _ _ _ _ K Hs); unfold text_to; now rewrite of_to by lia|].
  split; [rewrite (first_level_cut _ _ _ _ K Hs); unfold text_mid; now rewrite !of_to by lia|].
  rewrite text_from_skipn by lia. unfold stored_target. rewrite (second_cut _ _ _ _ K Hs).
  destruct (cuts_spec _ _ _ _ K Hs) as (C1 & C2 & C3 & C4 & C5 & x & r & C6 & C7).
  assert (A45 : Z.to_nat a = 4 \/ Z.to_nat a = 5) by (rewrite <- C1; unfold speed_len; rewrite C6; destruct (N.eqb x 77); auto).
  rewrite C6 in *.
  destruct ((a =? 5)%Z && (b =? 9)%Z)%bool eqn:E.
  - assert (a = 5 /\ b = 9 /\ c = 9)%Z as (-> & -> & ->) by lia. destruct (proj1 C5 eq_refl) as (d & r' & E1 & E2).
    assert (Fu : full_target (x :: r) = true).
    { unfold full_target. unfold after_speed. rewrite C1, E1, E2. destruct (N.eqb x 77) eqn:Ex; [apply N.eqb_eq, C7 in Ex; discriminate|reflexivity]. }
    now rewrite Fu.
  - apply andb_true_iff in K2 as [K2 _]. apply Z.eqb_eq in K2. subst c.
    assert (Fu : full_target (x :: r) = false).
    { unfold full_target. unfold after_speed. rewrite C1. destruct (skipn (Z.to_nat a) (x :: r)) as [|d r'] eqn:Ed; [reflexivity|].
      destruct (N.eqb x 77) eqn:Ex; [reflexivity|]. destruct (is_feet d) eqn:Ef; [|reflexivity]. exfalso.
      assert (Z.to_nat b - Z.to_nat a = 4) by (apply C5; eauto). apply N.eqb_neq in Ex. assert (Z.to_nat a <> 4) by (intro; now apply Ex, C7). lia. }
    rewrite Fu, skipn_tail. f_equal. lia.
Qed.
Definition vfr_cuts (sb : sub_type) (sh : shape) : bool :=
  match vfr_cut sb with
  | Some a => (length sh =? Z.to_nat a + 3) && match Z.to_nat a with 4 => only (cls 0 sh) [77%N] | 5 => misses (cls 0 sh) 77 | _ => false end
  | None => false
  end.
Lemma vfr_cuts_all : all_rows F15_SPEED_VFR vfr_cuts = true. Proof. vm_compute. reflexivity. Qed.
Lemma vfr_perf t p : wt t -> t_base t = F15_SPEED_VFR -> exists a, vfr_eff t p = vfr_rec a t p /\ speed_part (t_text t) = text_to a t.
Proof.
  intros H Hb. destruct (all_rows_spec F15_SPEED_VFR _ t ltac:(discriminate) ltac:(discriminate) H Hb vfr_cuts_all) as (sh & Hs & K).
  unfold vfr_cuts in K. unfold vfr_eff. destruct (vfr_cut (t_sub t)) as [a|] eqn:Ha; [|discriminate]. exists a. split; [reflexivity|].
  apply andb_true_iff in K as [K1 K2]. apply Nat.eqb_eq in K1. pose proof (Forall2_len _ _ _ Hs) as Ln.
  destruct (cls_spec 0 sh _ Hs ltac:(lia)) as (c & r & Es & Hc). cbn [skipn] in Es.
  assert (SL : speed_len (t_text t) = Z.to_nat a).
  { rewrite Es. unfold speed_len. destruct (Z.to_nat a) as [|[|[|[|[|[|x]]]]]]; try discriminate K2.
    - destruct (only_spec _ _ _ K2 Hc) as [<-|[]]; reflexivity.
    - destruct (N.eqb c 77) eqn:E; [apply N.eqb_eq in E; subst c; unfold misses in K2; rewrite Hc in K2; discriminate|reflexivity]. }
  assert (Z.to_nat a <> 0) by (intro E0; rewrite E0 in K2; discriminate).
  assert (L2 : length (t_text t) = Z.to_nat a + 3) by (rewrite <- K1; symmetry; exact Ln).
  unfold speed_part. rewrite SL. unfold text_to. rewrite <- (of_to a) at 2 by lia. change (Some 0%Z) with (Some (Z.of_nat 0)). rewrite slice_sub by lia. now rewrite Nat.sub_0_r.
Qed.
Lemma stay_minutes t : wt t -> t_base t = F15_STAY_TIME -> stay_min (t_text t) = minutes (t_text t).
Proof.
  intros H Hb. destruct (stay_fields t H Hb) as (h1 & h2 & m1 & m2 & E & _). rewrite E. unfold stay_min, minutes, hhmm, decimal, digit_val. cbn [firstn skipn fold_left]. lia.
Qed.

(** ** Steps *)
Lemma in_W pos a b x : skipn pos W = a ++ b -> In x a -> wt (fst x) /\ t_text (fst x) <> [].
Proof.
  intros E H. rewrite Forall_forall in HW. apply HW. rewrite <- (firstn_skipn pos W). apply in_or_app. right. rewrite E. apply in_or_app. now left.
Qed.
Lemma base_neutral t : t_base t = F15_SLASH \/ t_base t = F15_C \/ t_base t = F15_STAY \/ t_base t = F15_TRUNCATE -> neutral (t, ROut).
Proof. intro H. apply neutral_base. destruct H as [-> |[-> |[-> | ->]]]; reflexivity. Qed.
Ltac one H := unfold ident, stay_value, target_text, target_num, modifier, in_route, types_at, rules_of, opens; cbn; rewrite ?H; auto.
Lemma Inv_step G pos c s r k : c <> XStart -> follows c s = true -> proper c s (yield r) -> skipn pos W = rstep s ++ ryield r ->
  (c = XAdep -> pos = 1) -> (pos = 1 -> c = XAdep \/ ctx_kind c <> None) ->
  Inv pos c k -> Inv (pos + length (rstep s)) (after c s) (eff1 G pos s k).
Proof.
  intros Nc F P E Hp Hp' I.
  assert (Q : match s with SText _ | SPoint _ | SRejoin _ => True | _ => quiet c = true end).
  { destruct s; try exact Logic.I; destruct c as [| | | | | | | | |k0|k0| | |]; try reflexivity; try discriminate F; destruct k0; discriminate F. }
  (* one recorded token *)
  assert (One : forall t p', rstep s = [(t, ROut)] -> stay_value (t, ROut) = None -> modifier (t, ROut) = None -> target_text (t, ROut) = None -> target_num (t, ROut) = None ->
    r_cto p' = [] -> r_cto_si p' = PyZeroFloat -> ident p' = (t_text t, t_start t, t_end t, types_at pos (t, ROut)) -> r_rules p' = rules_of (t, ROut) -> r_break p' = [] -> r_stay p' = 0%Z ->
    r_speed p' = r_speed (k_p k) -> r_alt p' = r_alt (k_p k) -> (quiet (after c s) = true -> rules_of (t, ROut) = $"IFR") ->
    Inv (pos + length (rstep s)) (after c s) (mkK (k_l k ++ [k_p k]) p' (k_js k ++ [pos]))).
  { intros t p' Er S1 S2 V1 V2 V3 V4 S3 S4 S5 S6 S7 S8 S9. rewrite Er in *. cbn [length app] in *. injection S3 as T1 T2 T3 T4.
    pose proof (create pos c k [] (t, ROut) (ryield r) (after c s) p' I E (Forall_nil _) ltac:(discriminate) S1 S2 V1 V2 V3 V4 T1 T2 T3) as K.
    cbn [length] in K. rewrite Nat.add_0_r in K. rewrite Nat.add_1_r. apply K; auto. }
  destruct s; cbn [proper] in P; cbn [eff1].
  - destruct c as [| | | | | | | | |k0|k0| | |]; try discriminate F; [contradiction|destruct k0; discriminate F].
  - destruct c as [| | | | | | | | |k0|k0| | |]; try discriminate F; [contradiction|destruct k0; discriminate F].
  - destruct I as (I1 & I2 & I3). pose proof (I3 Q) as R. apply (One t); one P. 
  - apply (One t); one P.
  - destruct P as [P _]. apply Inv_pt. apply (One t); one P.
  - destruct P as [P _]. destruct I as (I1 & I2 & I3). pose proof (I3 Q) as R. apply (One t); one P.
  - destruct I as (I1 & I2 & I3). pose proof (I3 Q) as R.
    assert (Ec : pos = 1 \/ t_base t = F15_SID) by (destruct c as [| | | | | | | | |k0|k0| | |]; try discriminate F; [left; now apply Hp|destruct k0; discriminate F]).
    destruct P as [P|P]; [apply (One t); one P|]. destruct Ec as [Ec|Ec]; [|congruence]. clear Hp Hp'; subst pos. apply (One t); one P.
  - destruct P as [P _]. destruct I as (I1 & I2 & I3). pose proof (I3 Q) as R.
    assert (Ec : pos <> 1 \/ t_base t = F15_STAR) by (destruct P as [P|[P P']]; [now right|left; intro X; destruct (Hp' X) as [X'|X']; [contradiction|]; destruct c; try discriminate F; now apply X']).
    destruct P as [P|[P _]]; [apply (One t); one P|]. destruct Ec as [Ec|Ec]; [|congruence]. apply Nat.eqb_neq in Ec. apply (One t); one P. rewrite Ec. reflexivity.
  - destruct P as [P _]. cbn [rstep tokens_of map length] in *. destruct I as (I1 & I2 & I3). split; [exact I1|]. split; [|discriminate].
    apply (open_pass pos (k_p k) _ [(t, ROut)] (ryield r) I2 E). constructor; [apply base_neutral; auto|constructor].
  - destruct P as (P1 & P2 & _). pose proof (in_W pos _ _ (t, ROut) E ltac:(right; left; reflexivity)) as [Wt _]. cbn [fst] in Wt.
    destruct (sa_perf t (k_p k) Wt P2) as (a & -> & S1 & S2).
    change (rstep (SSpeed sl t)) with ([(sl, ROut)] ++ [(t, ROut)]) in *.
    apply (modify pos c k [(sl, ROut)] t _ _ (ryield r) (speed_part (t_text t), first_level (t_text t)) I E); auto.
    + constructor; [apply base_neutral; auto|constructor].
    + unfold modifier. cbn [fst snd]. now rewrite P2.
    + unfold stay_value, in_route. cbn [fst snd]. now rewrite P2.
    + unfold target_text. cbn [fst snd]. now rewrite P2.
    + unfold target_num. cbn [fst snd]. now rewrite P2.
    + rewrite S1, S2. reflexivity.
  - destruct P as (P1 & P2). pose proof (in_W pos _ _ (t, ROut) E ltac:(right; left; reflexivity)) as [Wt _]. cbn [fst] in Wt.
    destruct (vfr_perf t (k_p k) Wt P2) as (a & Ea & S1). unfold vfr_k. rewrite Ea.
    pose proof (create_vfr pos c k [(sl, ROut)] t (ryield r) (vfr_rec a t (k_p k)) (copy_perf (vfr_rec a t (k_p k)) (k_p k)) I E ltac:(constructor; [apply base_neutral; auto|constructor]) P2) as K.
    cbn [length rstep tokens_of map after] in *. replace (pos + 2) with (S (pos + 1)) by lia. replace (S pos) with (pos + 1) by lia.
    apply K; auto.
  - destruct P as (P1 & P2). apply (One t); one P1.
    + cbn. unfold break_rule. destruct (begins (t_sub t)) as [[]|]; [reflexivity..|contradiction].
    + cbn [after]. destruct (begins (t_sub t)); [discriminate|contradiction].
  - destruct P as [P1 P2]. destruct c; try contradiction. cbn [after rstep] in *. destruct I as (I1 & I2 & _). split; [exact I1|]. split; [|discriminate].
    set (a := map (fun t => (t, RText)) txt) in *. assert (Ha : a <> []) by (destruct txt; [contradiction|discriminate]).
    cbn [k_with k_p k_js]. destruct I2 as (H1 & H2 & H3 & H4 & H5 & H7 & H6). pose proof (texts_face txt (k_p k)) as Fc.
    assert (Na : (last_some modifier a = None /\ last_some stay_value a = None) /\ (last_some target_text a = None /\ last_some target_num a = None)).
    { split; split; apply last_some_none; apply Forall_forall; intros x Hx; apply in_map_iff in Hx as (t & <- & _); reflexivity. }
    destruct Na as [[Na1 Na2] [Na3 Na4]].
    unfold open_ok, text_right, stay_right, target_right in *. rewrite (cut_ext _ _ _ _ E H1 Ha), (first_ext _ _ _ E Ha), texts_app, !last_some_app, Na1, Na2, Na3, Na4.
    pose proof Fc as Fi. unfold face in Fi. injection Fi as _ _ _ _ _ F1 F2 F3 F4 F5 F6.
    split; [lia|]. split; [symmetry in Fc; exact (identity_face _ _ _ Fc H2)|]. split; [symmetry in F1; exact (rules0_face _ _ _ F1 H3)|]. split; [|split; [|split]].
    + unfold a. rewrite texts_map. apply texts_break; [| |exact H4].
      * apply Forall_forall. intros x Hx.
        assert (Hin : exists y, In y W /\ x = t_text (fst y)).
        { revert Hx. assert (Hc : forall y, In y (cut W (from (last_lo None (k_js k))) pos) -> In y W).
          { unfold cut. intros y Hy. rewrite <- (firstn_skipn (from (last_lo None (k_js k))) W). apply in_or_app. right. rewrite <- (firstn_skipn (pos - from (last_lo None (k_js k))) (skipn _ W)). apply in_or_app. now left. }
          revert Hc. generalize (cut W (from (last_lo None (k_js k))) pos). induction l as [|(t & []) l IHl]; cbn [texts_of]; intros Hc Hx; [contradiction|..].
          - apply IHl; [|exact Hx]. intros; apply Hc; now right.
          - destruct Hx as [<- |Hx]; [exists (t, RText); split; [apply Hc; now left|reflexivity]|]. apply IHl; [|exact Hx]. intros; apply Hc; now right.
          - apply IHl; [|exact Hx]. intros; apply Hc; now right. }
        destruct Hin as (y & Hy & ->). rewrite Forall_forall in HW. apply (HW y Hy).
      * apply Forall_forall. intros x Hx. apply in_map_iff in Hx as (t & <- & Ht). apply (in_W pos a (ryield r) (t, RText) E). unfold a. apply in_map_iff. eauto.
    + now rewrite F2.
    + now rewrite F5, F6.
    + now rewrite F3, F4.
  - apply (One t); one P.
  - destruct P as (P1 & P2 & _). apply Inv_pt. destruct I as (I1 & I2 & I3). pose proof (I3 Q) as R.
    pose proof (create pos c k [(c0, ROut); (sl, ROut)] (t, RClimb) (ryield r) (after c (SClimb c0 sl t)) (carry (k_p k) (tok_rec t)) (conj I1 (conj I2 I3)) E) as K.
    cbn [length rstep] in *. replace (pos + 3) with (S (pos + 2)) by lia. replace (S (S pos)) with (pos + 2) by lia. apply K; auto; try reflexivity; try discriminate.
    constructor; [apply base_neutral; auto|]. constructor; [apply base_neutral; auto|constructor].
  - destruct P as (P1 & P2 & _). pose proof (in_W pos _ _ (t, ROut) E ltac:(right; left; reflexivity)) as [Wt _]. cbn [fst] in Wt.
    change (rstep (SClimbTo sl t)) with ([(sl, ROut)] ++ [(t, ROut)]) in *.
    apply (modify pos c k [(sl, ROut)] t _ _ (ryield r) (speed_part (t_text t), first_level (t_text t)) I E); auto.
    + constructor; [apply base_neutral; auto|constructor].
    + unfold modifier. cbn [fst snd]. destruct P2 as [-> | ->]; reflexivity.
    + unfold stay_value, in_route. cbn [fst snd]. destruct P2 as [-> | ->]; reflexivity.
    + unfold climb_eff. destruct P2 as [P2|P2]; rewrite P2; [destruct (saa_perf t (k_p k) Wt P2) as (x & y & z & -> & S1 & S2 & S3)|destruct (sap_perf t (k_p k) Wt P2) as (x & y & -> & S1 & S2 & S3)]; reflexivity.
    + unfold climb_eff, target_text. cbn [fst snd]. destruct P2 as [P2|P2]; rewrite P2; [destruct (saa_perf t (k_p k) Wt P2) as (x & y & z & -> & S1 & S2 & S3)|destruct (sap_perf t (k_p k) Wt P2) as (x & y & -> & S1 & S2 & S3)]; rewrite S3; reflexivity.
    + unfold climb_eff, target_num. cbn [fst snd]. destruct P2 as [P2|P2]; rewrite P2; [destruct (saa_perf t (k_p k) Wt P2) as (x & y & z & -> & S1 & S2 & S3); rewrite S3|destruct (sap_perf t (k_p k) Wt P2) as (x & y & -> & S1 & S2 & S3)]; reflexivity.
    + unfold climb_eff. destruct P2 as [P2|P2]; rewrite P2; [destruct (saa_perf t (k_p k) Wt P2) as (x & y & z & -> & S1 & S2 & S3)|destruct (sap_perf t (k_p k) Wt P2) as (x & y & -> & S1 & S2 & S3)]; reflexivity.
    + unfold climb_eff. destruct P2 as [P2|P2]; rewrite P2; [destruct (saa_perf t (k_p k) Wt P2) as (x & y & z & -> & S1 & S2 & S3)|destruct (sap_perf t (k_p k) Wt P2) as (x & y & -> & S1 & S2 & S3)]; rewrite S1, S2; reflexivity.
  - destruct P as (P1 & P2 & P3). pose proof (in_W pos _ _ (tm, ROut) E ltac:(right; right; left; reflexivity)) as [Wt _]. cbn [fst] in Wt.
    destruct I as (I1 & I2 & I3). pose proof (I3 Q) as R. split; [exact I1|]. split; [|auto]. cbn [k_with k_p k_js].
    destruct I2 as (H1 & H2 & H3 & H4 & H5 & H7 & H6). cbn [rstep tokens_of map] in *. set (a := [(st, ROut); (sl, ROut); (tm, ROut)]) in *.
    assert (Ha : a <> []) by discriminate. unfold open_ok, text_right, stay_right, target_right in *. rewrite (cut_ext _ _ _ _ E H1 Ha), (first_ext _ _ _ E Ha), texts_app, !last_some_app.
    assert (V1 : last_some modifier a = None) by (unfold a, modifier; cbn [last_some fst snd]; rewrite P1, P2, P3; reflexivity).
    assert (V2 : last_some stay_value a = Some (minutes (t_text tm))) by (unfold a, stay_value, in_route; cbn [last_some fst snd]; rewrite P3; reflexivity).
    assert (V3 : texts_of a = []) by reflexivity.
    assert (V4 : last_some target_text a = None) by (unfold a, target_text; cbn [last_some fst snd]; rewrite P1, P2, P3; reflexivity).
    assert (V5 : last_some target_num a = None) by (unfold a, target_num; cbn [last_some fst snd]; rewrite P1, P2, P3; reflexivity).
    rewrite V1, V2, V3, V4, V5, app_nil_r.
    split; [lia|]. split; [exact H2|]. split; [exact H3|]. split; [exact H4|]. split; [|split; [exact H7|exact H6]]. cbn. now apply stay_minutes.
Qed.

Lemma rstep_some c s r : proper c s (yield r) -> rstep s <> [].
Proof. destruct s; cbn [rstep tokens_of map proper]; try discriminate. intros [H _]. destruct txt; [contradiction|discriminate]. Qed.
Lemma Inv_run G : forall ss pos c k, c <> XStart -> derives c ss -> skipn pos W = ryield ss -> 1 <= pos ->
  (c = XAdep -> pos = 1) -> (pos = 1 -> c = XAdep \/ ctx_kind c <> None) -> Inv pos c k ->
  pos <= length W -> exists c', Inv (length W) c' (effs G pos ss k).
Proof.
  induction ss as [|s r IH]; intros pos c k Nc D E Lp Hp Hp' I Lw.
  - exists c. cbn [effs]. cbn [ryield flat_map] in E. assert (pos = length W) as <-; [|exact I].
    apply (f_equal (@length _)) in E. rewrite skipn_length in E. cbn [length] in E. lia.
  - cbn [derives] in D. destruct D as (F & P & D). rewrite ryield_cons in E. cbn [effs]. pose proof (rstep_some c s r P) as Ns.
    pose proof (Inv_step G pos c s r k Nc F P E Hp Hp' I) as I'. rewrite <- rstep_len.
    assert (Na : after c s <> XStart /\ after c s <> XAdep).
    { destruct s; cbn [after]; try (split; discriminate); destruct c as [| | | | | | | | |k0|k0| | |]; try discriminate F; try (split; discriminate); try contradiction;
        try (destruct k0; first [discriminate F|split; discriminate]); destruct (begins (t_sub t)); split; discriminate. }
    destruct Na as [Na1 Na2]. apply (IH _ (after c s)); auto.
    + rewrite Nat.add_comm, <- skipn_skipn, E, skipn_app, skipn_all, Nat.sub_diag. reflexivity.
    + lia.
    + intro X. contradiction.
    + intro X. exfalso. destruct (rstep s); [contradiction|]. cbn [length] in X. lia.
    + exact (skip_len pos _ _ E Ns).
Qed.
End W.

(** ** The whole field *)
Lemma field_wt field : Forall (fun t => wt t /\ t_text t <> []) (field_tokens field).
Proof.
  apply Forall_forall. intros t Ht. unfold field_tokens in Ht. apply in_map_iff in Ht as (t0 & <- & Ht). split.
  - unfold wt, typed. cbn [t_text t_base t_sub]. now destruct (classify (t_text t0)).
  - unfold typed. cbn [t_text]. rewrite tokenize_string_toks in Ht. destruct (tkz_addresses _ _ _ (toks_tokenization _ _) t0 Ht) as (B1 & B2 & B3).
    intro X. rewrite X in B3. apply (f_equal (@length _)) in B3. unfold slice, slice_bound in B3. rewrite firstn_length, skipn_length in B3. cbn [length] in B3. unfold zlen in *. 
    destruct (_ <? _)%Z eqn:E1 in B3; destruct (_ <? _)%Z eqn:E2 in B3; lia.
Qed.
Lemma roles_fst : forall ts o, map fst (roled o ts) = ts.
Proof.
  assert (K : forall n ts o, length ts <= n -> map fst (roled o ts) = ts).
  { induction n as [|n IH]; intros ts o H; destruct ts as [|t r]; cbn [length] in H; try reflexivity; [lia|]. cbn [roled].
    destruct o; [cbn [map fst]; now rewrite IH by lia|].
    destruct (t_base t); try (cbn [map fst]; now rewrite IH by lia).
    destruct r as [|sl [|p r3]]; try (cbn [map fst]; now rewrite IH by lia). cbn [length] in H.
    destruct (base_eqb _ _); [cbn [map fst]; now rewrite IH by lia|]. change (map fst ((t, ROut) :: roled None (sl :: p :: r3))) with (t :: map fst (roled None (sl :: p :: r3))).
    rewrite IH by (cbn [length]; lia). reflexivity. }
  intros ts o. exact (K _ ts o (le_n _)).
Qed.
Section Field.
Variable G : geodesic.
Lemma first_inv W ss : Forall (fun x => wt (fst x) /\ t_text (fst x) <> []) W -> derives XStart ss -> W = ryield ss -> exists s r, ss = s :: r /\ 
  Inv W 1 (after XStart s) (eff1 G 0 s core0) /\ derives (after XStart s) r /\ skipn 1 W = ryield r /\ length W >= 1 /\
  (after XStart s = XAdep \/ after XStart s = XText KVfr) /\ length (tokens_of s) = 1.
Proof.
  intros HW D E. destruct ss as [|s r]; [discriminate|]. exists s, r. split; [reflexivity|]. cbn [derives] in D. destruct D as (F & P & D).
  rewrite ryield_cons in E. destruct s; try discriminate F; cbn [proper] in P.
  - destruct P as (P1 & P2 & P3). cbn [rstep tokens_of map app after] in *. assert (Wt : wt t) by (rewrite E in HW; inversion HW; tauto).
    split; [|repeat split; auto; try (rewrite E; cbn [length skipn]; try lia; reflexivity)].
    destruct (sa_perf t adep0 Wt P1) as (a & Ea & S1 & S2). unfold Inv. cbn [eff1 k_with core0 k_l k_p k_js closed last_lo]. rewrite Ea.
    split; [constructor|]. split; [|reflexivity].
    assert (V : vfr1 W = false) by (unfold vfr1; rewrite E; unfold in_route; cbn [fst snd]; now rewrite P1).
    unfold open_ok. cbn [from identity rules0]. unfold text_right, stay_right, target_right. cbn [from]. unfold cut. rewrite V. cbn [skipn Nat.sub].
    split; [lia|]. split; [repeat split|]. split; [reflexivity|]. split; [rewrite E; reflexivity|]. split; [|split].
    + rewrite E. cbn [firstn last_some]. unfold stay_value, in_route. cbn [fst snd]. rewrite P1. reflexivity.
    + rewrite E. cbn [firstn last_some]. unfold target_text, target_num. cbn [fst snd]. rewrite P1. split; reflexivity.
    + rewrite E. cbn [firstn last_some]. unfold modifier. cbn [fst snd]. rewrite P1, S1, S2. reflexivity.
  - cbn [rstep tokens_of map app after] in *. assert (Wt : wt t) by (rewrite E in HW; inversion HW; tauto).
    split; [|repeat split; auto; try (rewrite E; cbn [length skipn]; try lia; reflexivity)].
    destruct (vfr_perf t adep0 Wt P) as (a & Ea & S1). unfold Inv. cbn [eff1 core0 vfr_k k_l k_p k_js closed last_lo app]. rewrite Ea.
    assert (V : vfr1 W = true) by (unfold vfr1; rewrite E; unfold in_route; cbn [fst snd]; now rewrite P).
    assert (N0 : nth_error W 0 = Some (t, ROut)) by now rewrite E.
    assert (M : modifier (t, ROut) = Some (speed_part (t_text t), $"F050")) by (unfold modifier; cbn [fst snd]; now rewrite P).
    split; [|split; [|discriminate]].
    + constructor; [|constructor]. unfold closed_ok. cbn [fst snd]. unfold text_right, stay_right, target_right, performance_right, upto. rewrite N0. cbn [from]. unfold cut. cbn [Nat.sub firstn].
      unfold in_route. cbn [fst snd]. rewrite P. change (base_eqb F15_SPEED_VFR F15_SPEED_VFR) with true. cbv iota. split; [repeat split|]. split; [unfold rules0; now rewrite V|].
      split; [reflexivity|]. split; [reflexivity|]. split; [split; reflexivity|]. rewrite E. cbn [firstn last_some]. rewrite M, S1. reflexivity.
    + apply (new_open W 0 _ (t, ROut) (ryield r)); try reflexivity; cbn [fst]; try discriminate.
      * now rewrite E.
      * unfold stay_value, in_route. cbn [fst snd]. now rewrite P.
      * unfold target_text. cbn [fst snd]. now rewrite P.
      * unfold target_num. cbn [fst snd]. now rewrite P.
      * unfold name_of, in_route. cbn [fst snd]. now rewrite P.
      * unfold types_at. cbn. rewrite P. reflexivity.
      * unfold rules_of, opens. cbn. rewrite P. reflexivity.
      * rewrite E. cbn [firstn last_some]. rewrite M, S1. reflexivity.
Qed.

Lemma closed_describes W l ps : Forall2 (closed_ok W) l ps -> forall (p0 : rrec) hi r0 rest, l = p0 :: r0 -> ps = (None, hi) :: rest ->
  Forall (fun p => fst p <> None) rest -> W <> [] ->
  (vfr1 W = false -> match W with x :: _ => rules_of x = $"IFR" | [] => True end) ->
  Forall2 (describes W) ((if vfr1 W then list_upd 0 (set_r_rules RULE_V) else fun l => l) l) ps.
Proof.
  intros H p0 hi r0 rest -> -> N NW HV. inversion H as [|? ? ? ? H1 H2]; subst.
  assert (T : Forall2 (describes W) r0 rest).
  { clear - H2 N. induction H2 as [|r part l ps H H' IH]; [constructor|]. inversion N as [|? ? N1 N2]; subst. constructor; [|now apply IH].
    destruct H as (K1 & K2 & K3). unfold describes. split; [exact K1|]. split; [|exact K3]. destruct (fst part); [exact K2|contradiction]. }
  destruct H1 as (K1 & K2 & K3 & K4 & K5). cbn [fst snd rules0] in *.
  destruct (vfr1 W) eqn:V.
  - cbn [list_upd]. constructor; [|exact T]. unfold describes. cbn [fst snd]. split; [exact K1|]. split; [|split; [exact K3|split; [exact K4|exact K5]]].
    unfold rules_right. destruct W as [|x w]; [contradiction|]. unfold vfr1 in V. unfold rules_of, opens. unfold in_route in V. destruct (snd x); try discriminate V.
    apply base_eqb_eq in V. rewrite V. reflexivity.
  - constructor; [|exact T]. unfold describes. cbn [fst snd]. split; [exact K1|]. split; [|auto]. unfold rules_right. destruct W as [|x w]; [contradiction|]. rewrite K2. symmetry. exact (HV eq_refl).
Qed.
Lemma closed_some : forall js j, Forall (fun p => fst p <> None) (closed (Some j) js).
Proof. induction js as [|a js IH]; intro j; cbn [closed]; [constructor|]. constructor; [discriminate|apply IH]. Qed.
Lemma parts_some : forall js j n, Forall (fun p => fst p <> None) (parts (Some j) js n).
Proof. induction js as [|a js IH]; intros j n; cbn [parts]; (constructor; [discriminate|]); [constructor|apply IH]. Qed.

Theorem described depth field s : parse_field15 G depth field = Ok true s ->
  let W := roles (field_tokens field) in
  exists rs, e_recs (s_ers s) = rs ++ [ades_rec rs] /\ Forall2 (describes W) rs (parts None (recorded_at 0 W) (length W)).
Proof.
  intros H W. destruct (accepted G depth field s H) as (ss & D & Y & Es). cbv zeta in Es. rewrite Es. cbn [e_recs].
  assert (EW : W = ryield ss) by (unfold W, roles; rewrite <- Y; exact (roled_derives ss XStart D)).
  assert (FW : map fst W = field_tokens field) by apply roles_fst.
  assert (HW : Forall (fun x => wt (fst x) /\ t_text (fst x) <> []) W).
  { pose proof (field_wt field) as K. rewrite <- FW in K. apply Forall_map in K. exact K. }
  destruct (first_inv W ss HW D EW) as (s1 & r & -> & I & D1 & E1 & Ln & C1 & L1).
  assert (Nc : after XStart s1 <> XStart) by (destruct C1 as [-> | ->]; discriminate).
  destruct (Inv_run W HW G r 1 _ _ Nc D1 E1 (le_n _) ltac:(reflexivity)
     ltac:(intros _; destruct C1 as [-> | ->]; [now left|right; discriminate]) I Ln) as (c' & I1 & I2 & _).
  assert (Ek : effs G 0 (s1 :: r) core0 = effs G 1 r (eff1 G 0 s1 core0)) by (cbn [effs]; rewrite L1; reflexivity).
  rewrite Ek. set (k := effs G 1 r (eff1 G 0 s1 core0)) in *.
  assert (Js : k_js k = recorded_at 0 W).
  { rewrite <- Ek, (effs_js G _ XStart _ _ D), EW. reflexivity. }
  assert (Vf : is_vfr_first (field_tokens field) = vfr1 W).
  { rewrite <- FW. unfold is_vfr_first, vfr1. destruct W as [|x w] eqn:Ew; [reflexivity|]. cbn [map]. unfold in_route.
    assert (snd x = ROut) as ->; [|reflexivity]. unfold W, roles in Ew. clear - Ew. destruct (field_tokens field) as [|t ts]; [discriminate|].
    cbn [roled] in Ew. destruct (t_base t); try (injection Ew as <- _; reflexivity). destruct ts as [|sl [|p ts]]; try (injection Ew as <- _; reflexivity).
    destruct (base_eqb _ _); injection Ew as <- _; reflexivity. }
  exists (core_recs (vfr1 W) k). rewrite Vf. split; [reflexivity|].
  unfold core_recs. rewrite parts_closed, <- Js.
  assert (A : Forall2 (closed_ok W) (k_l k ++ [k_p k]) (closed None (k_js k) ++ [(last_lo None (k_js k), length W)])).
  { apply Forall2_app; [exact I1|]. constructor; [|constructor]. apply close_end. exact I2. }
  rewrite <- parts_closed in A |- *.
  destruct (k_l k ++ [k_p k]) as [|p0 r0] eqn:El; [destruct (k_l k); discriminate|].
  destruct (parts None (k_js k) (length W)) as [|(lo & hi) rest] eqn:Ep; [inversion A|].
  assert (lo = None /\ Forall (fun p => fst p <> None) rest) as [-> Nr].
  { clear - Ep. destruct (k_js k) as [|j js]; cbn [parts] in Ep; injection Ep as <- <- <-; (split; [reflexivity|]); [constructor|apply parts_some]. }
  apply (closed_describes W _ _ A p0 hi r0 rest eq_refl eq_refl Nr).
  - intro X. rewrite X in Ln. cbn [length] in Ln. lia.
  - intro V. cbn [derives] in D. destruct D as (F & P & _). rewrite EW in *. rewrite ryield_cons in *. destruct s1; try discriminate F; cbn [proper rstep tokens_of map app] in *.
    + unfold rules_of, opens. cbn [fst snd]. destruct P as [P _]. rewrite P. reflexivity.
    + unfold vfr1, in_route in V. cbn [fst snd] in V. rewrite P in V. discriminate.
Qed.
End Field.
