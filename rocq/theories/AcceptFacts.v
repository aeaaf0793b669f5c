(** * AcceptFacts: consequences of [described] and of the grammar for accepted fields. *)
From Coq Require Import ZArith NArith List Bool String Lia.
From Coq Require Import ZifyBool ZifyNat ZifyN.
From Verif Require Import PyBase PyFloat Enums ErrorTable Regex SyntaxTable Syntax Tokenizer Ers Utils Parser.
From Verif Require Import SpecTokenizer TokenizerProofs RegexProofs SpecNum PerfEq NumProofs ParserPrims SyntaxProofs Trace ParseTrace ParserInv ParserFacts SpecParser SpecGrammar GrammarSem Grammar SpecAccept Accept Describe.
Import List ListNotations.
Local Open Scope list_scope.
Local Open Scope nat_scope.

(** ** Where a token of a derivation comes from *)
Lemma app_split {A} : forall (a b p : list A) x q, a ++ b = p ++ x :: q ->
  (exists c, a = p ++ x :: c /\ q = c ++ b) \/ (exists c, p = a ++ c /\ b = c ++ x :: q).
Proof.
  induction a as [|y a IH]; intros b p x q E.
  - right. exists p. auto.
  - destruct p as [|z p]; cbn [app] in E; injection E as -> E.
    + left. exists a. auto.
    + destruct (IH _ _ _ _ E) as [(c & -> & ->)|(c & -> & ->)]; [left|right]; exists c; auto.
Qed.
Lemma locate : forall ss c0 pre x rest, derives c0 ss -> ryield ss = pre ++ x :: rest ->
  exists c s ss1 ss2 a b, ss = ss1 ++ s :: ss2 /\ rstep s = a ++ x :: b /\ pre = ryield ss1 ++ a /\ rest = b ++ ryield ss2 /\
    follows c s = true /\ proper c s (yield ss2) /\ derives (after c s) ss2 /\ c = fold_left after ss1 c0.
Proof.
  induction ss as [|s r IH]; intros c0 pre x rest D E; [destruct pre; discriminate|].
  cbn [derives] in D. destruct D as (F & P & D). rewrite ryield_cons in E.
  destruct (app_split _ _ _ _ _ E) as [(b & E1 & E2)|(c & E1 & E2)].
  - exists c0, s, [], r, pre, b. repeat (split; [auto; fail|]). reflexivity.
  - destruct (IH _ _ _ _ D E2) as (c' & s' & ss1 & ss2 & a & b & Q1 & Q2 & Q3 & Q4 & Q5 & Q6 & Q7 & Q8).
    exists c', s', (s :: ss1), ss2, a, b. rewrite Q1, ryield_cons, <- app_assoc, <- Q3. auto 10.
Qed.
Lemma derives_app : forall a c b, derives c (a ++ b) -> derives (fold_left after a c) b.
Proof. induction a as [|s a IH]; intros c b D; [exact D|]. cbn [app derives] in D. cbn [fold_left]. apply IH. apply D. Qed.
Lemma ryield_app a b : ryield (a ++ b) = ryield a ++ ryield b.
Proof. apply flat_map_app. Qed.
Ltac ctx_cases c F := destruct c as [| | | | | | | | |kk|kk| | |]; try discriminate F; try (destruct kk; discriminate F).
(** Only the first speed/level leads to [XAdep]. *)
Definition begun (c : ctx) : bool := match c with XStart | XAdep => false | _ => true end.
Lemma begun_after c s : follows c s = true -> c <> XStart -> begun (after c s) = true.
Proof. intros F N. destruct s; try reflexivity; cbn [after]; ctx_cases c F; try contradiction; try reflexivity; try (destruct kk; reflexivity); destruct (begins (t_sub t)); reflexivity. Qed.
Lemma begun_run : forall a c b, derives c (a ++ b) -> begun c = true -> begun (fold_left after a c) = true.
Proof.
  induction a as [|s a IH]; intros c b D B; [exact B|]. cbn [app derives] in D. destruct D as (F & _ & D). cbn [fold_left].
  apply (IH _ b D). apply (begun_after c s F). destruct c; discriminate.
Qed.
Lemma adep_only a b : derives XStart (a ++ b) -> fold_left after a XStart = XAdep -> exists t, a = [SFirst t].
Proof.
  intros D E. destruct a as [|s a]; [discriminate|]. cbn [app derives] in D. destruct D as (F & _ & D). cbn [fold_left] in E.
  assert (Na : after XStart s <> XAdep -> False).
  { intro N. assert (B : begun (after XStart s) = true) by (destruct s; try discriminate F; [exfalso; now apply N|reflexivity]).
    pose proof (begun_run a _ b D B) as K. rewrite E in K. discriminate. }
  destruct s; try discriminate F; [|exfalso; apply Na; discriminate]. exists t. cbn [after] in *. destruct a as [|s2 a]; [reflexivity|exfalso].
  cbn [app derives fold_left] in D, E. destruct D as (F2 & _ & D). pose proof (begun_run a _ b D (begun_after _ _ F2 ltac:(discriminate))) as K. rewrite E in K. discriminate.
Qed.
Lemma start_only a b : derives XStart (a ++ b) -> fold_left after a XStart = XStart -> a = [].
Proof.
  intros D E. destruct a as [|s a]; [reflexivity|exfalso]. cbn [app derives fold_left] in D, E. destruct D as (F & _ & D).
  destruct (begun (after XStart s)) eqn:B.
  - pose proof (begun_run a _ b D B) as K. rewrite E in K. discriminate.
  - destruct s; try discriminate F; [|discriminate B]. cbn [after] in *. destruct a as [|s2 a]; [discriminate|]. cbn [app derives fold_left] in D, E. destruct D as (F2 & _ & D).
    pose proof (begun_run a _ b D (begun_after _ _ F2 ltac:(discriminate))) as K. rewrite E in K. discriminate.
Qed.
(** The single token [x] of a step. *)
Lemma rstep_one s a x b t : rstep s = [t] -> rstep s = a ++ x :: b -> a = [] /\ x = t /\ b = [].
Proof. intros -> E. destruct a as [|y [|z a]]; cbn [app] in E; try discriminate E. injection E as <- <-. auto. Qed.

Definition sourced (field : pstr) (W : list (token * role)) : Prop := exists ss, derives XStart ss /\ W = ryield ss /\ yield ss = field_tokens field.
Section G.
Variable G : geodesic.
Lemma accepted_source depth field s : parse_field15 G depth field = Ok true s -> sourced field (roles (field_tokens field)).
Proof.
  intro H. destruct (accepted_sentence G depth field s H) as (ss & D & Y). exists ss. split; [exact D|]. split; [|exact Y].
  unfold roles. rewrite <- Y. exact (roled_derives ss XStart D).
Qed.
End G.

(** ** Accepted fields *)
Section W.
Variables (field : pstr) (W : list (token * role)).
Hypothesis Src : sourced field W.
Ltac where_is E :=
  let ss := fresh "ss" in let D := fresh "D" in let EW := fresh "EW" in
  destruct Src as (ss & D & EW & _); rewrite EW in E;
  destruct (locate ss XStart _ _ _ D E) as (c & s & ss1 & ss2 & a & b & Es & Er & Ep & Et & F & P & D2 & Ec).
Lemma rstep_in s x : In x (rstep s) -> In (fst x) (tokens_of s) /\
  snd x = match s with SText _ => RText | SClimb _ _ t => snd x | _ => ROut end.
Proof.
  intro H. assert (K : In (fst x) (tokens_of s)) by (rewrite <- rstep_fst; now apply in_map). split; [exact K|].
  destruct s; try reflexivity; cbn [rstep] in H; apply in_map_iff in H as (t0 & <- & _); reflexivity.
Qed.
Lemma in_step x : In x W -> exists c s r, In x (rstep s) /\ follows c s = true /\ proper c s (yield r).
Proof. intro H. apply in_split in H as (pre & rest & E). where_is E. exists c, s, ss2. split; [rewrite Er; apply in_or_app; right; now left|auto]. Qed.
Lemma all_recognised t : In (t, ROut) W -> recognised (t_base t) = true.
Proof.
  intro H. destruct (in_step _ H) as (c & s & r & Hi & F & P). destruct s; cbn [rstep tokens_of map In] in Hi; cbn [proper] in P.
  13: { apply in_map_iff in Hi as (t0 & E & _). discriminate E. }
  all: repeat match goal with
    | H : _ \/ _ |- _ => destruct H
    | H : _ /\ _ |- _ => destruct H
    | H : False |- _ => destruct H
    | H : (_, _) = (_, _) |- _ => injection H; clear H; intros; subst
    end; try discriminate; try match goal with H : t_base ?x = _ |- recognised (t_base ?x) = true => rewrite H; reflexivity end.
Qed.
(** The step of a token of the route. *)
Definition step_for (t : token) (s : step) : Prop :=
  match t_base t with
  | F15_DCT => s = SDct t
  | F15_TRUNCATE => s = STrunc t
  | F15_ROUTE => s = SRoute t
  | F15_SID => s = SSid t
  | F15_STAR => s = SStar t
  | F15_SID_STAR => s = SSid t \/ s = SStar t
  | F15_POINT => s = SPoint t \/ s = SRejoin t
  | F15_SPEED_ALTITUDE => s = SFirst t \/ exists sl, s = SSpeed sl t
  | F15_SPEED_ALTITUDE_ALTITUDE | F15_SPEED_ALTITUDE_PLUS => exists sl, s = SClimbTo sl t
  | F15_STAY_TIME => exists st sl, s = SStay st sl t
  | _ => True
  end.
Lemma step_for_in c s r t : In (t, ROut) (rstep s) -> follows c s = true -> proper c s (yield r) -> step_for t s.
Proof.
  intros Hi F P. unfold step_for. destruct s; cbn [rstep tokens_of map In] in Hi; cbn [proper] in P.
  13: { apply in_map_iff in Hi as (t0 & E & _). discriminate E. }
  all: repeat match goal with
    | H : _ \/ _ |- _ => destruct H
    | H : _ /\ _ |- _ => destruct H
    | H : False |- _ => destruct H
    | H : (_, _) = (_, _) |- _ => injection H; clear H; intros; subst
    end; try discriminate; match goal with H : t_base ?x = _ |- context [t_base ?x] => rewrite H end; eauto.
Qed.
Lemma one_token s a t b : rstep s = a ++ (t, ROut) :: b -> rstep s = [(t, ROut)] -> a = [] /\ b = [].
Proof. intros E H. rewrite H in E. destruct a as [|y [|z a]]; cbn [app] in E; try discriminate E. injection E as <-. auto. Qed.
(** Split at a token of the route that is a step of its own. *)
Lemma locate_one pre t rest : W = pre ++ (t, ROut) :: rest -> exists c s ss1 ss2, derives XStart (ss1 ++ s :: ss2) /\ step_for t s /\
  (rstep s = [(t, ROut)] -> pre = ryield ss1 /\ rest = ryield ss2) /\
  follows c s = true /\ proper c s (yield ss2) /\ derives (after c s) ss2 /\ c = fold_left after ss1 XStart.
Proof.
  intro E. where_is E. exists c, s, ss1, ss2. rewrite <- Es. split; [exact D|].
  assert (Hi : In (t, ROut) (rstep s)) by (rewrite Er; apply in_or_app; right; now left). split; [exact (step_for_in c s ss2 t Hi F P)|].
  split; [|auto]. intro H1. destruct (one_token s a t b Er H1) as [-> ->]. rewrite app_nil_r in Ep. auto.
Qed.
Lemma trunc_last pre t rest : W = pre ++ (t, ROut) :: rest -> t_base t = F15_TRUNCATE -> rest = [].
Proof.
  intros E B. destruct (locate_one _ _ _ E) as (c & s & ss1 & ss2 & D & S & O & F & P & D2 & _). unfold step_for in S. rewrite B in S. subst s.
  destruct (O eq_refl) as [_ ->]. cbn [after] in D2. destruct ss2 as [|s2 ss2]; [reflexivity|]. cbn [derives] in D2. destruct D2 as (F2 & _). destruct s2; discriminate F2.
Qed.
Lemma star_last pre t rest : W = pre ++ (t, ROut) :: rest -> t_base t = F15_STAR -> rest = [].
Proof.
  intros E B. destruct (locate_one _ _ _ E) as (c & s & ss1 & ss2 & D & S & O & F & P & D2 & _). unfold step_for in S. rewrite B in S. subst s.
  destruct (O eq_refl) as [_ ->]. cbn [after] in D2. destruct ss2 as [|s2 ss2]; [reflexivity|]. cbn [derives] in D2. destruct D2 as (F2 & _). destruct s2; discriminate F2.
Qed.
Lemma sid_second pre t rest : W = pre ++ (t, ROut) :: rest -> t_base t = F15_SID -> length pre = 1.
Proof.
  intros E B. destruct (locate_one _ _ _ E) as (c & s & ss1 & ss2 & D & S & O & F & P & D2 & Ec). unfold step_for in S. rewrite B in S. subst s.
  destruct (O eq_refl) as [-> _]. ctx_cases c F. symmetry in Ec. destruct (adep_only _ _ D Ec) as (t1 & ->). reflexivity.
Qed.
Lemma sidstar_place pre t rest : W = pre ++ (t, ROut) :: rest -> t_base t = F15_SID_STAR -> length pre = 1 \/ rest = [].
Proof.
  intros E B. destruct (locate_one _ _ _ E) as (c & s & ss1 & ss2 & D & S & O & F & P & D2 & Ec). unfold step_for in S. rewrite B in S. destruct S as [-> | ->]; destruct (O eq_refl) as [-> ->].
  - left. ctx_cases c F. symmetry in Ec. destruct (adep_only _ _ D Ec) as (t1 & ->). reflexivity.
  - right. cbn [after] in D2. destruct ss2 as [|s2 ss2]; [reflexivity|]. cbn [derives] in D2. destruct D2 as (F2 & _). destruct s2; discriminate F2.
Qed.
Lemma levels_good t : In (t, ROut) W -> levels_ok t.
Proof.
  intro H. destruct (in_step _ H) as (c & s & r & Hi & F & P). pose proof (step_for_in c s r t Hi F P) as S. unfold step_for in S. unfold levels_ok in *.
  destruct (t_base t) eqn:B; try exact I; cbn [proper] in P.
  - destruct S as [-> |(sl & ->)]; cbn [proper] in P; unfold levels_ok in P; rewrite B in P; tauto.
  - destruct S as (sl & ->); cbn [proper] in P; unfold levels_ok in P; rewrite B in P; tauto.
  - destruct S as (sl & ->); cbn [proper] in P; unfold levels_ok in P; rewrite B in P; tauto.
Qed.
Lemma climb_point t : In (t, RClimb) W -> angles_ok t.
Proof.
  intro H. destruct (in_step _ H) as (c & s & r & Hi & F & P). destruct (rstep_in s _ Hi) as [_ K]. destruct s; try discriminate K.
  cbn [rstep In] in Hi. destruct Hi as [Hi|[Hi|[Hi|[]]]]; try discriminate Hi. injection Hi as ->. apply P.
Qed.
Lemma point_angles pre t rest : W = pre ++ (t, ROut) :: rest -> t_base t = F15_POINT -> angles_ok t \/ unchecked_point pre rest.
Proof.
  intros E B. destruct (locate_one _ _ _ E) as (c & s & ss1 & ss2 & D & S & O & F & P & D2 & Ec). unfold step_for in S. rewrite B in S. destruct S as [-> | ->]; destruct (O eq_refl) as [-> ->].
  - left. apply P.
  - right. ctx_cases c F. destruct kk; try discriminate F. split.
    + destruct (exists_last (l := ss1) ltac:(intros ->; discriminate Ec)) as (l & s0 & ->). rewrite fold_left_app in Ec. cbn [fold_left] in Ec.
      assert (Ht : exists txt, s0 = SText txt).
      { destruct s0; cbn [after] in Ec; try discriminate Ec; try (destruct (begins (t_sub t0)); discriminate Ec); try (destruct (fold_left after l XStart) as [| | | | | | | | |k1|k1| | |] eqn:Ef; try discriminate Ec; try (destruct k1; discriminate Ec)).
        - rewrite <- app_assoc in D. pose proof (derives_app _ _ _ D) as D'. rewrite Ef in D'. cbn [app derives] in D'. destruct D' as (F' & _). destruct k1; discriminate F'.
        - eauto. }
      destruct Ht as (txt & ->). rewrite <- app_assoc in D. pose proof (derives_app _ _ _ D) as D'. cbn [app derives proper] in D'. destruct D' as (_ & (Nt & _) & _).
      destruct (exists_last Nt) as (txt0 & u & ->). exists (ryield l ++ map (fun t => (t, RText)) txt0), u. rewrite ryield_app. cbn [ryield flat_map rstep]. rewrite map_app, app_nil_r, app_assoc. reflexivity.
    + cbn [after] in D2. destruct ss2 as [|s2 ss2]; [discriminate|]. cbn [derives] in D2. destruct D2 as (F2 & P2 & _). destruct s2; try discriminate F2.
      cbn [proper] in P2. exists sl, t0, (ryield ss2). rewrite ryield_cons. cbn [rstep tokens_of map app]. tauto.
Qed.

(** Connectors. *)
Lemma dct_next pre t rest : W = pre ++ (t, ROut) :: rest -> t_base t = F15_DCT -> followed_by rest after_dct.
Proof.
  intros E B. destruct (locate_one _ _ _ E) as (c & s & ss1 & ss2 & D & S & O & F & P & D2 & Ec). unfold step_for in S. rewrite B in S. subst s. destruct (O eq_refl) as [-> ->].
  cbn [after] in D2. destruct ss2 as [|s2 ss2]; [exact I|]. cbn [derives] in D2. destruct D2 as (F2 & P2 & _). rewrite ryield_cons. unfold after_dct.
  destruct s2; try discriminate F2; cbn [proper] in P2; cbn [rstep tokens_of map app followed_by]; (split; [reflexivity|]); destruct P2 as [-> _]; reflexivity.
Qed.
Lemma route_next_is pre t rest : W = pre ++ (t, ROut) :: rest -> t_base t = F15_ROUTE -> followed_by rest after_route.
Proof.
  intros E B. destruct (locate_one _ _ _ E) as (c & s & ss1 & ss2 & D & S & O & F & P & D2 & Ec). unfold step_for in S. rewrite B in S. subst s. destruct (O eq_refl) as [-> ->].
  cbn [after] in D2. destruct ss2 as [|s2 ss2]; [exact I|]. cbn [derives] in D2. destruct D2 as (F2 & P2 & _). rewrite ryield_cons. unfold after_route.
  destruct s2; try discriminate F2; cbn [proper] in P2; cbn [rstep tokens_of map app followed_by]; (split; [reflexivity|]); destruct P2 as [-> _]; try reflexivity. exact F2.
Qed.
Definition computed_ctx (c : ctx) : bool := match c with XPoint b | XClimb b | XThenSpeed b => b | XThenVfr => true | _ => false end.
Lemma last_eq {A} (a b : list A) x y : a ++ [x] = b ++ [y] -> a = b /\ x = y.
Proof. apply app_inj_tail. Qed.
Lemma app_two {A} (a b : list A) x y z w : a ++ [x; y] = b ++ [z; w] -> a = b /\ x = z /\ y = w.
Proof. change [x; y] with ([x] ++ [y]). change [z; w] with ([z] ++ [w]). rewrite !app_assoc. intro H. apply last_eq in H as [H ->]. apply last_eq in H as [-> ->]. auto. Qed.
Lemma computed_after : forall mods, changes mods -> forall ss1 tl pre0 x, derives XStart (ss1 ++ tl) -> ryield ss1 = pre0 ++ x :: mods -> is_computed x ->
  computed_ctx (fold_left after ss1 XStart) = true.
Proof.
  induction 1 as [|mods sl t Hm IH Bs Bt]; intros ss1 tl pre0 x D E C; (destruct ss1 as [|s0 l _] using rev_ind; [destruct pre0; discriminate|]);
    rewrite fold_left_app; cbn [fold_left]; rewrite ryield_app in E; cbn [ryield flat_map] in E; rewrite app_nil_r in E; rewrite <- app_assoc in D;
    pose proof (derives_app _ _ _ D) as D'; cbn [app derives] in D'; destruct D' as (F & P & _); set (c := fold_left after l XStart) in *.
  - destruct C as [C1 C2]. assert (Er : exists a, rstep s0 = a ++ [x]).
    { pose proof (rstep_some c s0 tl P) as N. destruct (exists_last N) as (a & y & Ea). exists a. rewrite Ea, app_assoc in E. apply last_eq in E as [_ ->]. exact Ea. }
    destruct Er as (a & Ea). assert (Hi : In x (rstep s0)) by (rewrite Ea; apply in_or_app; right; now left).
    destruct x as (t & ro). cbn [fst snd] in *. destruct C1 as [-> |[-> B]].
    + destruct (rstep_in s0 _ Hi) as [_ K]. destruct s0; try discriminate K. cbn [rstep] in Ea. destruct a as [|? [|? [|? [|]]]]; try discriminate Ea. injection Ea as _ _ _. subst. cbn [after computed_ctx]. 
      cbn [rstep In] in Hi. destruct Hi as [Hi|[Hi|[Hi|[]]]]; try discriminate Hi. injection Hi as ->. exact C2.
    + pose proof (step_for_in c s0 tl t Hi F P) as S. unfold step_for in S. rewrite B in S. destruct S as [-> | ->]; cbn [after]; [|reflexivity].
      destruct c as [| | | | | | | | |kk|kk| | |]; try exact C2. destruct kk; exact C2.
  - rewrite app_comm_cons, app_assoc in E.
    assert (Hs : exists sl' , (s0 = SSpeed sl' t \/ s0 = SClimbTo sl' t) /\ ryield l = pre0 ++ x :: mods).
    { pose proof (rstep_some c s0 tl P) as N. destruct (exists_last N) as (a & y & Ea).
      assert (y = (t, ROut)) as ->. { rewrite Ea, app_assoc in E. change [(sl, ROut); (t, ROut)] with ([(sl, ROut)] ++ [(t, ROut)]) in E. rewrite (app_assoc _ [(sl, ROut)]) in E. now apply last_eq in E. }
      assert (Hi : In (t, ROut) (rstep s0)) by (rewrite Ea; apply in_or_app; right; now left).
      pose proof (step_for_in c s0 tl t Hi F P) as S. unfold step_for in S. cbn [In] in Bt.
      assert (Two : forall sl', rstep s0 = [(sl', ROut); (t, ROut)] -> ryield l = pre0 ++ x :: mods) by (intros sl' E2; rewrite E2 in E; now apply app_two in E).
      destruct Bt as [Bt|[Bt|[Bt|[]]]]; rewrite <- Bt in S.
      - destruct S as [-> |(sl' & ->)].
        + exfalso. assert (Ec : c = XStart) by (destruct c as [| | | | | | | | |kk|kk| | |]; try discriminate F; [reflexivity|destruct kk; discriminate F]).
          rewrite (start_only _ _ D Ec) in E. cbn [ryield flat_map rstep tokens_of map app] in E. apply (f_equal (@length _)) in E. rewrite !app_length in E. cbn [length] in E. lia.
        + exists sl'. split; [auto|]. now apply (Two sl').
      - destruct S as (sl' & ->). exists sl'. split; [auto|]. now apply (Two sl').
      - destruct S as (sl' & ->). exists sl'. split; [auto|]. now apply (Two sl'). }
    destruct Hs as (sl' & Hs & El). pose proof (IH l (s0 :: tl) pre0 x D El C) as K. fold c in K.
    destruct Hs as [-> | ->]; cbn [after]; destruct c as [| | | | | | | | |kk|kk| | |]; try discriminate F; try discriminate K; try exact K; destruct kk; discriminate F.
Qed.
Lemma route_prev pre t rest pre0 x mods : W = pre ++ (t, ROut) :: rest -> t_base t = F15_ROUTE -> pre = pre0 ++ x :: mods -> changes mods -> ~ is_computed x.
Proof.
  intros E B Ep Hm C. destruct (locate_one _ _ _ E) as (c & s & ss1 & ss2 & D & S & O & F & P & D2 & Ec). unfold step_for in S. rewrite B in S. subst s. destruct (O eq_refl) as [E1 ->].
  rewrite Ep in E1. symmetry in E1. pose proof (computed_after mods Hm ss1 _ pre0 x D E1 C) as K. rewrite <- Ec in K.
  destruct c as [| | | | | | | | |kk|kk| | |]; try discriminate F; try discriminate K; try (destruct kk; discriminate F). cbn [computed_ctx follows] in *. subst. discriminate F.
Qed.
End W.

(** ** Texts come after their keyword *)
Lemma text_pred : forall n ts o i u, length ts <= n -> nth_error (roled o ts) (S i) = Some (u, RText) ->
  exists x, nth_error (roled o ts) i = Some x /\ (snd x = RText \/ (snd x = ROut /\ opens (fst x) <> None)).
Proof.
  assert (K0 : forall t r u o, nth_error (roled o r) 0 = Some (u, RText) -> o = opens t -> opens t <> None).
  { intros t r u o H -> K. rewrite K in H. destruct r as [|t2 r]; [discriminate|]. cbn [roled] in H. destruct (t_base t2); try discriminate H.
    destruct r as [|sl [|p r3]]; try discriminate H. destruct (base_eqb _ _); discriminate H. }
  induction n as [|n IH]; intros ts o i u Hn H; destruct ts as [|t r]; cbn [length] in Hn; try (destruct i; discriminate H); [lia|].
  assert (Gen : forall ro o', nth_error ((t, ro) :: roled o' r) (S i) = Some (u, RText) -> (ro = RText \/ (ro = ROut /\ (o' = opens t \/ o' = None))) ->
     exists x, nth_error ((t, ro) :: roled o' r) i = Some x /\ (snd x = RText \/ (snd x = ROut /\ opens (fst x) <> None))).
  { intros ro o' H' C. cbn [nth_error] in H'. destruct i as [|i].
    - exists (t, ro). split; [reflexivity|]. destruct C as [-> |[-> C]]; [now left|right]. cbn [fst snd]. split; [reflexivity|].
      destruct C as [-> | ->]; [exact (K0 t r u _ H' eq_refl)|]. exfalso. apply (K0 (mkToken [] 0 0 F15_UNKNOWN F15_SB_UNKNOWN) r u None H' eq_refl). reflexivity.
    - cbn [nth_error]. apply (IH r o' i u); [lia|exact H']. }
  cbn [roled] in H |- *. destruct o as [k|]; [apply Gen; auto|].
  destruct (t_base t) eqn:B; try (apply Gen; auto; fail).
  assert (Oc : opens t = None) by (unfold opens; rewrite B; reflexivity).
  destruct r as [|sl [|p r3]]; try (apply Gen; auto; fail).
  destruct (base_eqb _ _); [|apply Gen; auto]. cbn [length] in Hn. destruct i as [|[|[|i]]]; cbn [nth_error] in H; try discriminate H.
  - exfalso. apply (K0 (mkToken [] 0 0 F15_UNKNOWN F15_SB_UNKNOWN) r3 u None H eq_refl). reflexivity.
  - cbn [nth_error]. apply (IH r3 None i u); [lia|exact H].
Qed.
Lemma roles_pred ts i u : nth_error (roles ts) (S i) = Some (u, RText) ->
  exists x, nth_error (roles ts) i = Some x /\ (snd x = RText \/ (snd x = ROut /\ opens (fst x) <> None)).
Proof. exact (text_pred (length ts) ts None i u (le_n _)). Qed.
Lemma roles_head ts u : nth_error (roles ts) 0 <> Some (u, RText).
Proof.
  intro H. destruct ts as [|t r]; [discriminate|]. unfold roles in H. cbn [roled] in H. destruct (t_base t); try discriminate H.
  destruct r as [|sl [|p r3]]; try discriminate H. destruct (base_eqb _ _); discriminate H.
Qed.

(** ** Recorded indices and parts *)
Lemma recorded_at_in : forall w i k, In k (recorded_at i w) <-> exists m x, k = i + m /\ nth_error w m = Some x /\ recorded x (skipn (S m) w) = true.
Proof.
  induction w as [|x r IH]; intros i k; cbn [recorded_at].
  - split; [intros []|]. intros (m & y & _ & H & _). destruct m; discriminate H.
  - assert (T : In k (recorded_at (S i) r) <-> exists m y, k = i + S m /\ nth_error (x :: r) (S m) = Some y /\ recorded y (skipn (S (S m)) (x :: r)) = true).
    { rewrite IH. split; intros (m & y & -> & H1 & H2); exists m, y; (split; [lia|]); split; assumption. }
    destruct (recorded x r) eqn:R; cbn [In].
    + split.
      * intros [<- |H]; [exists 0, x; split; [lia|]; split; [reflexivity|exact R]|]. apply T in H as (m & y & H). exists (S m), y. exact H.
      * intros (m & y & -> & H1 & H2). destruct m as [|m]; [left; lia|right]. apply T. exists m, y. auto.
    + split.
      * intro H. apply T in H as (m & y & H). exists (S m), y. exact H.
      * intros (m & y & -> & H1 & H2). destruct m as [|m]; [cbn [nth_error skipn] in *; congruence|]. apply T. exists m, y. auto.
Qed.
Lemma recorded_at_sorted : forall w i, Sorted.StronglySorted lt (recorded_at i w) /\ Forall (fun k => i <= k < i + length w) (recorded_at i w).
Proof.
  induction w as [|x r IH]; intro i; cbn [recorded_at length]; [split; constructor|]. destruct (IH (S i)) as [H1 H2].
  assert (H2' : Forall (fun k => i <= k < i + S (length r)) (recorded_at (S i) r)) by (revert H2; apply Forall_impl; intros; lia).
  destruct (recorded x r); [|auto]. split; [|constructor; [lia|exact H2']]. constructor; [exact H1|]. revert H2. apply Forall_impl. intros; lia.
Qed.
Definition above (lo : option nat) (k : nat) : Prop := match lo with Some j => j < k | None => True end.
Lemma parts_in : forall js lo0 n, Sorted.StronglySorted lt js -> Forall (fun k => above lo0 k /\ k < n) js -> forall lo hi, In (lo, hi) (parts lo0 js n) ->
  (lo = lo0 \/ exists j, lo = Some j /\ In j js) /\ hi <= n /\ forall k, In k js -> above lo k -> hi <= k.
Proof.
  induction js as [|j js IH]; intros lo0 n Hs Hb lo hi H; cbn [parts] in H.
  - destruct H as [H|[]]. injection H as <- <-. split; [now left|]. split; [lia|]. intros k [].
  - inversion Hs as [|? ? Hs1 Hs2]; subst. inversion Hb as [|? ? Hb1 Hb2]; subst. destruct H as [H|H].
    + injection H as <- <-. split; [now left|]. split; [lia|]. intros k [<- |Hk] _; [lia|]. rewrite Forall_forall in Hs2. specialize (Hs2 k Hk). lia.
    + assert (Hb' : Forall (fun k => above (Some j) k /\ k < n) js).
      { apply Forall_forall. intros k Hk. rewrite Forall_forall in Hs2, Hb2. split; [exact (Hs2 k Hk)|apply (Hb2 k Hk)]. }
      destruct (IH (Some j) n Hs1 Hb' lo hi H) as (P1 & P2 & P3). split; [|split; [exact P2|]].
      * destruct P1 as [-> |(i & -> & Hi)]; right; [exists j; split; [reflexivity|now left]|exists i; split; [reflexivity|now right]].
      * intros k [<- |Hk] A; [|now apply P3]. exfalso. destruct P1 as [-> |(i & -> & Hi)]; cbn [above] in A; [lia|]. rewrite Forall_forall in Hs2. specialize (Hs2 i Hi). lia.
Qed.
Lemma field_part_in field lo hi : In (lo, hi) (field_parts field) ->
  hi <= length (field_roles field) /\
  (lo = None \/ exists j x, lo = Some j /\ nth_error (field_roles field) j = Some x /\ recorded x (skipn (S j) (field_roles field)) = true) /\
  forall k x, above lo k -> k < hi -> nth_error (field_roles field) k = Some x -> recorded x (skipn (S k) (field_roles field)) = false.
Proof.
  intro H. unfold field_parts in H. set (W := field_roles field) in *. destruct (recorded_at_sorted W 0) as [Hs Hb].
  assert (Hb' : Forall (fun k => above None k /\ k < length W) (recorded_at 0 W)) by (revert Hb; apply Forall_impl; cbn [above]; lia).
  destruct (parts_in _ _ _ Hs Hb' _ _ H) as (P1 & P2 & P3). split; [exact P2|]. split.
  - destruct P1 as [-> |(j & -> & Hj)]; [now left|right]. apply recorded_at_in in Hj as (m & x & -> & H1 & H2). exists m, x. auto.
  - intros k x A Hk Hx. destruct (recorded x (skipn (S k) W)) eqn:R; [exfalso|reflexivity].
    assert (Hin : In k (recorded_at 0 W)) by (apply recorded_at_in; exists k, x; auto). specialize (P3 k Hin A). lia.
Qed.
Lemma nth_skip {A} : forall f (l : list A) m, nth_error l (f + m) = nth_error (skipn f l) m.
Proof. induction f as [|f IH]; intros l m; [reflexivity|]. destruct l as [|y l]; [cbn; destruct m; reflexivity|]. cbn [plus nth_error skipn]. apply IH. Qed.
Lemma Forall2_in {A B} (R S : A -> B -> Prop) l l' : Forall2 R l l' -> (forall a b, In b l' -> R a b -> S a b) -> Forall2 S l l'.
Proof. induction 1 as [|a b l l' H _ IH]; intro K; constructor; [apply K; [now left|exact H]|]. apply IH. intros; apply K; [now right|assumption]. Qed.
Lemma opens_recorded x r : snd x = ROut -> opens (fst x) <> None -> recorded x r = true.
Proof. unfold recorded, opens. intros ->. destruct (t_base (fst x)); intro H; try reflexivity; congruence. Qed.
(** Text belongs to a part whose token opens a section. *)
Lemma text_in_part field lo hi : In (lo, hi) (field_parts field) -> texts_of (cut (field_roles field) (from lo) hi) <> [] -> opens_section (field_roles field) lo.
Proof.
  intros H T. destruct (field_part_in _ _ _ H) as (P1 & P2 & P3). set (W := field_roles field) in *.
  assert (Hx : exists i u, from lo <= i < hi /\ nth_error W i = Some (u, RText)).
  { assert (K : exists m u, m < hi - from lo /\ nth_error (skipn (from lo) W) m = Some (u, RText)).
    { clear - T. unfold cut in T. revert T. generalize (skipn (from lo) W). generalize (hi - from lo). intros n l. revert n.
      induction l as [|(t & ro) l IHl]; intros n T; [rewrite firstn_nil in T; cbn [texts_of] in T; congruence|]. destruct n as [|n]; [cbn in T; congruence|]. cbn [firstn texts_of] in T.
      destruct ro.
      - destruct (IHl n T) as (m & u & Hm & E). exists (S m), u. split; [lia|exact E].
      - exists 0, t. split; [lia|reflexivity].
      - destruct (IHl n T) as (m & u & Hm & E). exists (S m), u. split; [lia|exact E]. }
    destruct K as (m & u & Hm & E). exists (from lo + m), u. split; [lia|]. rewrite <- E. apply nth_skip. }
  destruct Hx as (i & u & Hi & E). revert u E Hi. induction i as [|i IH]; intros u E Hi.
  - exfalso. unfold W, field_roles in *. destruct P2 as [-> |(j & x & -> & Hj & R)]; [exact (roles_head _ _ E)|]. exact (roles_head _ _ E).
  - destruct (roles_pred _ _ _ E) as (x & Ex & C). change (nth_error W i = Some x) in Ex.
    destruct (Nat.eq_dec (S i) (from lo)) as [Ef|Nf].
    + (* the text token itself would be recorded *)
      destruct P2 as [-> |(j & y & -> & Hj & R)]; [cbn [from] in Ef; lia|]. cbn [from] in Ef. subst j. rewrite E in Hj. injection Hj as <-. discriminate R.
    + destruct C as [C|[C1 C2]].
      * apply (IH (fst x)); [rewrite Ex; destruct x; cbn [fst snd] in *; now subst|lia].
      * destruct P2 as [-> |(j & y & -> & Hj & R)].
        -- pose proof (P3 i x Logic.I ltac:(lia) Ex) as K. rewrite opens_recorded in K by assumption. discriminate.
        -- cbn [from above] in *. destruct (Nat.eq_dec i j) as [-> |Nj].
           ++ exists j, (fst x). split; [reflexivity|]. split; [rewrite Ex; destruct x; cbn [fst snd] in *; now subst|exact C2].
           ++ pose proof (P3 i x ltac:(lia) ltac:(lia) Ex) as K. rewrite opens_recorded in K by assumption. discriminate.
Qed.

(** ** Order *)
Lemma field_order field : Sorted.StronglySorted (fun a b => (t_end a <= t_start b)%Z) (field_tokens field) /\ Forall (fun t => (t_start t < t_end t)%Z) (field_tokens field).
Proof.
  unfold field_tokens. rewrite tokenize_string_toks. pose proof (tkz_order _ _ _ (toks_tokenization f15_whitespace field)) as O. unfold in_order in O. cbn [tk_list] in *. split.
  - induction O as [|t l Hs IH Hf]; cbn [map]; constructor; [exact IH|]. apply Forall_map. revert Hf. apply Forall_impl. intros a Ha. exact Ha.
  - apply Forall_map. apply Forall_forall. intros t Ht. destruct (tkz_addresses _ _ _ (toks_tokenization _ _) t Ht) as ((B1 & B2) & _). exact B2.
Qed.
Lemma order_nth field : forall i j a b, nth_error (field_tokens field) i = Some a -> nth_error (field_tokens field) j = Some b -> i < j -> (t_start a < t_start b)%Z.
Proof.
  destruct (field_order field) as [O Hf]. induction O as [|t l Hs IH Hl]; intros i j a b Hi Hj Lt; [destruct i; discriminate|].
  inversion Hf as [|? ? F1 F2]; subst. destruct j as [|j]; [lia|]. cbn [nth_error] in Hj. destruct i as [|i]; cbn [nth_error] in Hi.
  - injection Hi as <-. rewrite Forall_forall in Hl. specialize (Hl b (nth_error_In _ _ Hj)). lia.
  - apply (IH F2 i j a b Hi Hj). lia.
Qed.
Lemma roles_nth field i x : nth_error (field_roles field) i = Some x -> nth_error (field_tokens field) i = Some (fst x).
Proof. intro H. rewrite <- (roles_fst (field_tokens field) None). fold (roles (field_tokens field)). rewrite nth_error_map. fold (field_roles field). now rewrite H. Qed.

Section Final.
Variable G : geodesic.
Lemma each_describes depth field s : parse_field15 G depth field = Ok true s ->
  exists rs, e_recs (s_ers s) = rs ++ [ades_rec rs] /\ Forall2 (describes (field_roles field)) rs (field_parts field).
Proof. exact (described G depth field s). Qed.
Lemma each_part_of depth field s (P : rrec -> option nat -> nat -> Prop) (Q : list rrec -> rrec -> Prop) : parse_field15 G depth field = Ok true s ->
  (forall r lo hi, In (lo, hi) (field_parts field) -> describes (field_roles field) r (lo, hi) -> P r lo hi) ->
  (forall rs, rs <> [] -> Q rs (ades_rec rs)) -> each_part field (e_recs (s_ers s)) P Q.
Proof.
  intros H HP HQ. destruct (each_describes depth field s H) as (rs & E & F). exists rs, (ades_rec rs). split; [exact E|]. split; [|split; [repeat split|apply HQ; intros ->; apply Forall2_len in F; unfold field_parts in F; destruct (recorded_at 0 (field_roles field)); discriminate F]].
  apply (Forall2_in _ _ _ _ F). intros r (lo & hi) Hin D. now apply HP.
Qed.

(** Records but ADEP and ADES have increasing start indices. *)
Lemma starts_increase depth field s : parse_field15 G depth field = Ok true s ->
  exists a mid z, e_recs (s_ers s) = a :: mid ++ [z] /\ Sorted.StronglySorted Z.lt (map r_start mid).
Proof.
  intro H. destruct (each_describes depth field s H) as (rs & E & F). unfold field_parts in F. set (W := field_roles field) in *.
  assert (K : forall js lo n rs0, Sorted.StronglySorted lt js -> Forall2 (describes W) rs0 (parts lo js n) ->
    exists a mid, rs0 = a :: mid /\ Forall2 (fun r j => exists x, nth_error W j = Some x /\ r_start r = t_start (fst x)) mid js).
  { clear. induction js as [|j js IH]; intros lo n rs0 Hs F; cbn [parts] in F; inversion F as [|a ? mid ? F1 F2]; subst; exists a, mid; (split; [reflexivity|]).
    - inversion F2. constructor.
    - inversion Hs as [|? ? Hs1 Hs2]; subst. destruct (IH (Some j) n mid Hs1 F2) as (b & m & -> & Hm). constructor; [|exact Hm].
      assert (Db : describes W b (Some j, match js with [] => n | k :: _ => k end)) by (destruct js; cbn [parts] in F2; inversion F2; assumption).
      destruct Db as ((x & X1 & X2 & X3 & _) & _). exists x. auto. }
  destruct (recorded_at_sorted W 0) as [Hs _]. destruct (K _ _ _ rs Hs F) as (a & mid & -> & Hm). exists a, mid, (ades_rec (a :: mid)). split; [rewrite E; reflexivity|].
  clear - Hs Hm. revert Hs. induction Hm as [|r j mid js H Hm IH]; intro Hs; cbn [map]; [constructor|]. inversion Hs as [|? ? Hs1 Hs2]; subst. constructor; [now apply IH|].
  apply Forall_map. apply Forall_forall. intros r' Hr'. destruct H as (x & X1 & X2).
  assert (Hj : exists j' x', In j' js /\ nth_error W j' = Some x' /\ r_start r' = t_start (fst x')).
  { clear - Hm Hr'. induction Hm as [|r0 j0 l l' H0 _ IH]; [destruct Hr'|]. destruct Hr' as [-> |Hr'].
    - destruct H0 as (x' & Q1 & Q2). exists j0, x'. split; [now left|auto].
    - destruct (IH Hr') as (j' & x' & Q1 & Q2). exists j', x'. split; [now right|auto]. }
  destruct Hj as (j' & x' & Q1 & Q2 & Q3). rewrite X2, Q3. rewrite Forall_forall in Hs2. specialize (Hs2 j' Q1).
  exact (order_nth field j j' _ _ (roles_nth _ _ _ X1) (roles_nth _ _ _ Q2) Hs2).
Qed.
Lemma accepted_rules depth field s : parse_field15 G depth field = Ok true s ->
  each_part field (e_recs (s_ers s)) (fun r lo _ => rules_right (field_roles field) r lo) (fun rs z => exists l, rs = removelast rs ++ [l] /\ r_rules z = r_rules l).
Proof.
  intro H. apply (each_part_of depth field s _ _ H).
  - intros r lo hi _ D. apply D.
  - intros rs N. exists (last rs adep0). split; [now apply app_removelast_last|reflexivity].
Qed.
Lemma accepted_texts depth field s : parse_field15 G depth field = Ok true s ->
  each_part field (e_recs (s_ers s)) (fun r lo hi => text_right (field_roles field) r lo hi /\ (r_break r <> [] -> opens_section (field_roles field) lo)) (fun _ z => r_break z = []).
Proof.
  intro H. apply (each_part_of depth field s _ _ H); [|reflexivity].
  intros r lo hi Hin (_ & _ & T & _). cbn [fst snd] in T. split; [exact T|]. intro Nb. apply (text_in_part field lo hi Hin). unfold text_right in T. intro K. rewrite K in T. contradiction.
Qed.
Lemma accepted_performance depth field s : parse_field15 G depth field = Ok true s ->
  each_part field (e_recs (s_ers s)) (fun r _ hi => performance_right (field_roles field) r hi) (fun _ z => r_speed z = [] /\ r_alt z = []).
Proof. intro H. apply (each_part_of depth field s _ _ H); [|auto]. intros r lo hi _ D. apply D. Qed.
Lemma accepted_stays depth field s : parse_field15 G depth field = Ok true s ->
  each_part field (e_recs (s_ers s)) (fun r lo hi => stay_right (field_roles field) r lo hi) (fun _ z => r_stay z = 0%Z).
Proof. intro H. apply (each_part_of depth field s _ _ H); [|auto]. intros r lo hi _ D. apply D. Qed.
Lemma accepted_identity depth field s : parse_field15 G depth field = Ok true s ->
  each_part field (e_recs (s_ers s)) (fun r lo _ => identity (field_roles field) r lo) (fun _ _ => True).
Proof. intro H. apply (each_part_of depth field s _ _ H); [|auto]. intros r lo hi _ D. apply D. Qed.
(** Every token has its record, is text or is a piece of a construct. *)
Lemma accepted_covered depth field s : parse_field15 G depth field = Ok true s -> forall i x, nth_error (field_roles field) i = Some x ->
  snd x = RText \/ (snd x = ROut /\ is_piece (fst x) = true) \/ In i (recorded_at 0 (field_roles field)).
Proof.
  intros H i x Hx. pose proof (accepted_source G depth field s H) as Src. fold (field_roles field) in Src.
  destruct (snd x) eqn:R; [|now left|].
  - right. assert (Hin : In (fst x, ROut) (field_roles field)) by (apply nth_error_In in Hx; destruct x; cbn [fst snd] in *; now subst).
    pose proof (all_recognised field _ Src _ Hin) as Rc. unfold is_piece. destruct (t_base (fst x)) eqn:B; try discriminate Rc; auto; right; apply recorded_at_in; exists i, x; (split; [reflexivity|]); (split; [exact Hx|]); unfold recorded; rewrite R, B; reflexivity.
  - right. right. apply recorded_at_in. exists i, x. split; [reflexivity|]. split; [exact Hx|]. unfold recorded. now rewrite R.
Qed.
(** Levels. *)
Lemma last_some_in {A B} (f : A -> option B) : forall l b, last_some f l = Some b -> exists x, In x l /\ f x = Some b.
Proof.
  induction l as [|x l IH]; intros b H; cbn [last_some] in H; [discriminate|]. destruct (last_some f l) as [b'|] eqn:E.
  - injection H as ->. destruct (IH b eq_refl) as (y & Hy & K). exists y. split; [now right|exact K].
  - exists x. split; [now left|exact H].
Qed.
Lemma accepted_levels depth field s : parse_field15 G depth field = Ok true s -> Forall (fun r => fl_ok (r_alt r)) (e_recs (s_ers s)).
Proof.
  intro H. pose proof (accepted_source G depth field s H) as Src. fold (field_roles field) in Src.
  destruct (each_describes depth field s H) as (rs & E & F). rewrite E. apply Forall_app. split; [|constructor; [exact I|constructor]].
  clear E. induction F as [|r part rs ps D _ IH]; constructor; [|exact IH]. destruct D as (_ & _ & _ & _ & _ & D). unfold performance_right in D.
  apply last_some_in in D as (x & Hx & Em). assert (Hin : In x (field_roles field)) by (rewrite <- (firstn_skipn (upto (field_roles field) (snd part)) (field_roles field)); apply in_or_app; now left).
  unfold modifier in Em. destruct x as (t & ro). cbn [fst snd] in Em. destruct ro; try discriminate Em. pose proof (levels_good field _ Src t Hin) as Lv. unfold levels_ok in Lv.
  destruct (t_base t); try discriminate Em; injection Em as _ <-; try apply Lv. intros _. reflexivity.
Qed.
Lemma vfr_level depth field b s : parse_field15 G depth field = Ok b s ->
  Forall (fun r => r_alt r = $"F050" -> r_alt_si r = PyInt 1524 /\ forall es, r_speed r = 77%N :: es ->
    exists f v, mach_to_ms_speed (decimal es) 1524 = inr f /\ f_trunc (fadd f (flit 1 2)) = inr v /\ r_speed_si r = PyInt v) (e_recs (s_ers s)).
Proof.
  intro H. apply (Forall_impl _ (P := fun r => no_performance r \/ si_agrees r)); [|exact (perf_field G depth field b s H)].
  intros r [N|S] E; [destruct N as (N & _); rewrite N in E; discriminate|].
  destruct S as (c & ds & u & es & S1 & S2 & S3 & S4 & S5 & S6 & S7 & S8 & a & v & S9 & S10 & S11 & S12).
  rewrite E in S1. change ($"F050") with [70;48;53;48]%N in S1. injection S1 as <- <-. cbn [is_feet N.eqb Pos.eqb orb] in S11. unfold rounds_to in S11. change (decimal [48;53;48]%N) with 50%Z in S11.
  assert (a = 1524)%Z as -> by (change (is_feet 70) with true in S11; cbv iota in S11; lia). split; [exact S9|].
  intros es' E'. rewrite E' in S5. injection S5 as <- <-. cbn [N.eqb Pos.eqb] in S12. destruct S12 as (f & F1 & F2). exists f, v. auto.
Qed.

(** Cruise climbs. *)
Lemma accepted_targets depth field s : parse_field15 G depth field = Ok true s ->
  each_part field (e_recs (s_ers s)) (fun r lo hi => target_right (field_roles field) r lo hi) (fun _ z => r_cto z = [] /\ r_cto_si z = PyZeroFloat).
Proof. intro H. apply (each_part_of depth field s _ _ H); [|auto]. intros r lo hi _ D. apply D. Qed.
Definition plus_tail (sb : sub_type) (sh : shape) : bool :=
  match sap_cut sb with Some (_, b) => shape_incl (skipn (Z.to_nat b) sh) (map (fun c => [(c, c)]) ($"PLUS")) | None => false end.
Lemma plus_all : all_rows F15_SPEED_ALTITUDE_PLUS plus_tail = true. Proof. vm_compute. reflexivity. Qed.
Lemma one_char c d : in_ranges d [(c, c)] = true -> d = c.
Proof. unfold in_ranges. cbn. intro H. lia. Qed.
Lemma plus_text t : wt t -> t_base t = F15_SPEED_ALTITUDE_PLUS -> second_level (t_text t) = $"PLUS".
Proof.
  intros H Hb. destruct (all_rows_spec F15_SPEED_ALTITUDE_PLUS _ t ltac:(discriminate) ltac:(discriminate) H Hb plus_all) as (sh & Hs & K).
  destruct (all_rows_spec F15_SPEED_ALTITUDE_PLUS _ t ltac:(discriminate) ltac:(discriminate) H Hb sap_cuts_all) as (sh' & Hs' & K').
  unfold plus_tail in K. unfold sap_cuts in K'. destruct (sap_cut (t_sub t)) as [[a b]|]; [|discriminate].
  rewrite (second_cut _ _ _ _ K' Hs'). pose proof (shape_incl_sound _ _ _ K (Forall2_skipn _ _ _ _ Hs)) as Q. change ($"PLUS") with [80;76;85;83]%N in Q |- *. cbn [map] in Q.
  repeat match goal with K : Forall2 _ (_ :: _) _ |- _ => inversion K; subst; clear K | K : shape_in (_ :: _) _ |- _ => inversion K; subst; clear K | K : shape_in [] _ |- _ => inversion K; subst; clear K | K : Forall2 _ [] _ |- _ => inversion K; subst; clear K end.
  repeat match goal with K : in_ranges _ _ = true |- _ => apply one_char in K; subst end. reflexivity.
Qed.
Lemma climb_last : forall w, Forall full_climb w -> Forall (fun x => wt (fst x)) w ->
  match last_some climb_target w with
  | Some (l, v) => last_some target_text w = Some l /\ (v <> PyZeroFloat -> last_some target_num w = Some v)
  | None => last_some target_text w = None /\ last_some target_num w = None
  end.
Proof.
  induction w as [|x w IH]; intros F T; [cbn; auto|]. inversion F as [|? ? F1 F2]; subst. inversion T as [|? ? T1 T2]; subst. specialize (IH F2 T2). cbn [last_some].
  destruct (last_some climb_target w) as [[l v]|].
  - destruct IH as [-> IH]. split; [reflexivity|]. intro N. now rewrite (IH N).
  - destruct IH as [-> ->]. unfold climb_target, target_text, target_num, full_climb in *. destruct x as (t & ro). cbn [fst snd] in *. destruct ro; auto. destruct (t_base t) eqn:B; auto.
    + unfold stored_target. rewrite F1. auto.
    + rewrite (plus_text t T1 B). split; [reflexivity|]. intro N. now destruct N.
Qed.
Lemma full_targets depth field s : parse_field15 G depth field = Ok true s -> Forall full_climb (field_roles field) ->
  each_part field (e_recs (s_ers s)) (fun r lo hi => match last_some climb_target (cut (field_roles field) (from lo) hi) with
    | Some (l, v) => r_cto r = l /\ (v <> PyZeroFloat -> r_cto_si r = v)
    | None => r_cto r = [] /\ r_cto_si r = PyZeroFloat
    end) (fun _ z => r_cto z = [] /\ r_cto_si z = PyZeroFloat).
Proof.
  intros H Fc. apply (each_part_of depth field s _ _ H); [|auto]. intros r lo hi _ (_ & _ & _ & _ & D & _). cbn [fst snd] in D. unfold target_right in D. destruct D as [D1 D2].
  assert (Sub : forall x, In x (cut (field_roles field) (from lo) hi) -> In x (field_roles field)).
  { intros x Hx. unfold cut in Hx. rewrite <- (firstn_skipn (from lo) (field_roles field)). apply in_or_app. right. rewrite <- (firstn_skipn (hi - from lo) (skipn _ _)). apply in_or_app. now left. }
  assert (A1 : Forall full_climb (cut (field_roles field) (from lo) hi)) by (rewrite Forall_forall in *; auto).
  assert (A2 : Forall (fun x => wt (fst x)) (cut (field_roles field) (from lo) hi)).
  { apply Forall_forall. intros x Hx. pose proof (field_wt field) as K. unfold field_roles in Sub. rewrite <- (roles_fst (field_tokens field) None) in K. apply Forall_map in K. rewrite Forall_forall in K. apply (K x (Sub x Hx)). }
  pose proof (climb_last _ A1 A2) as K. destruct (last_some climb_target _) as [[l v]|].
  - destruct K as [K1 K2]. rewrite K1 in D1. split; [exact D1|]. intro N. rewrite (K2 N) in D2. exact D2.
  - destruct K as [K1 K2]. rewrite K1 in D1. rewrite K2 in D2. split; [exact D1|exact D2].
Qed.

(** Stay times. *)
Lemma stays_in_range depth field b s : parse_field15 G depth field = Ok b s -> Forall (fun r => (0 <= r_stay r <= 1439)%Z) (e_recs (s_ers s)).
Proof.
  intro H. destruct (empty_or field) as [E|E].
  - destruct (parsed_empty G _ _ _ _ H E) as [_ ->]. cbn [e_recs]. repeat constructor; cbn; lia.
  - destruct (parsed G _ _ _ _ H E) as (HL & y & R & -> & _). cbn [e_recs].
    unfold final_recs. apply Forall_app. split; [|constructor; [cbn; lia|constructor]].
    eapply (Forall_map_eq r_stay (fun z => 0 <= z <= 1439)%Z); [symmetry; apply (field_recs_map r_stay); reflexivity|].
    apply (Forall_impl _ (P := fun r => ParserInv.stay_ok (field_tokens field) (r_stay r))); [|exact (reach_stays G _ _ _ R)].
    intros r [Z|(t & I1 & I2 & ->)]; [lia|]. rewrite Forall_forall in HL. destruct (stay_fields t (HL t I1) I2) as (? & ? & ? & ? & _ & _ & K). exact K.
Qed.

(** SIDs and STARs. *)
Lemma accepted_sids depth field s : parse_field15 G depth field = Ok true s ->
  each_part field (e_recs (s_ers s)) (fun r lo _ =>
    (r_base r = F15_SID -> lo = Some 1 \/ is_climb (field_roles field) lo) /\
    (r_base r = F15_STAR -> (exists j, lo = Some j /\ S j = length (field_roles field)) \/ is_climb (field_roles field) lo) /\
    (r_base r = F15_SID_STAR -> is_climb (field_roles field) lo)) (fun _ _ => True).
Proof.
  intro H. pose proof (accepted_source G depth field s H) as Src. fold (field_roles field) in Src.
  apply (each_part_of depth field s _ _ H); [|auto]. intros r lo hi Hin D. destruct D as (Id & _). cbn [fst] in Id. unfold identity in Id.
  destruct lo as [j|]; [|destruct Id as (_ & _ & _ & Bd & _); rewrite Bd; repeat split; discriminate]. destruct Id as (x & N & _ & _ & _ & T).
  assert (Tb : r_base r = fst (types_at j x)) by (rewrite <- T; reflexivity). rewrite Tb. clear T Tb.
  destruct x as (t & ro). destruct ro.
  2: { exfalso. destruct (field_part_in _ _ _ Hin) as (_ & [K|(j' & x & K & K1 & K2)] & _); [discriminate|]. injection K as <-. rewrite N in K1. injection K1 as <-. discriminate K2. }
  2: { assert (Cl : is_climb (field_roles field) (Some j)) by (exists j, t; auto). repeat split; intros _; auto. }
  apply nth_error_split in N as (pre & rest & N & Lp). unfold types_at. cbn [fst snd].
  destruct (t_base t) eqn:B; cbn [fst]; try (repeat split; discriminate).
  - destruct (j =? 1) eqn:Ej; cbn [fst].
    + split; [intros _; left; f_equal; now apply Nat.eqb_eq|]. split; discriminate.
    + split; [discriminate|]. split; [|discriminate]. intros _. left. exists j. split; [reflexivity|]. apply Nat.eqb_neq in Ej.
      destruct (sidstar_place field _ Src pre t rest N B) as [K| ->]; [lia|]. rewrite N, app_length. cbn [length]. lia.
  - split; [intros _; left; f_equal; rewrite <- Lp; exact (sid_second field _ Src pre t rest N B)|]. split; discriminate.
  - split; [discriminate|]. split; [|discriminate]. intros _. left. exists j. split; [reflexivity|]. rewrite N, (star_last field _ Src pre t rest N B), app_length. cbn [length]. lia.
Qed.
Lemma ades_bare : (exists (G : geodesic) (depth : nat) (field : pstr) (s : st), parse_field15 G depth field = Ok true s) /\
  forall (G : geodesic) (depth : nat) (field : pstr) (b : bool) (s : st), parse_field15 G depth field = Ok b s ->
  exists rs z, e_recs (s_ers s) = rs ++ [z] /\ r_name z = $"ADES" /\ no_performance z.
Proof.
  split.
  - exists {| geo_inverse := fun _ _ _ _ => (f_of_Z 0, f_of_Z 0); geo_direct := fun a b _ _ => (a, b) |}, 100, ($"N0450F350 DCT"). eexists. vm_compute. reflexivity.
  - intros G0 depth field b s H. destruct (empty_or field) as [E|E].
    + destruct (parsed_empty G0 _ _ _ _ H E) as [_ ->]. exists [dummy ($"ADEP")], (dummy ($"ADES")). repeat split.
    + destruct (parsed G0 _ _ _ _ H E) as (HL & y & R & -> & _). cbn [e_recs]. unfold final_recs. eexists _, _. split; [reflexivity|]. repeat split.
Qed.
Lemma field_roles_fst field : map fst (field_roles field) = field_tokens field.
Proof. apply roles_fst. Qed.
Section A.
Variables (depth : nat) (field : pstr) (s : st).
Hypothesis H : parse_field15 G depth field = Ok true s.
Let Src : sourced field (field_roles field) := accepted_source G depth field s H.
Lemma accepted_all_levels : (forall t, In (t, ROut) (field_roles field) -> levels_ok t) /\ Forall (fun r => fl_ok (r_alt r)) (e_recs (s_ers s)).
Proof. split; [exact (levels_good field _ Src)|exact (accepted_levels depth field s H)]. Qed.
Lemma accepted_angles :
  (forall pre t rest, field_roles field = pre ++ (t, ROut) :: rest -> t_base t = F15_POINT -> angles_ok t \/ unchecked_point pre rest) /\
  (forall t, In (t, RClimb) (field_roles field) -> angles_ok t).
Proof. split; [exact (point_angles field _ Src)|exact (climb_point field _ Src)]. Qed.
Lemma accepted_sid_star :
  (forall pre t rest, field_roles field = pre ++ (t, ROut) :: rest ->
    (t_base t = F15_SID -> length pre = 1) /\ (t_base t = F15_STAR -> rest = []) /\ (t_base t = F15_SID_STAR -> length pre = 1 \/ rest = [])) /\
  each_part field (e_recs (s_ers s)) (fun r lo _ =>
    (r_base r = F15_SID -> lo = Some 1 \/ is_climb (field_roles field) lo) /\
    (r_base r = F15_STAR -> (exists j, lo = Some j /\ S j = length (field_roles field)) \/ is_climb (field_roles field) lo) /\
    (r_base r = F15_SID_STAR -> is_climb (field_roles field) lo)) (fun _ _ => True).
Proof.
  split; [|exact (accepted_sids depth field s H)]. intros pre t rest E.
  split; [exact (sid_second field _ Src pre t rest E)|]. split; [exact (star_last field _ Src pre t rest E)|exact (sidstar_place field _ Src pre t rest E)].
Qed.
Lemma accepted_connectors : forall pre t rest, field_roles field = pre ++ (t, ROut) :: rest ->
  (t_base t = F15_DCT -> followed_by rest after_dct) /\
  (t_base t = F15_ROUTE -> followed_by rest after_route /\
     forall pre0 x mods, pre = pre0 ++ x :: mods -> changes mods -> ~ is_computed x).
Proof.
  intros pre t rest E. split; [exact (dct_next field _ Src pre t rest E)|]. intro B. split; [exact (route_next_is field _ Src pre t rest E B)|].
  intros pre0 x mods. exact (route_prev field _ Src pre t rest pre0 x mods E B).
Qed.
Lemma accepted_recognised : forall t, In (t, ROut) (field_roles field) -> recognised (t_base t) = true.
Proof. exact (all_recognised field _ Src). Qed.
Lemma accepted_truncation : forall pre t rest, field_roles field = pre ++ (t, ROut) :: rest -> t_base t = F15_TRUNCATE -> rest = [].
Proof. exact (trunc_last field _ Src). Qed.
End A.
End Final.
