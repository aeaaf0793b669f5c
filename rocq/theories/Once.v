(** * Once: no error is reported twice (lemmas behind PropsOnce). *)
From Coq Require Import ZArith NArith List Bool String Lia ZifyBool ZifyNat ZifyN.
From Verif Require Import PyBase PyFloat Enums ErrorTable Tokenizer Ers Utils Parser SpecNum SpecParser SpecGrammar SpecAccept SpecDiagnosis SpecReader SpecComplete SpecOnce.
From Verif Require Import TokenizerProofs ParserFacts Reader ReaderFacts Unknown RecoveryFacts CompleteFacts.
Import List ListNotations.
Local Open Scope list_scope.
Local Open Scope Z_scope.

(** ** Reports about one place *)
Lemma about_app t e f : about t (e ++ f) = about t e ++ about t f.
Proof. unfold about. now rewrite filter_app, map_app. Qed.
Lemma about_same t ms : about t (map (fun m => (t, m)) ms) = ms.
Proof. unfold about. induction ms as [|m ms IH]; [reflexivity|]. cbn [map filter fst]. rewrite Z.eqb_refl. cbn [map snd]. now rewrite IH. Qed.
Lemma about_other t u ms : t_start u <> t_start t -> about t (map (fun m => (u, m)) ms) = [].
Proof. intro N. unfold about. induction ms as [|m ms IH]; [reflexivity|]. cbn [map filter fst]. replace (t_start u =? t_start t) with false by lia. exact IH. Qed.

Lemma nodup_right (A : Type) (l m : list A) : NoDup (l ++ m) -> NoDup m.
Proof. induction l as [|a l IH]; [auto|]. cbn [app]. intro H. inversion H; auto. Qed.
Lemma nodup_both (A : Type) (l m : list A) : NoDup l -> NoDup m -> (forall a, In a l -> ~ In a m) -> NoDup (l ++ m).
Proof.
  induction l as [|a l IH]; [auto|]. intros N M D. cbn [app]. inversion N as [|? ? N1 N2]; subst. constructor.
  - intro X. apply in_app_iff in X as [X|X]; [now apply N1|]. exact (D a (or_introl eq_refl) X).
  - apply IH; auto. intros b B. apply D. now right.
Qed.
Definition token_dec (a b : token) : {a = b} + {a <> b}.
Proof. repeat decide equality. Defined.

(** ** What is still to come *)
Definition pend (j : job) : list token :=
  match j with
  | JSlash t | JClimb _ t | JClimbPt t | JClimbSl t | JStayTok t | JStaySl t | JSyncSl t | JTake t => [t]
  | _ => []
  end.
Definition opened (j : job) (t : token) (l : list Z) : Prop :=
  match j with
  | JSlash _ | JClimb _ _ | JStaySl _ => l = []
  | JStayTok _ | JSyncSl _ => In l before
  | JClimbPt _ | JClimbSl _ => l = angle_faults t
  | JTake _ => l = [48]
  | _ => False
  end.
Definition pends (k : list job) : list token := flat_map pend k.
Definition head_told (k : list job) (ts : list token) (t : token) (l : list Z) : Prop :=
  exists k' r, k = JSync :: k' /\ ts = t :: r /\ In l before.
Record inv (used : list token) (k : list job) (e : list (token * Z)) (ts : list token) : Prop := mkInv {
  i_places : NoDup (map t_start (used ++ ts));
  i_in : Forall (fun q => In (fst q) (used ++ ts)) e;
  i_pends : NoDup (pends k);
  i_used : incl (pends k) used;
  i_open : forall j p, In j k -> In p (pend j) -> opened j p (about p e);
  i_done : forall t, In t used -> ~ In t (pends k) -> once t (about t e);
  i_todo : forall t, In t ts -> about t e = [] \/ head_told k ts t (about t e) }.
Lemma places_apart (l : list token) t u : NoDup (map t_start l) -> In t l -> In u l -> t_start t = t_start u -> t = u.
Proof.
  induction l as [|x l IH]; [easy|]. cbn [map]. intros N It Iu E. inversion N as [|? ? N1 N2]; subst. destruct It as [->|It], Iu as [->|Iu]; auto.
  - exfalso. apply N1. rewrite E. now apply in_map.
  - exfalso. apply N1. rewrite <- E. now apply in_map.
Qed.
Lemma pends_app a b : pends (a ++ b) = pends a ++ pends b.
Proof. apply flat_map_app. Qed.
Lemma in_pends j k p : In j k -> In p (pend j) -> In p (pends k).
Proof. intros. apply in_flat_map. eauto. Qed.
Lemma pends_in k p : In p (pends k) -> exists j, In j k /\ In p (pend j).
Proof. intro H. apply in_flat_map in H. destruct H as (j & A & B). eauto. Qed.
Lemma about_before used j k e t ts : inv used (j :: k) e (t :: ts) -> In (about t e) before /\ (j <> JSync -> about t e = []).
Proof.
  intro H. destruct (i_todo _ _ _ _ H t (or_introl eq_refl)) as [->|(k' & r & E & _ & B)]; [split; [now left|auto]|]. split; [exact B|]. intro N. injection E as -> _. now destruct N.
Qed.

(** Element [t] is read, reports [ms] are made about it; [h] about the next one. *)
Definition hint (J : list job) (ts : list token) (h : list (token * Z)) : Prop :=
  h = [] \/ exists x r m J', ts = x :: r /\ J = JSync :: J' /\ h = [(x, m)] /\ In [m] before.
Lemma move used j k e t ts J ms h : inv used (j :: k) e (t :: ts) ->
  (forall j' q, In j' J -> In q (pend j') -> q = t /\ opened j' t (about t e ++ ms) \/ In q (pend j) /\ opened j' q (about q e)) ->
  NoDup (pends J) -> (~ In t (pends J) -> once t (about t e ++ ms)) -> (forall p, In p (pend j) -> ~ In p (pends J) -> once p (about p e)) -> hint J ts h ->
  inv (used ++ [t]) (J ++ k) (e ++ map (fun m => (t, m)) ms ++ h) ts.
Proof.
  intros I C1 C2 C3 C4 C5. destruct I as [I1 I2 I3 I4 I5 I6 I7]. cbn [pends flat_map] in I3, I4. pose proof (nodup_right _ _ _ I3) as I3k.
  assert (L : used ++ t :: ts = (used ++ [t]) ++ ts) by now rewrite <- app_assoc.
  assert (It : In t (used ++ t :: ts)) by (apply in_app_iff; right; now left).
  assert (Ap : forall u, In u (used ++ t :: ts) -> u <> t -> t_start t <> t_start u) by (intros u Hu N E; apply N; symmetry; exact (places_apart _ _ _ I1 It Hu E)).
  assert (Tu : ~ In t used).
  { intro X. rewrite map_app in I1. cbn [map] in I1. apply NoDup_remove_2 in I1. apply I1. apply in_app_iff. left. now apply in_map. }
  assert (Hh : forall u, In u (used ++ [t]) -> about u h = []).
  { intros u Hu. destruct C5 as [->|(x & r & m & J' & -> & _ & -> & _)]; [reflexivity|]. change [(x, m)] with (map (fun z => (x, z)) [m]). apply about_other. intro E.
    assert (u = x) by (apply (places_apart _ _ _ I1); [rewrite L; apply in_app_iff; now left|rewrite L; apply in_app_iff; right; now left|now symmetry]). subst u.
    rewrite L, map_app in I1. cbn [map] in I1. apply NoDup_remove_2 in I1. apply I1. apply in_app_iff. left. now apply in_map. }
  assert (At : about t (e ++ map (fun m => (t, m)) ms ++ h) = about t e ++ ms).
  { rewrite !about_app, about_same, Hh, app_nil_r; [reflexivity|]. apply in_app_iff. right. now left. }
  assert (Au : forall u, In u used -> about u (e ++ map (fun m => (t, m)) ms ++ h) = about u e).
  { intros u Hu. rewrite !about_app, Hh, about_other, !app_nil_r; [reflexivity| |apply in_app_iff; now left]. apply Ap; [apply in_app_iff; now left|]. intros ->. now apply Tu. }
  assert (PJ : forall q, In q (pends J) -> q = t \/ In q (pend j)).
  { intros q Hq. destruct (pends_in _ _ Hq) as (j' & A & B). destruct (C1 j' q A B) as [[-> _]|[Q _]]; auto. }
  constructor.
  - now rewrite <- L.
  - rewrite <- L. apply Forall_app. split; [exact I2|]. apply Forall_app. split.
    + apply Forall_forall. intros q Hq. apply in_map_iff in Hq as (m & <- & _). exact It.
    + destruct C5 as [->|(x & r & m & J' & -> & _ & -> & _)]; [constructor|]. constructor; [|constructor]. cbn [fst]. apply in_app_iff. right. right. now left.
  - rewrite pends_app. apply nodup_both; [exact C2|exact I3k|]. intros q Hq Hk. destruct (PJ q Hq) as [->|Q].
    + apply Tu, I4. apply in_app_iff. now right.
    + revert Hk. assert (Nd : NoDup (pend j ++ pends k)) by exact I3. clear - Nd Q. induction (pend j) as [|a l IH]; [destruct Q|]. cbn [app] in Nd. inversion Nd; subst. destruct Q as [->|Q]; [|now apply IH].
      intro Hk. apply H1. apply in_app_iff. now right.
  - rewrite pends_app. intros q Hq. apply in_app_iff in Hq as [Hq|Hq]; apply in_app_iff.
    + destruct (PJ q Hq) as [->|Q]; [right; now left|left; apply I4; apply in_app_iff; now left].
    + left. apply I4. apply in_app_iff. now right.
  - intros j' p Hj Hp. apply in_app_iff in Hj as [Hj|Hj].
    + destruct (C1 j' p Hj Hp) as [[-> Q]|[Q R]]; [now rewrite At|]. rewrite Au; [exact R|]. apply I4. apply in_app_iff. now left.
    + rewrite Au; [exact (I5 j' p (or_intror Hj) Hp)|]. apply I4. apply in_app_iff. right. exact (in_pends _ _ _ Hj Hp).
  - rewrite pends_app. intros u Hu N. assert (N1 : ~ In u (pends J)) by (intro X; apply N; apply in_app_iff; now left). assert (N2 : ~ In u (pends k)) by (intro X; apply N; apply in_app_iff; now right).
    apply in_app_iff in Hu as [Hu|[<-|[]]]; [|rewrite At; exact (C3 N1)]. rewrite Au by exact Hu.
    destruct (in_dec token_dec u (pend j)) as [Q|Q]; [exact (C4 u Q N1)|].
    apply I6; [exact Hu|]. cbn [pends flat_map]. intro X. apply in_app_iff in X as [X|X]; auto.
  - intros u Hu. assert (Eu : about u e = []).
    { destruct (I7 u (or_intror Hu)) as [->|(k' & r & _ & E & _)]; [reflexivity|]. injection E as -> _. exfalso. rewrite map_app in I1. cbn [map] in I1. apply NoDup_remove_2 in I1. apply I1. apply in_app_iff. right. now apply in_map. }
    rewrite !about_app, Eu, about_other; [|apply Ap; [apply in_app_iff; right; now right|]].
    + cbn [app]. destruct C5 as [->|(x & r & m & J' & -> & -> & -> & Hm)]; [now left|]. change [(x, m)] with (map (fun z => (x, z)) [m]).
      destruct (Z.eq_dec (t_start x) (t_start u)) as [E|E]; [|left; now apply about_other].
      assert (u = x) by (apply (places_apart _ _ _ I1); [apply in_app_iff; right; now right|apply in_app_iff; right; right; now left|now symmetry]). subst u.
      right. rewrite about_same. exists (J' ++ k), r. auto.
    + intros ->. rewrite map_app in I1. cbn [map] in I1. apply NoDup_remove_2 in I1. apply I1. apply in_app_iff. right. now apply in_map.
Qed.
Definition good (L : list token) (r : result) : Prop := match r with Goes k s ts => exists used, used ++ ts = L /\ inv used k (n_reports s) ts | Breaks _ => True end.
Section Steps.
Variable L : list token.

Lemma moved used j k s t ts J K s' ms h : used ++ t :: ts = L -> inv used (j :: k) (n_reports s) (t :: ts) -> K = J ++ k -> n_reports s' = n_reports s ++ map (fun m => (t, m)) ms ++ h ->
  (forall j' q, In j' J -> In q (pend j') -> q = t /\ opened j' t (about t (n_reports s) ++ ms) \/ In q (pend j) /\ opened j' q (about q (n_reports s))) ->
  NoDup (pends J) -> (~ In t (pends J) -> once t (about t (n_reports s) ++ ms)) -> (forall p, In p (pend j) -> ~ In p (pends J) -> once p (about p (n_reports s))) -> hint J ts h ->
  good L (Goes K s' ts).
Proof.
  intros E I -> R C1 C2 C3 C4 C5. exists (used ++ [t]). split; [now rewrite <- app_assoc|]. rewrite R. now apply (move used j k).
Qed.
(** Without reports, or with reports about the element only; nothing is pending. *)
Lemma moved_on used j k s t ts J K s' ms : used ++ t :: ts = L -> inv used (j :: k) (n_reports s) (t :: ts) -> K = J ++ k -> n_reports s' = n_reports s ++ map (fun m => (t, m)) ms ->
  pends J = [] -> once t (about t (n_reports s) ++ ms) -> (forall p, In p (pend j) -> once p (about p (n_reports s))) -> good L (Goes K s' ts).
Proof.
  intros E I K0 R P C3 C4. apply (moved used j k s t ts J K s' ms []); auto; [now rewrite R, app_nil_r| |rewrite P; constructor|now left].
  intros j' q Hj Hq. pose proof (in_pends _ _ _ Hj Hq) as X. rewrite P in X. destruct X.
Qed.
Lemma none_before (l : list Z) t : In l before -> once t l.
Proof. apply once_none. Qed.
Lemma start_good used j k X s0 s t ts : used ++ t :: ts = L -> inv used (j :: k) (n_reports s0) (t :: ts) -> n_reports s = n_reports s0 -> pends X = [] -> (forall p, In p (pend j) -> once p (about p (n_reports s0))) ->
  good L (start t (X ++ k) s ts).
Proof.
  intros E I Rs PX C4. destruct (about_before _ _ _ _ _ _ I) as [B _].
  assert (G0 : forall J s', pends J = [] -> n_reports s' = n_reports s -> good L (Goes (J ++ X ++ k) s' ts)).
  { intros J s' P R. apply (moved_on used j k s0 t ts (J ++ X) _ s' []); auto; [now rewrite app_assoc|rewrite R, Rs; cbn [map]; now rewrite app_nil_r|now rewrite pends_app, P, PX|rewrite app_nil_r; now apply once_none]. }
  assert (G1 : forall J s' ms, pends J = [] -> n_reports s' = n_reports s ++ map (fun m => (t, m)) ms -> once t (about t (n_reports s0) ++ ms) -> good L (Goes (J ++ X ++ k) s' ts)).
  { intros J s' ms P R O. apply (moved_on used j k s0 t ts (J ++ X) _ s' ms); auto; [now rewrite app_assoc|now rewrite R, Rs|now rewrite pends_app, P, PX]. }
  assert (GL : forall s', n_reports s' = n_reports s -> good L (the_last t (X ++ k) s' ts)).
  { intros s' R. unfold the_last. destruct ts as [|x r]; [now apply (G0 [])|].
    apply (moved used j k s0 t (x :: r) (JSync :: X) _ (report x [34] s') [] [(x, 34)]); auto.
    - cbn [report n_reports map app]. now rewrite R, Rs.
    - intros j' q [<-|Hj] Hq; [destruct Hq|]. pose proof (in_pends _ _ _ Hj Hq) as Z. rewrite PX in Z. destruct Z.
    - cbn [pends flat_map pend app]. fold (pends X). rewrite PX. constructor.
    - intros _. rewrite app_nil_r. now apply once_none.
    - right. exists x, r, 34, X. repeat split. right. now left. }
  unfold start. destruct (t_base t) eqn:Bt; try (now apply (G0 [JTruncate])); try (now apply (G0 [JDct])); try (now apply (G0 [JRoute])); try (apply GL; reflexivity).
  all: try (now apply (G0 [JC t])).
  all: try (apply (G1 [JPoint] _ (angle_faults t)); [reflexivity|reflexivity|now apply once_angles]).
  all: try (apply (G0 [JText]); reflexivity).
  all: try (destruct (only_adep s); [apply (G1 [JAdep] _ (level_faults t))|apply (G1 [JPoint] _ (level_faults t))]; first [reflexivity|now apply once_levels]).
  all: try (destruct (unconvertible t); [exact Logic.I|apply (G1 [JPoint] _ (level_faults t)); [reflexivity|reflexivity|now apply once_levels]]).
  all: try (apply (G0 [JBegin]); [reflexivity|destruct (begins (t_sub t)); reflexivity]).
  all: try (destruct (only_adep s); [apply (G0 [JSid]); reflexivity|]).
  all: try (apply GL; reflexivity).
  all: try (apply (G1 [JSync] _ [30]); [reflexivity|reflexivity|apply once_place; [exact B|cbn; tauto]]).
  - apply (moved used j k s0 t ts (JStayTok t :: X) _ s [] []); auto.
    + cbn [map app]. now rewrite Rs, app_nil_r.
    + intros j' q [<-|Hj] Hq; [destruct Hq as [<-|[]]; left; split; [reflexivity|]; cbn [opened]; now rewrite app_nil_r|]. pose proof (in_pends _ _ _ Hj Hq) as Z. rewrite PX in Z. destruct Z.
    + cbn [pends flat_map pend app]. fold (pends X). rewrite PX. repeat constructor. intros [].
    + intro N. exfalso. apply N. now left.
    + now left.
Qed.

Lemma leave_good used j k X s0 s t ts b : used ++ t :: ts = L -> inv used (j :: k) (n_reports s0) (t :: ts) -> n_reports s = n_reports s0 -> pends X = [] -> pend j = [] -> good L (leave b (X ++ k) s ts).
Proof.
  intros E I Rs PX Pj. destruct (about_before _ _ _ _ _ _ I) as [B _].
  assert (G0 : forall J, pends J = [] -> good L (Goes (J ++ X ++ k) s ts)).
  { intros J P. apply (moved_on used j k s0 t ts (J ++ X) _ s []); auto; [now rewrite app_assoc|rewrite Rs; cbn [map]; now rewrite app_nil_r|now rewrite pends_app, P, PX|rewrite app_nil_r; now apply once_none|rewrite Pj; intros p []]. }
  unfold leave. destruct (resume b ts).
  - now apply (G0 []).
  - apply G0. destruct b; reflexivity.
  - destruct ts as [|x r]; [now apply (G0 [])|]. apply (moved used j k s0 t (x :: r) (JSync :: X) _ (report x [22] s) [] [(x, 22)]); auto.
    + cbn [report n_reports map app]. now rewrite Rs.
    + intros j' q [<-|Hj] Hq; [destruct Hq|]. pose proof (in_pends _ _ _ Hj Hq) as Z. rewrite PX in Z. destruct Z.
    + cbn [pends flat_map pend app]. fold (pends X). rewrite PX. constructor.
    + intros _. rewrite app_nil_r. now apply once_none.
    + rewrite Pj. intros p [].
    + right. exists x, r, 22, X. repeat split. right. right. now left.
Qed.
Lemma place_of j s t : In (misplaced (spot j s) t) places.
Proof.
  assert (H : existsb (Z.eqb (misplaced (spot j s) t)) places = true).
  { destruct j; cbn [spot]; unfold misplaced, stray_end; destruct (t_base t); try reflexivity; destruct (t_sub t); reflexivity. }
  apply existsb_exists in H as (m & H & X). apply Z.eqb_eq in X. now rewrite X.
Qed.
(** What is pending is settled by the next element, unless it stays pending. *)
Lemma opened_once j p l : In p (pend j) -> opened j p l -> match j with JTake _ => False | _ => True end -> once p l.
Proof.
  intros P O N. destruct j; cbn [pend opened] in *; try easy; try (subst l; apply once_none; now left); try (now apply once_none); subst l; apply (once_angles p []); now left.
Qed.
Lemma wrong_good used j k X s t ts : used ++ t :: ts = L -> inv used (j :: k) (n_reports s) (t :: ts) -> pends X = [] -> match j with JTake _ => False | _ => True end -> good L (wrong j t (X ++ k) s ts).
Proof.
  intros E I PX N. unfold wrong. destruct (about_before _ _ _ _ _ _ I) as [B _].
  apply (moved_on used j k s t ts (JSync :: X) _ _ [misplaced (spot j s) t]); auto.
  - apply once_place; [exact B|apply place_of].
  - intros p P. apply (opened_once j p); [exact P| |exact N]. apply (i_open _ _ _ _ I j p); [now left|exact P].
Qed.
Lemma read_good used j k s t ts : used ++ t :: ts = L -> inv used (j :: k) (n_reports s) (t :: ts) -> match j with JTake _ | JWord _ => False | _ => True end -> good L (read j t k s ts).
Proof.
  intros E I N. destruct (about_before _ _ _ _ _ _ I) as [B B0].
  assert (W : forall X, pends X = [] -> good L (wrong j t (X ++ k) s ts)) by (intros X P; apply (wrong_good used); auto; now destruct j).
  assert (C4 : forall p, In p (pend j) -> once p (about p (n_reports s))).
  { intros p P. apply (opened_once j p); [exact P| |now destruct j]. apply (i_open _ _ _ _ I j p); [now left|exact P]. }
  assert (ST : forall X s', pends X = [] -> n_reports s' = n_reports s -> good L (start t (X ++ k) s' ts)) by (intros X s' P R; exact (start_good used j k X s s' t ts E I R P C4)).
  assert (MS : forall J s' ms, pends J = [] -> n_reports s' = n_reports s ++ map (fun m => (t, m)) ms -> once t (about t (n_reports s) ++ ms) -> good L (Goes (J ++ k) s' ts)) by (intros J s' ms P R O; now apply (moved_on used j k s t ts J _ s' ms)).
  assert (M0 : forall J s', pends J = [] -> n_reports s' = n_reports s -> good L (Goes (J ++ k) s' ts)).
  { intros J s' P R. apply (MS J s' []); [exact P|now rewrite R, app_nil_r|rewrite app_nil_r; now apply once_none]. }
  assert (MP : forall j' s' ms, pend j' = [t] -> n_reports s' = n_reports s ++ map (fun m => (t, m)) ms -> opened j' t (about t (n_reports s) ++ ms) -> good L (Goes (j' :: k) s' ts)).
  { intros j' s' ms P R O. apply (moved used j k s t ts [j'] _ s' ms []); auto; [now rewrite R, app_nil_r| | | |now left].
    - intros j1 q [<-|[]] Hq. rewrite P in Hq. destruct Hq as [<-|[]]. left. auto.
    - cbn [pends flat_map]. rewrite P. repeat constructor. intros [].
    - intro X. exfalso. apply X. cbn [pends flat_map]. rewrite P. now left. }
  assert (MM : forall m J, In m places -> pends J = [] -> good L (Goes (J ++ k) (report t [m] s) ts)) by (intros m J M P; apply (MS J _ [m]); [exact P|reflexivity|now apply once_place]).
  assert (LV : forall b X s', pend j = [] -> pends X = [] -> n_reports s' = n_reports s -> good L (leave b (X ++ k) s' ts)) by (intros b X s' Pj P R; exact (leave_good used j k X s s' t ts b E I R P Pj)).
  destruct j; cbn [read]; try easy.
  all: try (match goal with |- context [suits ?j0 ?t0 ?s0] => destruct (suits j0 t0 s0) end); try (now apply (W [])); try (now apply (ST [])).
  - destruct (t_base t) eqn:Bt; try (now apply (W [])). unfold wrong. cbn [spot misplaced]. rewrite Bt.
    apply (moved used JRoute k s t ts [JSync; JTake t] _ _ [48] []); auto.
    + intros j1 q [<-|[<-|[]]] Hq; [destruct Hq|]. destruct Hq as [<-|[]]. left. split; [reflexivity|]. cbn [opened]. now rewrite B0.
    + repeat constructor. intros [].
    + intro X. exfalso. apply X. now left.
    + now left.
  - destruct (base_eqb (t_base t) F15_SLASH); [|now apply (ST [])]. apply (MP (JSlash t) s []); [reflexivity|now rewrite app_nil_r|cbn [opened]; now rewrite B0].
  - destruct (base_eqb (t_base t) F15_SLASH); [|now apply (ST [])]. apply (MP (JClimb c t) s []); [reflexivity|now rewrite app_nil_r|cbn [opened]; now rewrite B0].
  - apply (MP (JClimbPt t) _ (angle_faults t)); [reflexivity|reflexivity|cbn [opened]; now rewrite B0].
  - apply (moved used (JClimbPt p) k s t ts [JClimbSl p] _ s [] []); auto.
    + now rewrite app_nil_r.
    + intros j1 q [<-|[]] Hq. right. split; [exact Hq|]. destruct Hq as [<-|[]]. apply (i_open _ _ _ _ I (JClimbPt p) p); now left.
    + repeat constructor. intros [].
    + intros _. rewrite app_nil_r. now apply once_none.
    + now left.
  - unfold wrong. apply (moved used (JClimbPt p) k s t ts [JSync; JClimbSl p] _ _ [misplaced (spot (JClimbPt p) s) t] []); auto.
    + intros j1 q [<-|[<-|[]]] Hq; [destruct Hq|]. right. split; [exact Hq|]. destruct Hq as [<-|[]]. apply (i_open _ _ _ _ I (JClimbPt p) p); now left.
    + repeat constructor. intros [].
    + intros _. apply once_place; [exact B|apply place_of].
    + now left.
  - now apply (ST [JAsPoint]).
  - now apply (W [JAsPoint]).
  - apply (MP (JStaySl t) s []); [reflexivity|now rewrite app_nil_r|cbn [opened]; now rewrite B0].
  - now apply (M0 [JStay]).
  - destruct (base_eqb (t_base t) F15_TOO_LONG); [apply (MM 4 [JSync; JWord t; JText]); [cbn; tauto|reflexivity]|].
    destruct (ends_here (texts (t_text t) s) t); [now apply (LV k0 [JText])|now apply (M0 [JText])].
  - destruct (base_eqb (t_base t) F15_TOO_LONG); [apply (MM 4 [JSync]); [cbn; tauto|reflexivity]|].
    destruct (ends_here (texts (t_text t) s) t); [now apply (LV k0 [JText])|now apply (M0 [JText])].
  - destruct ts as [|sl [|sp r]]; [now apply (M0 [])|now apply (M0 [])|].
    assert (H1 : good L (Goes (JJoin :: k) (point t s) (sl :: sp :: r))) by (apply (MS [JJoin] _ (angle_faults t)); [reflexivity|reflexivity|now apply once_angles]).
    assert (H2 : good L (Goes (JJoin :: k) (rules ($"IFR") (add t s)) (sl :: sp :: r))) by (now apply (M0 [JJoin])).
    assert (NX : forall s1, good L (Goes (JJoin :: k) s1 (sl :: sp :: r)) -> good L (Goes (JJoin :: k) s1 (sp :: r))).
    { intros s1 (u1 & E1 & I1). apply (moved_on u1 JJoin k s1 sl (sp :: r) [JJoin] _ s1 []); [exact E1|exact I1|reflexivity|symmetry; apply app_nil_r|reflexivity|rewrite app_nil_r|intros p []]. apply once_none. exact (proj1 (about_before _ _ _ _ _ _ I1)). }
    destruct (base_eqb (t_base sp) F15_SPEED_VFR).
    + destruct (NX _ H2) as (u2 & E2 & I2). apply (moved_on u2 JJoin k (rules ($"IFR") (add t s)) sp r [JText] _ _ []); [exact E2|exact I2|reflexivity|symmetry; apply app_nil_r|reflexivity|rewrite app_nil_r|intros p []]. apply once_none. exact (proj1 (about_before _ _ _ _ _ _ I2)).
    + destruct (NX _ H1) as (u2 & E2 & I2). apply (moved_on u2 JJoin k (point t s) sp r [JPoint] _ _ (level_faults sp)); [exact E2|exact I2|reflexivity|reflexivity|reflexivity| |intros p []]. apply once_levels. exact (proj1 (about_before _ _ _ _ _ _ I2)).
  - destruct (t_base t); try (now apply (ST [])); try (now apply (LV _ [])); try (apply (MM _ [JSync]); [cbn; tauto|reflexivity]).
    apply (MP (JSyncSl t) s []); [reflexivity|now rewrite app_nil_r|cbn [opened]; now rewrite app_nil_r].
  - destruct (t_base t); try (now apply (ST [])); try (apply (MM _ [JSync]); [cbn; tauto|reflexivity]).
  - apply (MS [JPoint] _ (angle_faults t)); [reflexivity|reflexivity|now apply once_angles].
Qed.
End Steps.

(** ** Without reading *)
Lemma settle used j k e ts J p ms : inv used (j :: k) e ts -> pend j = [p] -> pends J = [] -> once p (about p e ++ ms) -> inv used (J ++ k) (e ++ map (fun m => (p, m)) ms) ts.
Proof.
  intros [I1 I2 I3 I4 I5 I6 I7] P PJ O. cbn [pends flat_map] in I3, I4. rewrite P in I3, I4. fold (pends k) in I3, I4. cbn [app] in I3, I4. inversion I3 as [|? ? N3 I3k]; subst.
  assert (Up : In p used) by (apply I4; now left).
  assert (Ap : forall u, In u (used ++ ts) -> u <> p -> about u (map (fun m => (p, m)) ms) = []).
  { intros u Hu N. apply about_other. intro E. apply N. symmetry. apply (places_apart _ _ _ I1); [apply in_app_iff; now left|exact Hu|exact E]. }
  assert (PE : pends (J ++ k) = pends k) by now rewrite pends_app, PJ.
  constructor.
  - exact I1.
  - apply Forall_app. split; [exact I2|]. apply Forall_forall. intros q Hq. apply in_map_iff in Hq as (m & <- & _). apply in_app_iff. now left.
  - now rewrite PE.
  - rewrite PE. intros q Hq. apply I4. now right.
  - intros j' q Hj Hq. apply in_app_iff in Hj as [Hj|Hj]; [pose proof (in_pends _ _ _ Hj Hq) as X; rewrite PJ in X; destruct X|].
    pose proof (in_pends _ _ _ Hj Hq) as X. rewrite about_app, (Ap q), app_nil_r; [exact (I5 j' q (or_intror Hj) Hq)|apply in_app_iff; left; apply I4; now right|]. intros ->. now apply N3.
  - rewrite PE. intros u Hu N. rewrite about_app. destruct (token_dec u p) as [->|D]; [now rewrite about_same|]. rewrite (Ap u), app_nil_r; [|apply in_app_iff; now left|exact D].
    apply I6; [exact Hu|]. cbn [pends flat_map]. rewrite P. intros [X|X]; [now apply D|now apply N].
  - intros u Hu. left. rewrite about_app, (Ap u), app_nil_r; [|apply in_app_iff; now right|].
    + destruct (I7 u Hu) as [->|(k' & r & E & _)]; [reflexivity|]. injection E as -> _. discriminate.
    + intros ->. rewrite map_app in I1. clear - I1 Up Hu. induction used as [|a l IH]; [destruct Up|]. cbn [map app] in I1. inversion I1; subst. destruct Up as [->|Up]; [|now apply IH]. apply H1. apply in_app_iff. right. now apply in_map.
Qed.
Lemma drop used j k e ts : inv used (j :: k) e ts -> pend j = [] -> (j = JSync -> ts = []) -> inv used k e ts.
Proof.
  intros [I1 I2 I3 I4 I5 I6 I7] P N. cbn [pends flat_map] in I3, I4, I6. rewrite P in I3, I4, I6. constructor; auto.
  - intros j' q Hj. apply I5. now right.
  - intros t Ht. destruct (I7 t Ht) as [X|(k' & r & E & -> & _)]; [now left|]. injection E as -> _. now discriminate N.
Qed.
Lemma step_good L j k s ts : good L (Goes (j :: k) s ts) -> good L (step1 (j :: k) s ts).
Proof.
  intros (used & E & I).
  assert (S : forall p J s' ms, pend j = [p] -> pends J = [] -> n_reports s' = n_reports s ++ map (fun m => (p, m)) ms -> once p (about p (n_reports s) ++ ms) -> good L (Goes (J ++ k) s' ts)).
  { intros p J s' ms P PJ R O. exists used. split; [exact E|]. rewrite R. now apply (settle used j). }
  assert (D : forall s', pend j = [] -> (j = JSync -> ts = []) -> n_reports s' = n_reports s -> good L (Goes k s' ts)).
  { intros s' P N R. exists used. split; [exact E|]. rewrite R. now apply (drop used j). }
  assert (O : forall p, pend j = [p] -> opened j p (about p (n_reports s))) by (intros p P; apply (i_open _ _ _ _ I); [now left|rewrite P; now left]).
  destruct ts as [|t ts].
  - destruct j; cbn [step1 at_end]; try (now apply D).
    + apply (S sl [] _ [20]); [reflexivity|reflexivity|reflexivity|]. rewrite (O sl eq_refl). apply (once_end _ [] 20); cbn; tauto.
    + apply (S sl [] _ [52]); [reflexivity|reflexivity|reflexivity|]. rewrite (O sl eq_refl). apply (once_end _ [] 52); cbn; tauto.
    + apply (S p [] _ [27]); [reflexivity|reflexivity|reflexivity|]. rewrite (O p eq_refl). apply once_climb. cbn; tauto.
    + apply (S p [] _ [28]); [reflexivity|reflexivity|reflexivity|]. rewrite (O p eq_refl). apply once_climb. cbn; tauto.
    + apply (S s0 [] _ [35]); [reflexivity|reflexivity|reflexivity|]. apply once_end; [exact (O s0 eq_refl)|cbn; tauto].
    + apply (S sl [] _ [37]); [reflexivity|reflexivity|reflexivity|]. rewrite (O sl eq_refl). apply (once_end _ [] 37); cbn; tauto.
    + apply (S sl [] _ [25]); [reflexivity|reflexivity|reflexivity|]. apply once_end; [exact (O sl eq_refl)|cbn; tauto].
    + apply (S t [JPoint] _ (angle_faults t)); [reflexivity|reflexivity|reflexivity|]. rewrite (O t eq_refl). apply once_route.
  - destruct j; cbn [step1]; try (apply (read_good L used); [exact E|exact I|exact Logic.I]).
    + now apply D.
    + apply (S t0 [JPoint] _ (angle_faults t0)); [reflexivity|reflexivity|reflexivity|]. rewrite (O t0 eq_refl). apply once_route.
Qed.
Lemma steps_good L r q : steps r q -> good L r -> good L q.
Proof. induction 1 as [|j k s ts r H IH]; [auto|]. intro X. apply IH. now apply step_good. Qed.

(** ** Fields *)
Lemma field_places field : NoDup (map t_start (field_tokens field)).
Proof.
  pose proof (starts_lt field) as H. induction H as [|t l H IH F]; constructor; [|exact IH]. intro X. rewrite Forall_forall in F. specialize (F t X). lia.
Qed.
Lemma begin_good L z : NoDup (map t_start L) -> begin L = Done z -> Forall (fun q => In (fst q) L) (n_reports z) /\ forall t, In t L -> once t (about t (n_reports z)).
Proof.
  intros ND H. destruct L as [|t r]; [injection H as <-; split; [constructor|intros t []]|].
  assert (I0 : inv [] [JAdep] (n_reports blank_notes) (t :: r)).
  { constructor; [exact ND|constructor|constructor|intros ? []|intros j p [<-|[]] []|intros ? []|]. intros u _. now left. }
  assert (F : forall n g, good (t :: r) g -> goes_on n g = Done z -> Forall (fun q => In (fst q) (t :: r)) (n_reports z) /\ forall u, In u (t :: r) -> once u (about u (n_reports z))).
  { intros n g Gg Hg. destruct g as [k s ts|s]; [|destruct n; discriminate]. cbn [goes_on] in Hg. destruct (play_run _ _ _ _ _ Hg) as [ts' St]. apply (steps_good (t :: r)) in St; [|exact Gg]. destruct St as (used & E & [J1 J2 J3 J4 J5 J6 J7]).
    rewrite E in J2. split; [exact J2|]. intros u Hu. rewrite <- E in Hu. apply in_app_iff in Hu as [Hu|Hu]; [apply J6; [exact Hu|intros []]|]. destruct (J7 u Hu) as [->|(k' & r' & X & _)]; [apply once_none; now left|discriminate]. }
  assert (S : good (t :: r) (start t [] blank_notes r)) by (apply (start_good (t :: r) [] JAdep [] [] blank_notes blank_notes t r); auto; intros p []).
  assert (W : good (t :: r) (Goes [JSync] (report t [1] blank_notes) r)).
  { apply (moved_on (t :: r) [] JAdep [] blank_notes t r [JSync] _ _ [1]); auto; [|intros p []]. apply (once_place t [] 1); cbn; tauto. }
  unfold begin in H. destruct (t_base t); try (apply (F _ _ W H)); apply (F (patience (t :: r)) _ S); destruct (start t [] blank_notes r); exact H.
Qed.
Lemma reading_once L l e : NoDup (map t_start L) -> reading L = Some (Gives l e) -> Forall (fun q => In (fst q) L) e /\ forall t, In t L -> once t (about t e).
Proof.
  intros ND H. unfold reading in H. destruct (begin L) as [z|z|] eqn:B; try discriminate. destruct (begin_good L z ND B) as [F O].
  unfold conclude in H. injection H as _ <-. destruct L as [|t [|u r]]; try (split; assumption). destruct (base_eqb (t_base t) F15_SPEED_ALTITUDE) eqn:Bt; [|split; assumption].
  apply base_eqb_eq in Bt. unfold begin in B. rewrite Bt in B. unfold start in B. rewrite Bt in B. change (Done (speeds t blank_notes) = Done z) in B. injection B as <-. split.
  - apply Forall_app. split; [exact F|]. constructor; [now left|constructor].
  - intros u [<-|[]]. change (once t (about t (n_reports (speeds t blank_notes) ++ map (fun m => (t, m)) [49]))). rewrite about_app, about_same. replace (about t (n_reports (speeds t blank_notes))) with (level_faults t); [apply once_alone|].
    change (n_reports (speeds t blank_notes)) with ([] ++ map (fun m => (t, m)) (level_faults t)). cbn [app]. now rewrite about_same.
Qed.

(** ** Two reports *)
Definition not40 (m : Z) : bool := negb (m =? 40).
Lemma in_angle_faults t : exists a b c, angle_faults t = a ++ b ++ c /\ In a [[]; [42]; [43]] /\ In b [[]; [44]; [45]] /\ In c [[]; [46]].
Proof.
  unfold angle_faults. destruct (t_sub t); try (exists [], [], []; cbn; tauto).
  - exists [], [], (brg_faults (t_text t)). unfold brg_faults. destruct (over _ _); cbn; tauto.
  - unfold deg_faults. eexists _, _, []. rewrite app_nil_r. split; [reflexivity|]. destruct (over _ _), (over _ _); cbn; tauto.
  - unfold min_faults. eexists _, _, []. rewrite app_nil_r. split; [reflexivity|]. destruct (over_min _ _ _), (over_min _ _ _); cbn; tauto.
  - unfold deg_faults, brg_faults. rewrite <- app_assoc. eexists _, _, _. split; [reflexivity|]. destruct (over _ _), (over _ _), (over _ _); cbn; tauto.
  - unfold min_faults, brg_faults. rewrite <- app_assoc. eexists _, _, _. split; [reflexivity|]. destruct (over_min _ _ _), (over_min _ _ _), (over _ _); cbn; tauto.
Qed.
Lemma in_level_faults t : In (level_faults t) [[]; [40]; [40; 40]].
Proof. unfold level_faults. destruct (bad_level _), (_ && _ && _); cbn; tauto. Qed.
(** All the shapes are finitely many. *)
Definition angle_shapes : list (list Z) := flat_map (fun a => flat_map (fun b => map (fun c => a ++ b ++ c) [[]; [46]]) [[]; [44]; [45]]) [[]; [42]; [43]].
Definition shapes : list (list Z) :=
  before ++ flat_map (fun a => map (fun m => a ++ [m]) (places ++ ends) ++ map (app a) (angle_shapes ++ [[]; [40]; [40; 40]])) before
  ++ flat_map (fun a => map (fun m => a ++ [m]) [27; 28]) angle_shapes ++ map (cons 48) angle_shapes ++ map (fun a => a ++ [49]) [[]; [40]; [40; 40]].
Lemma angle_shaped t : In (angle_faults t) angle_shapes.
Proof.
  destruct (in_angle_faults t) as (a & b & c & -> & A & B & C). apply in_flat_map. exists a. split; [exact A|]. apply in_flat_map. exists b. split; [exact B|]. apply in_map_iff. now exists c.
Qed.
Lemma once_shape t l : once t l -> In l shapes.
Proof.
  intro O. pose proof (angle_shaped t) as A. pose proof (in_level_faults t) as V. unfold shapes. destruct O as [a Ha|a m Ha Hm|a Ha|a Ha|a m Ha Hm|m Hm| |]; repeat rewrite in_app_iff.
  - now left.
  - right. left. apply in_flat_map. exists a. split; [exact Ha|]. apply in_app_iff. left. apply in_map_iff. exists m. split; [reflexivity|]. apply in_app_iff. now left.
  - right. left. apply in_flat_map. exists a. split; [exact Ha|]. apply in_app_iff. right. apply in_map_iff. exists (angle_faults t). split; [reflexivity|]. apply in_app_iff. now left.
  - right. left. apply in_flat_map. exists a. split; [exact Ha|]. apply in_app_iff. right. apply in_map_iff. exists (level_faults t). split; [reflexivity|]. apply in_app_iff. now right.
  - right. left. apply in_flat_map. exists a. split; [exact Ha|]. apply in_app_iff. left. apply in_map_iff. exists m. split; [reflexivity|]. apply in_app_iff. now right.
  - right. right. left. apply in_flat_map. exists (angle_faults t). split; [exact A|]. apply in_map_iff. now exists m.
  - right. right. right. left. now apply in_map.
  - right. right. right. right. apply in_map_iff. now exists (level_faults t).
Qed.
Fixpoint nodupb (l : list Z) : bool := match l with [] => true | a :: r => negb (existsb (Z.eqb a) r) && nodupb r end.
Lemma nodupb_ok l : nodupb l = true -> NoDup l.
Proof.
  induction l as [|a l IH]; [constructor|]. cbn [nodupb]. intro H. apply andb_true_iff in H as [A B]. constructor; [|auto]. intro X. apply negb_true_iff in A. rewrite (proj2 (existsb_exists _ _)) in A; [discriminate|]. exists a. split; [exact X|apply Z.eqb_refl].
Qed.
Definition numbers : list Z := [40; 42; 43; 44; 45; 46; 27; 28; 49; 34; 22; 48] ++ places ++ ends.
Definition shape_ok (l : list Z) : bool := nodupb (filter not40 l) && (List.length l <=? 4)%nat && forallb (fun m => existsb (Z.eqb m) numbers) l.
Lemma shapes_ok : forallb shape_ok shapes = true.
Proof. vm_compute. reflexivity. Qed.
Lemma once_facts t l : once t l -> NoDup (filter not40 l) /\ (List.length l <= 4)%nat /\ forall m, In m l -> In m numbers.
Proof.
  intro O. apply once_shape in O. pose proof (proj1 (forallb_forall _ _) shapes_ok l O) as H. unfold shape_ok in H. apply andb_true_iff in H as [H H3]. apply andb_true_iff in H as [H1 H2].
  split; [now apply nodupb_ok|]. split; [now apply Nat.leb_le|]. intros m Hm. pose proof (proj1 (forallb_forall _ _) H3 m Hm) as X. apply existsb_exists in X as (x & X & Y). apply Z.eqb_eq in Y. now subst.
Qed.

(** ** Texts *)
(** A message is a text, or two texts around the element. *)
Fixpoint cut (m : pstr) : pstr * option pstr :=
  match m with [] => ([], None) | c :: r => if N.eqb c 33 then ([], Some r) else let (a, b) := cut r in (c :: a, b) end.
Fixpoint clean (m : pstr) : bool := match m with [] => true | c :: r => negb (N.eqb c 33) && clean r end.
Lemma fill_clean x m : clean m = true -> fill x m = m.
Proof. induction m as [|c m IH]; [reflexivity|]. cbn [clean fill]. intro H. apply andb_true_iff in H as [A B]. apply negb_true_iff in A. rewrite A. now rewrite IH. Qed.
Lemma fill_cut x m : match cut m with (a, None) => fill x m = a | (a, Some b) => clean b = true -> fill x m = a ++ x ++ b end.
Proof.
  induction m as [|c m IH]; [reflexivity|]. cbn [cut fill]. destruct (N.eqb c 33); [intro H; cbn [app]; now rewrite fill_clean|]. destruct (cut m) as [a [b|]]; [intro H; cbn [app]; now rewrite (IH H)|now rewrite IH].
Qed.
Fixpoint parts (a b : pstr) : bool := match a, b with x :: a', y :: b' => negb (N.eqb x y) || parts a' b' | _, _ => false end.
Lemma parts_apart a b x y : parts a b = true -> a ++ x <> b ++ y.
Proof.
  revert b. induction a as [|p a IH]; intros [|q b]; try discriminate. cbn [parts app]. intros H E. injection E as -> E. apply orb_true_iff in H as [H|H]; [apply negb_true_iff in H; now rewrite N.eqb_refl in H|]. exact (IH b H E).
Qed.
Definition told_apart (m n : pstr) : bool :=
  match cut m, cut n with
  | (a, Some b), (a', Some b') => clean b && clean b' && (parts a a' || negb (Nat.eqb (List.length a + List.length b) (List.length a' + List.length b')) || (pstr_eqb a a' && negb (pstr_eqb b b')))
  | (a, Some b), (a', None) => clean b && parts a a'
  | (a, None), (a', Some b') => clean b' && parts a a'
  | (a, None), (a', None) => parts a a'
  end.
Lemma told_apart_ok m n x : told_apart m n = true -> fill x m <> fill x n.
Proof.
  unfold told_apart. pose proof (fill_cut x m) as Fm. pose proof (fill_cut x n) as Fn. destruct (cut m) as [a [b|]], (cut n) as [a' [b'|]]; intro H.
  - apply andb_true_iff in H as [H P]. apply andb_true_iff in H as [C C']. rewrite Fm, Fn by assumption. apply orb_true_iff in P as [P|P]; [apply orb_true_iff in P as [P|P]|].
    + now apply parts_apart.
    + apply negb_true_iff, Nat.eqb_neq in P. intro E. apply P. apply (f_equal (@List.length N)) in E. rewrite !app_length in E. lia.
    + apply andb_true_iff in P as [P Q]. apply pstr_eqb_eq in P. subst a'. intro E. apply app_inv_head, app_inv_head in E. subst b'. apply negb_true_iff in Q. assert (X : pstr_eqb b b = true) by now apply pstr_eqb_eq. now rewrite X in Q.
  - apply andb_true_iff in H as [C P]. rewrite Fm, Fn by assumption. rewrite <- (app_nil_r a'). now apply parts_apart.
  - apply andb_true_iff in H as [C P]. rewrite Fm, Fn by assumption. rewrite <- (app_nil_r a). now apply parts_apart.
  - rewrite Fm, Fn. rewrite <- (app_nil_r a), <- (app_nil_r a'). now apply parts_apart.
Qed.
Definition pair_ok (m n : Z) : bool :=
  (m =? n) || match error_message m, error_message n with Some p, Some q => told_apart p q | _, _ => false end.
Lemma pairs_ok : forallb (fun m => forallb (pair_ok m) numbers) numbers = true.
Proof. vm_compute. reflexivity. Qed.

(** ** Results *)
Section Results.
Variable G : geodesic.
Lemma errors_once depth field b s : field_tokens field <> [] -> parse_field15 G depth field = Ok b s ->
  exists e, e_errs (s_ers s) = map error_of e /\ Forall (fun q => In (fst q) (field_tokens field)) e /\ forall t, In t (field_tokens field) -> once t (about t e).
Proof.
  intros Hne H. destruct (complete G depth field b s Hne H) as (l & e & R & _ & E). exists e. rewrite E. split; [reflexivity|]. exact (reading_once _ l e (field_places field) R).
Qed.
Lemma two_reports e i j t m : (i < j)%nat -> nth_error e i = Some (t, m) -> nth_error e j = Some (t, m) -> NoDup (filter not40 (about t e)) -> m = 40.
Proof.
  intros Lt A B N. destruct (nth_error_split _ _ A) as (a & r & -> & La). rewrite nth_error_app2 in B by lia. destruct (j - List.length a)%nat as [|n] eqn:J; [lia|]. cbn [nth_error] in B. destruct (nth_error_split _ _ B) as (c & d & -> & _).
  destruct (Z.eq_dec m 40) as [Q|Q]; [exact Q|exfalso].
  change (a ++ (t, m) :: c ++ (t, m) :: d) with (a ++ map (fun z => (t, z)) [m] ++ c ++ map (fun z => (t, z)) [m] ++ d) in N. rewrite !about_app, !about_same, !filter_app in N.
  assert (X : filter not40 [m] = [m]) by (cbn [filter]; unfold not40; now replace (m =? 40) with false by lia). rewrite !X in N. cbn [app] in N. apply NoDup_remove_2 in N. apply N. apply in_app_iff. right. apply in_app_iff. right. now left.
Qed.
Lemma told_once depth field b s : field_tokens field <> [] -> parse_field15 G depth field = Ok b s ->
  forall i j x y, (i < j)%nat -> nth_error (e_errs (s_ers s)) i = Some x -> nth_error (e_errs (s_ers s)) j = Some y -> r_start x = r_start y -> r_err x = r_err y ->
  exists t, In t (field_tokens field) /\ reports t 40 x.
Proof.
  intros Hne H i j x y Lt Ei Ej Sx Ex. destruct (errors_once depth field b s Hne H) as (e & E & F & O). rewrite E in Ei, Ej.
  rewrite nth_error_map in Ei, Ej. destruct (nth_error e i) as [[t m]|] eqn:Qi; [|discriminate]. destruct (nth_error e j) as [[u n]|] eqn:Qj; [|discriminate]. cbn [option_map] in Ei, Ej. injection Ei as <-. injection Ej as <-.
  rewrite Forall_forall in F. pose proof (nth_error_In _ _ Qi) as Ii. pose proof (nth_error_In _ _ Qj) as Ij. pose proof (F _ Ii) as Ft. pose proof (F _ Ij) as Fu. cbn [fst] in Ft, Fu.
  assert (t = u) by exact (places_apart _ _ _ (field_places field) Ft Fu Sx). subst u. destruct (once_facts t _ (O t Ft)) as (N & _ & K).
  assert (AB : forall z, In (t, z) e -> In z (about t e)) by (intros z Hz; apply in_map_iff; exists (t, z); split; [reflexivity|]; apply filter_In; split; [exact Hz|apply Z.eqb_refl]).
  assert (m = n).
  { pose proof pairs_ok as P. rewrite forallb_forall in P. specialize (P m (K m (AB m Ii))). rewrite forallb_forall in P. specialize (P n (K n (AB n Ij))). unfold pair_ok in P. apply orb_true_iff in P as [P|P]; [now apply Z.eqb_eq|]. exfalso.
    cbn [error_of r_err fst snd] in Ex. destruct (error_message m); [|discriminate]. destruct (error_message n); [|discriminate]. exact (told_apart_ok _ _ (t_text t) P Ex). }
  subst n. pose proof (two_reports e i j t m Lt Qi Qj N) as ->. exists t. split; [exact Ft|]. repeat split. eexists. split; reflexivity.
Qed.
Lemma four_at_most depth field b s n : field_tokens field <> [] -> parse_field15 G depth field = Ok b s ->
  (List.length (filter (fun x => (r_start x =? n)%Z) (e_errs (s_ers s))) <= 4)%nat.
Proof.
  intros Hne H. destruct (errors_once depth field b s Hne H) as (e & E & F & O). rewrite E.
  assert (X : List.length (filter (fun x => r_start x =? n) (map error_of e)) = List.length (filter (fun q => t_start (fst q) =? n) e)).
  { clear. induction e as [|q e IH]; [reflexivity|]. cbn [map filter]. change (r_start (error_of q)) with (t_start (fst q)). destruct (t_start (fst q) =? n); cbn [List.length]; now rewrite IH. }
  rewrite X. destruct (existsb (fun t => t_start t =? n) (field_tokens field)) eqn:Q.
  - apply existsb_exists in Q as (t & It & St). apply Z.eqb_eq in St. subst n. destruct (once_facts t _ (O t It)) as (_ & K & _). unfold about in K. now rewrite map_length in K.
  - replace (filter (fun q => t_start (fst q) =? n) e) with (@nil (token * Z)); [cbn; lia|]. clear E X O. induction e as [|q e IH]; [reflexivity|]. inversion F as [|? ? Fq Fe]; subst. cbn [filter]. destruct (t_start (fst q) =? n) eqn:D; [|now apply IH].
    exfalso. rewrite (proj2 (existsb_exists _ _)) in Q; [discriminate|]. exists (fst q). split; [exact Fq|exact D].
Qed.
End Results.
