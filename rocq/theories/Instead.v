(** * Instead: a point in the place of a point. *)
From Coq Require Import ZArith NArith List Bool String Lia.
From Coq Require Import Floats.SpecFloat.
From Coq Require Import ZifyBool ZifyNat ZifyN.
From Verif Require Import PyBase PyFloat Enums ErrorTable Regex SyntaxTable Syntax Tokenizer Ers Utils Parser.
From Verif Require Import SpecTokenizer TokenizerProofs SpecNum ParserPrims PerfEq PointEq SyntaxProofs Trace ParseTrace ParserFacts SpecParser SpecGrammar GrammarSem Grammar SpecAccept Accept Describe AcceptFacts SpecLayout Layout SpecViable Viable Unambiguous SpecRemoval Removal SpecConnector Connector SpecInstead.
Import List ListNotations.
Local Open Scope list_scope.
Local Open Scope nat_scope.

Section G.
Variable G : geodesic.
Variable P : token -> token -> Prop.
Definition tw (t u : token) : Prop := t_text t = t_text u /\ t_base t = t_base u /\ t_sub t = t_sub u.
Definition pw (t u : token) : Prop := tw t u \/ (t_base t = F15_POINT /\ t_base u = F15_POINT /\ angles_ok u /\ P t u).
Definition steprel (s s' : step) : Prop :=
  match s, s' with
  | SFirst t, SFirst u | SFirstVfr t, SFirstVfr u | SDct t, SDct u | SRoute t, SRoute u | SPoint t, SPoint u | SC t, SC u | SSid t, SSid u
  | SStar t, SStar u | STrunc t, STrunc u | SBreak t, SBreak u | SRejoin t, SRejoin u => pw t u
  | SSpeed a t, SSpeed b u | SVfr a t, SVfr b u | SClimbTo a t, SClimbTo b u => pw a b /\ pw t u
  | SClimb a b t, SClimb c d u | SStay a b t, SStay c d u => pw a c /\ pw b d /\ pw t u
  | SText a, SText b => Forall2 tw a b
  | _, _ => False
  end.
Lemma pw_base t u : pw t u -> t_base t = t_base u.
Proof. intros [(_ & H & _)|(H & K & _)]; congruence. Qed.
Lemma pw_tw t u : pw t u -> t_base t <> F15_POINT -> tw t u.
Proof. intros [H|(H & _)] N; [exact H|contradiction]. Qed.
(** ** Steps *)
Definition inst (x : token * role) (u : token) : Prop := tw (fst x) u \/ (snd x <> RText /\ t_base (fst x) = F15_POINT /\ t_base u = F15_POINT /\ angles_ok u /\ P (fst x) u).
Lemma inst_pw x u : inst x u -> pw (fst x) u. Proof. unfold inst, pw. tauto. Qed.
Lemma step_exists s us : Forall2 inst (rstep s) us -> exists s', tokens_of s' = us /\ steprel s s'.
Proof.
  intro H. destruct s; cbn [rstep tokens_of map] in H;
    try (match goal with
         | |- context [SText ?txt] => exists (SText us); split; [reflexivity|]; cbn [steprel]; clear -H; revert us H; induction txt as [|t txt IH]; intros us H; inversion H; subst; constructor; [|now apply IH]; destruct H2 as [H2|(H2 & _)]; [exact H2|now destruct (H2 eq_refl)]
         end);
    repeat match goal with K : Forall2 inst (_ :: _) _ |- _ => inversion K; subst; clear K | K : Forall2 inst [] _ |- _ => inversion K; subst; clear K end;
    repeat match goal with K : inst _ _ |- _ => apply inst_pw in K; cbn [fst] in K end.
  all: match goal with |- exists s', tokens_of s' = ?l /\ steprel ?s s' =>
    match s with
    | SFirst _ => match l with [?u] => exists (SFirst u) end
    | SFirstVfr _ => match l with [?u] => exists (SFirstVfr u) end
    | SDct _ => match l with [?u] => exists (SDct u) end
    | SRoute _ => match l with [?u] => exists (SRoute u) end
    | SPoint _ => match l with [?u] => exists (SPoint u) end
    | SC _ => match l with [?u] => exists (SC u) end
    | SSid _ => match l with [?u] => exists (SSid u) end
    | SStar _ => match l with [?u] => exists (SStar u) end
    | STrunc _ => match l with [?u] => exists (STrunc u) end
    | SBreak _ => match l with [?u] => exists (SBreak u) end
    | SRejoin _ => match l with [?u] => exists (SRejoin u) end
    | SSpeed _ _ => match l with [?u; ?v] => exists (SSpeed u v) end
    | SVfr _ _ => match l with [?u; ?v] => exists (SVfr u v) end
    | SClimbTo _ _ => match l with [?u; ?v] => exists (SClimbTo u v) end
    | SClimb _ _ _ => match l with [?u; ?v; ?w] => exists (SClimb u v w) end
    | SStay _ _ _ => match l with [?u; ?v; ?w] => exists (SStay u v w) end
    end end; (split; [reflexivity|cbn [steprel]; auto]).
Qed.
Lemma steps_exist : forall ss us, Forall2 inst (ryield ss) us -> exists ss', yield ss' = us /\ Forall2 steprel ss ss'.
Proof.
  induction ss as [|s ss IH]; intros us H; [inversion H; exists []; split; [reflexivity|constructor]|]. rewrite ryield_cons in H. apply Forall2_app_inv_l in H as (u1 & u2 & H1 & H2 & ->).
  destruct (step_exists _ _ H1) as (s' & E & R). destruct (IH _ H2) as (ss' & E' & R'). exists (s' :: ss'). split; [rewrite yield_cons, E, E'; reflexivity|now constructor].
Qed.
Lemma tw_bases a b : Forall2 tw a b -> map t_base a = map t_base b /\ map t_sub a = map t_sub b /\ map t_text a = map t_text b /\ length a = length b.
Proof. induction 1 as [|t u a b (H1 & H2 & H3) _ (I1 & I2 & I3 & I4)]; [repeat split|]. cbn [map length]. repeat split; congruence. Qed.
Lemma rel_bases s s' : steprel s s' -> map t_base (tokens_of s) = map t_base (tokens_of s') /\ map snd (rstep s) = map snd (rstep s').
Proof.
  destruct s, s'; cbn [steprel]; try contradiction; intro H; repeat match goal with K : _ /\ _ |- _ => destruct K end;
    try (apply tw_bases in H as (E & _ & _ & L); split; [exact E|cbn [rstep]; rewrite !map_map; cbn [snd]; clear -L; revert txt0 L; induction txt as [|a l IH]; intros [|b m] L; try discriminate; [reflexivity|]; cbn [map]; f_equal; apply IH; now injection L]);
    repeat match goal with K : pw _ _ |- _ => apply pw_base in K end; cbn [tokens_of map rstep snd]; split; congruence.
Qed.
Lemma rels_bases ss ss' : Forall2 steprel ss ss' -> map t_base (yield ss) = map t_base (yield ss') /\ map snd (ryield ss) = map snd (ryield ss').
Proof.
  induction 1 as [|s s' ss ss' H _ (I1 & I2)]; [now split|]. destruct (rel_bases _ _ H) as (E1 & E2). rewrite !yield_cons, !ryield_cons, !map_app, E1, E2, I1, I2. now split.
Qed.
Lemma section_types k : forall txt txt' rest rest', Forall2 tw txt txt' -> map t_base rest = map t_base rest' -> section k txt rest -> section k txt' rest'.
Proof.
  induction txt as [|t txt IH]; intros txt' rest rest' F E H; inversion F as [|? u ? txt1 (H1 & H2 & H3) F']; subst; cbn [section] in *.
  - subst rest. destruct rest'; [reflexivity|discriminate].
  - destruct H as [N H]. split; [congruence|]. rewrite <- H3. destruct (ends k (t_sub t)); [|exact (IH _ _ _ F' E H)].
    rewrite <- (resume_look k (txt ++ rest) (txt1 ++ rest')) by (rewrite !map_app; destruct (tw_bases _ _ F') as (K & _); now rewrite K, E).
    destruct (resume k (txt ++ rest)); [exact (IH _ _ _ F' E H)|subst txt; inversion F'; reflexivity|exact H].
Qed.
Definition shape (c : ctx) : ctx := match c with XPoint _ => XPoint false | XClimb _ => XClimb false | XThenSpeed _ => XThenSpeed false | _ => c end.
Definition stc (c : ctx) : passed := match c with XRoute => Designator | XPoint true | XClimb true | XThenSpeed true => Computed | _ => Else end.
Lemma levels_tw t u : tw t u -> levels_ok t -> levels_ok u.
Proof. intros (E1 & E2 & E3). unfold levels_ok. now rewrite E1, E2. Qed.
Lemma angles_tw t u : tw t u -> angles_ok t -> angles_ok u.
Proof. intros (E1 & E2 & E3). unfold angles_ok. now rewrite E1, E3. Qed.
Lemma angles_pw t u : pw t u -> angles_ok t -> angles_ok u.
Proof. intros [H|H] A; [exact (angles_tw _ _ H A)|tauto]. Qed.
Lemma texts_fit l r : routes_fit Else (map (fun t : token => (t, RText)) l ++ r) = routes_fit Else r.
Proof. induction l as [|t l IH]; [reflexivity|]. exact IH. Qed.
Lemma fit_less : forall l p, routes_fit p l = true -> routes_fit Else l = true.
Proof.
  induction l as [|[t []] l IH]; intros p H; [reflexivity| |exact H|exact H]. cbn [routes_fit] in *. destruct (t_base t); try exact H; try exact (IH p H); destruct p; try exact H; try discriminate H; destruct (point_passed t); try exact H; discriminate H.
Qed.
Lemma proper_rel c c' s s' r r' : proper c s r -> steprel s s' -> shape c = shape c' -> map t_base r = map t_base r' -> proper c' s' r'.
Proof.
  intros Hp Hr Hc Eb. assert (Nr : r <> [] -> r' <> []) by (destruct r, r'; try discriminate; congruence). assert (Er : r = [] -> r' = []) by (intros ->; destruct r'; [reflexivity|discriminate]).
  destruct s, s'; cbn [steprel] in Hr; try contradiction; cbn [proper] in *; repeat match goal with K : _ /\ _ |- _ => destruct K end;
    repeat match goal with K : pw ?a ?b |- _ => first [match goal with _ : t_base b = t_base a |- _ => fail 2 end|pose proof (eq_sym (pw_base _ _ K))] end.
  all: try (repeat split; (congruence || eapply angles_pw; eassumption)).
  - assert (Tw : tw t t0) by (apply pw_tw; [assumption|congruence]). repeat split; [congruence|exact (levels_tw _ _ Tw H0)|tauto].
  - split; [congruence|]. destruct r as [|n r], r' as [|n' r']; try discriminate; [exact Logic.I|]. cbn [map] in Eb. injection Eb as E0 _. congruence.
  - split; [|tauto]. destruct H as [H|[H H']]; [left; congruence|right; split; [congruence|]]. intros ->. destruct c; try discriminate Hc. now apply H'.
  - split; [congruence|tauto].
  - assert (Tw : tw t t0) by (apply pw_tw; [assumption|congruence]). repeat split; [congruence|congruence|exact (levels_tw _ _ Tw H3)].
  - assert (Tw : tw t t0) by (apply pw_tw; [assumption|congruence]). destruct Tw as (_ & _ & Ts). split; congruence.
  - split; [destruct txt, txt0; try congruence; inversion Hr|]. destruct c; try contradiction. destruct c'; try discriminate Hc. injection Hc as ->. exact (section_types _ _ _ _ _ Hr Eb H0).
  - assert (Tw : tw t t0) by (apply pw_tw; [assumption|destruct H2; congruence]). split; [congruence|]. split; [destruct H2; [left|right]; congruence|exact (levels_tw _ _ Tw H3)].
Qed.
Lemma after_rel c c' s s' r R : follows c s = true -> proper c s r -> steprel s s' -> shape c = shape c' -> routes_fit (stc c') (rstep s' ++ R) = true ->
  follows c' s' = true /\ shape (after c s) = shape (after c' s') /\ routes_fit (stc (after c' s')) R = true.
Proof.
  intros F Hp Hr Hc Fit. destruct s, s'; cbn [steprel] in Hr; try contradiction; cbn [proper] in Hp; repeat match goal with K : _ /\ _ |- _ => destruct K end;
    repeat match goal with K : pw ?a ?b |- _ => first [match goal with _ : t_base b = t_base a |- _ => fail 2 end|pose proof (eq_sym (pw_base _ _ K))] end.
  all: try (match goal with K : Forall2 tw _ _ |- _ => destruct c as [| | | | | | | | |[]|[]| | |]; try discriminate F; destruct c' as [| | | | | | | | |[]|[]| | |]; try discriminate Hc; cbn [rstep] in Fit; cbn [stc] in Fit; rewrite texts_fit in Fit; now repeat split end).
  all: cbn [rstep tokens_of map app routes_fit] in Fit;
    repeat match goal with K : t_base ?b = t_base ?a, L : t_base ?a = ?X |- _ => rewrite L in K end;
    repeat match goal with K : t_base ?b = t_base ?a, L : t_base ?a = ?X \/ _ |- _ => destruct L as [L|L] end;
    repeat match goal with K : _ /\ _ |- _ => destruct K end;
    repeat match goal with K : t_base ?b = t_base ?a, L : t_base ?a = ?X |- _ => rewrite L in K end;
    repeat match goal with K : t_base ?b = ?X, L : context [match t_base ?b with _ => _ end] |- _ => rewrite K in L end.
  all: try (match goal with K : begins _ <> None |- _ => idtac end; assert (Tw : tw t t0) by (apply pw_tw; [assumption|congruence]); destruct Tw as (_ & _ & Ts); cbn [after]; rewrite <- Ts; destruct (begins (t_sub t)) as [kk|]; [|congruence]).
  all: unfold point_passed in Fit;
    destruct c as [| | | | | | |b|b|[]|[]|b| |]; try discriminate F; destruct c' as [| | | | | | |b'|b'|[]|[]|b'| |]; try discriminate Hc; try destruct b'; cbn [follows after shape stc negb] in *; try discriminate;
    repeat match goal with |- context [computed_point ?x] => destruct (computed_point x) end; try discriminate; repeat split; try assumption; try discriminate.
  exact (fit_less _ _ Fit).
Qed.
Lemma derives_rel : forall ss ss' c c', Forall2 steprel ss ss' -> derives c ss -> shape c = shape c' -> routes_fit (stc c') (ryield ss') = true -> derives c' ss'.
Proof.
  induction ss as [|s ss IH]; intros ss' c c' H D Hc Fit; inversion H as [|? s' ? ss1 Hs Hss]; subst; cbn [derives] in *.
  - destruct c, c'; try discriminate Hc; exact D.
  - destruct D as (F & Hp & D). rewrite ryield_cons in Fit. destruct (after_rel c c' s s' _ _ F Hp Hs Hc Fit) as (F' & Hc' & Fit'). split; [exact F'|].
    split; [|exact (IH _ _ _ Hss D Hc' Fit')]. apply (proper_rel c c' s s' _ _ Hp Hs Hc). now apply rels_bases.
Qed.
(** ** Records *)
Definition er_x (r : rrec) : rrec := set_r_name [] (set_r_sub F15_SB_UNKNOWN (set_r_lat (S754_zero false) (set_r_lon (S754_zero false) (set_r_llv false (er_leg r))))).
Definition nm (r q : rrec) : Prop := (r_name r = r_name q /\ r_sub r = r_sub q) \/
  exists t u, P t u /\ r_base r = F15_POINT /\ r_name r = t_text t /\ r_sub r = t_sub t /\ r_name q = t_text u /\ r_sub q = t_sub u.
Definition rr (r q : rrec) : Prop := er_x r = er_x q /\ nm r q.
Definition kr (k k' : core) : Prop := Forall2 rr (k_l k) (k_l k') /\ rr (k_p k) (k_p k').
Ltac xs p p' E :=
  destruct p as [n b1 e1 b2 sb al als sp sps br ru er0 sy ct cts la lo bg di lv], p' as [n' b1' e1' b2' sb' al' als' sp' sps' br' ru' er0' sy' ct' cts' la' lo' bg' di' lv'];
  unfold er_x, er_leg, er_brg, er_rec in E;
  cbn [r_name r_base r_sub r_alt r_alt_si r_speed r_speed_si r_break r_rules r_err r_stay r_cto r_cto_si r_lat r_lon r_brg r_dist r_llv set_r_brg set_r_dist set_r_name set_r_sub set_r_lat set_r_lon set_r_llv] in E;
  injection E; intros; subst.
Lemma rr_sa t u p q : tw t u -> rr p q -> rr (sa_eff t p) (sa_eff u q).
Proof. intros (T1 & T2 & T3) [E N]. unfold sa_eff. rewrite <- T3. destruct (sa_cut (t_sub t)); [|now split]. unfold sa_rec, text_to, text_from. rewrite <- T1. xs p q E. split; [reflexivity|exact N]. Qed.
Lemma rr_climb t u p q : tw t u -> rr p q -> rr (climb_eff t p) (climb_eff u q).
Proof.
  intros (T1 & T2 & T3) [E N]. unfold climb_eff, sap_eff, saa_eff. rewrite <- T2, <- T3. unfold sap_rec, saa_rec, text_to, text_from, text_mid. rewrite <- T1.
  destruct (t_base t); try (destruct (saa_cut (t_sub t)) as [[[x y] z]|]; [xs p q E; split; [reflexivity|exact N]|now split]); destruct (sap_cut (t_sub t)) as [[x y]|]; [xs p q E; split; [reflexivity|exact N]|now split].
Qed.
Lemma rr_vfr t u p q : tw t u -> rr p q -> rr (vfr_eff t p) (vfr_eff u q).
Proof.
  intros (T1 & T2 & T3) [E N]. unfold vfr_eff. rewrite <- T3. destruct (vfr_cut (t_sub t)); [|now split]. unfold vfr_rec, text_to. rewrite <- T1. xs p q E. destruct t as [tx ts te tb tsb], u as [ux us ue ub usb]. cbn [Tokenizer.t_base Tokenizer.t_sub Tokenizer.t_text] in *. subst.
  split; [reflexivity|left; split; reflexivity].
Qed.
Lemma rr_copy r r' p q : rr r r' -> rr p q -> rr (copy_perf r p) (copy_perf r' q).
Proof.
  intros [E _] [E' N]. unfold copy_perf. assert (Q : r_alt_si r = r_alt_si r' /\ r_alt r = r_alt r' /\ r_speed_si r = r_speed_si r' /\ r_speed r = r_speed r') by (xs r r' E; repeat split).
  destruct Q as (-> & -> & -> & ->). xs p q E'. split; [reflexivity|exact N].
Qed.
Lemma rr_carry t u p q : pw t u -> rr p q -> rr (carry p (tok_rec t)) (carry q (tok_rec u)).
Proof.
  intros T [E _]. xs p q E. destruct T as [(T1 & T2 & T3)|(T1 & T2 & _ & T4)].
  - destruct t as [tx ts te tb tsb], u as [ux us ue ub usb]. cbn [Tokenizer.t_base Tokenizer.t_sub Tokenizer.t_text] in *. subst. split; [reflexivity|left; split; reflexivity].
  - split; [|right; exists t, u; repeat split; assumption]. destruct t as [tx ts te tb tsb], u as [ux us ue ub usb]. cbn [Tokenizer.t_base Tokenizer.t_sub Tokenizer.t_text] in *. subst. reflexivity.
Qed.
Lemma rr_rules ru0 p q : rr p q -> rr (set_r_rules ru0 p) (set_r_rules ru0 q).
Proof. intros [E N]. xs p q E. split; [reflexivity|exact N]. Qed.
Lemma rr_texts : forall a b, Forall2 tw a b -> forall p q, rr p q -> rr (texts a p) (texts b q).
Proof.
  induction 1 as [|t u a b (T1 & _) _ IH]; intros p q H; [exact H|]. change (rr (texts a (append_break_text (t_text t) p)) (texts b (append_break_text (t_text u) q))). apply IH. rewrite <- T1. destruct H as [E N].
  unfold append_break_text. assert (r_break p = r_break q) as -> by (xs p q E; reflexivity). destruct (pstr_eqb (r_break q) []); xs p q E; (split; [reflexivity|exact N]).
Qed.
Lemma pt_same t p : er_x (pt_rec G t p) = er_x p /\ r_name (pt_rec G t p) = r_name p /\ r_sub (pt_rec G t p) = r_sub p /\ r_base (pt_rec G t p) = r_base p.
Proof. unfold pt_rec, move_bd. destruct p. destruct (t_sub t); repeat split. Qed.
Lemma rr_pt t u p q : rr p q -> rr (pt_rec G t p) (pt_rec G u q).
Proof.
  intros [E N]. destruct (pt_same t p) as (E1 & E2 & E3 & E4), (pt_same u q) as (K1 & K2 & K3 & K4). split; [congruence|]. unfold nm. rewrite E2, E3, E4, K2, K3. exact N.
Qed.
Lemma rr_brg p q p' q' : rr p q -> er_brg p = er_brg p' -> er_brg q = er_brg q' -> rr p' q'.
Proof.
  intros [E N] Ep Eq. assert (K : forall x y, er_brg x = er_brg y -> er_x x = er_x y /\ r_name x = r_name y /\ r_sub x = r_sub y /\ r_base x = r_base y).
  { intros x y H. destruct x, y. unfold er_brg in H. cbn in H. injection H. intros. subst. repeat split. }
  destruct (K _ _ Ep) as (A1 & A2 & A3 & A4), (K _ _ Eq) as (B1 & B2 & B3 & B4). split; [congruence|]. unfold nm. rewrite <- A2, <- A3, <- A4, <- B2, <- B3. exact N.
Qed.
Lemma rr_list : forall l m l' m', Forall2 rr l m -> map er_brg l' = map er_brg l -> map er_brg m' = map er_brg m -> Forall2 rr l' m'.
Proof.
  induction l as [|x l IH]; intros m l' m' H El Em; inversion H as [|? y ? m1 Hx Hm]; subst; destruct l' as [|x' l'], m' as [|y' m']; try discriminate; constructor.
  - apply (rr_brg x y); [exact Hx|symmetry; exact (f_equal (hd (er_brg x')) El)|symmetry; exact (f_equal (hd (er_brg y')) Em)].
  - apply (IH m1); [exact Hm|exact (f_equal (@tl _) El)|exact (f_equal (@tl _) Em)].
Qed.
Lemma kr_pt t u k k' : kr k k' -> kr (pt_k G t k) (pt_k G u k').
Proof. intros [H1 H2]. split; unfold pt_k; cbn [k_l k_p]; [|now apply rr_pt]. apply (rr_list _ _ _ _ H1); apply prev_brg. Qed.
Lemma kr_add j j' t u k k' : pw t u -> kr k k' -> kr (add_k j t k) (add_k j' u k').
Proof. intros T [H1 H2]. split; unfold add_k; cbn [k_l k_p]; [apply Forall2_app; [exact H1|constructor; [exact H2|constructor]]|now apply rr_carry]. Qed.
Lemma kr_with k k' p q : kr k k' -> rr p q -> kr (k_with k p) (k_with k' q).
Proof. intros [H _] R. now split. Qed.
Lemma kr_rule ru0 k k' : kr k k' -> kr (rule_k ru0 k) (rule_k ru0 k').
Proof. intro H. apply kr_with; [exact H|]. apply rr_rules, H. Qed.
Lemma kr_vfr j j' t u k k' : tw t u -> kr k k' -> kr (vfr_k j t k) (vfr_k j' u k').
Proof.
  intros T [H1 H2]. pose proof (rr_vfr _ _ _ _ T H2) as Rv. split; unfold vfr_k; cbn [k_l k_p]; [|exact Rv]. apply Forall2_app; [exact H1|]. constructor; [|constructor]. now apply rr_copy.
Qed.
Lemma kr_step c s r s' j j' k k' : proper c s r -> steprel s s' -> kr k k' -> kr (eff1 G j s k) (eff1 G j' s' k').
Proof.
  intros Hp Hr H. pose proof H as [_ H2]. destruct s, s'; cbn [steprel] in Hr; try contradiction; cbn [proper] in Hp; repeat match goal with K : _ /\ _ |- _ => destruct K end; cbn [eff1].
  - apply kr_with; [exact H|]. apply rr_sa; [apply pw_tw; [assumption|congruence]|exact H2].
  - apply kr_vfr; [apply pw_tw; [assumption|congruence]|exact H].
  - now apply kr_add.
  - now apply kr_rule, kr_add.
  - now apply kr_pt, kr_rule, kr_add.
  - now apply kr_add.
  - cbv zeta. pose proof (kr_add j j' _ _ _ _ Hr H) as K. apply kr_with; [exact K|]. destruct (pw_tw _ _ Hr ltac:(destruct Hp; congruence)) as (T & _). unfold sid_sub. rewrite <- T. destruct K as [_ K].
    destruct (pw_tw _ _ Hr ltac:(destruct Hp; congruence)) as (Tt & Tb & Ts). revert K. unfold add_k. cbn [k_p]. set (x := carry (k_p k) (tok_rec t)). assert (Ex : r_name x = t_text t) by reflexivity. set (y := carry (k_p k') (tok_rec t0)). assert (Ey : r_name y = t_text t0) by reflexivity.
    clearbody x y. intros [E _]. rewrite <- Tt in Ey. rewrite <- Ex in Ey. xs x y E. cbn in Ey. subst. split; [reflexivity|left; split; reflexivity].
  - cbv zeta. pose proof (kr_add j j' _ _ _ _ Hr H) as K. apply kr_with; [exact K|]. assert (Nb : t_base t <> F15_POINT) by (match goal with A : _ \/ _ |- _ => destruct A as [A|[A _]]; congruence end). destruct (pw_tw _ _ Hr Nb) as (Tt & Tb & Ts). unfold star_sub. rewrite <- Tt. destruct K as [_ K].
    revert K. unfold add_k. cbn [k_p]. set (x := carry (k_p k) (tok_rec t)). assert (Ex : r_name x = t_text t) by reflexivity. set (y := carry (k_p k') (tok_rec t0)). assert (Ey : r_name y = t_text t0) by reflexivity.
    clearbody x y. intros [E _]. rewrite <- Tt in Ey. rewrite <- Ex in Ey. xs x y E. cbn in Ey. subst. split; [reflexivity|left; split; reflexivity].
  - exact H.
  - apply kr_with; [exact H|]. apply rr_sa; [apply pw_tw; [assumption|congruence]|exact H2].
  - apply kr_vfr; [apply pw_tw; [assumption|congruence]|exact H].
  - assert (Tw : tw t t0) by (apply pw_tw; [assumption|congruence]). destruct Tw as (_ & _ & <-). now apply kr_rule, kr_add.
  - apply kr_with; [exact H|]. now apply rr_texts.
  - now apply kr_rule, kr_add.
  - now apply kr_pt, kr_add.
  - apply kr_with; [exact H|]. apply rr_climb; [|exact H2]. apply pw_tw; [assumption|]. match goal with A : _ \/ _ |- _ => destruct A; congruence end.
  - apply kr_with; [exact H|]. assert (Tw : tw tm tm0) by (apply pw_tw; [assumption|congruence]). destruct Tw as (<- & _). destruct H2 as [E N]. set (p := k_p k) in *. set (q := k_p k') in *. clearbody p q. xs p q E. split; [reflexivity|exact N].
Qed.
Lemma kr_steps : forall ss ss' c j j' k k', derives c ss -> Forall2 steprel ss ss' -> kr k k' -> kr (effs G j ss k) (effs G j' ss' k').
Proof.
  induction ss as [|s ss IH]; intros ss' c j j' k k' D H K; inversion H as [|? s' ? ss1 Hs Hss]; subst; [exact K|]. cbn [derives effs] in *. destruct D as (_ & Hp & D).
  apply (IH _ _ _ _ _ _ D Hss). exact (kr_step _ _ _ _ _ _ _ _ Hp Hs K).
Qed.
Lemma rr_recast r q : rr r q -> recast P r q.
Proof. intros [E N]. unfold recast. xs r q E. repeat split; exact N. Qed.
Lemma last_rr : forall l m d, Forall2 rr l m -> r_rules (last l d) = r_rules (last m d).
Proof.
  intros l m d H. induction H as [|x y l m Hx Hl IH]; [reflexivity|]. destruct Hl as [|x2 y2 l m Hx2 Hl]; [apply (rr_recast _ _ Hx)|exact IH].
Qed.
Lemma kr_final v k k' : kr k k' -> Forall2 rr (core_final v k) (core_final v k').
Proof.
  intros [H1 H2]. assert (Hc : Forall2 rr (core_recs v k) (core_recs v k')).
  { rewrite !core_recs_eq. assert (Hl : Forall2 rr (k_l k ++ [k_p k]) (k_l k' ++ [k_p k'])) by (apply Forall2_app; [exact H1|constructor; [exact H2|constructor]]).
    destruct v; [|exact Hl]. unfold upd_first. destruct Hl as [|x y l m Hx Hl]; [constructor|]. cbn [list_upd]. constructor; [now apply rr_rules|exact Hl]. }
  unfold core_final. apply Forall2_app; [exact Hc|]. constructor; [|constructor]. unfold ades_rec. rewrite (last_rr _ _ adep0 Hc). split; [reflexivity|left; split; reflexivity].
Qed.
Lemma recast_rules l m : Forall2 (recast P) l m -> map r_rules l = map r_rules m.
Proof. induction 1 as [|x y l m H _ IH]; [reflexivity|]. cbn [map]. f_equal; [apply H|exact IH]. Qed.
End G.

(** The elements of [g], each with the role of the one in its place. *)
Definition roles_taken (f g : pstr) : list (token * role) := combine (field_tokens g) (map snd (field_roles f)).
Lemma F2_place {A B} (R : A -> B -> Prop) l m : Forall2 R l m -> Forall2 (fun x y => R x y /\ exists n, nth_error l n = Some x /\ nth_error m n = Some y) l m.
Proof.
  intro H. assert (K : forall l0 m0 l m, Forall2 R l m -> length l0 = length m0 -> Forall2 (fun x y => R x y /\ exists n, nth_error (l0 ++ l) n = Some x /\ nth_error (m0 ++ m) n = Some y) l m).
  { clear. intros l0 m0 l m H. revert l0 m0. induction H as [|x y l m Hx _ IH]; intros l0 m0 E; constructor.
    - split; [exact Hx|]. exists (length l0). rewrite nth_error_app2, Nat.sub_diag by lia. split; [reflexivity|]. rewrite E, nth_error_app2, Nat.sub_diag by lia. reflexivity.
    - specialize (IH (l0 ++ [x]) (m0 ++ [y])). rewrite <- !app_assoc in IH. apply IH. rewrite !app_length. cbn [length]. lia. }
  exact (K [] [] l m H eq_refl).
Qed.
Lemma combine_fst_snd {A B} (l : list (A * B)) : combine (map fst l) (map snd l) = l.
Proof. induction l as [|[a b] l IH]; [reflexivity|]. cbn [map combine fst snd]. now rewrite IH. Qed.
Lemma recast_er P r q r' q' : recast P r q -> er_rec r' = er_rec r -> er_rec q' = er_rec q -> recast P r' q'.
Proof. intros H E E'. apply er_same in E, E'. unfold same_but_place, recast in *. decompose [and] E. decompose [and] E'. destruct H as (A1 & A2 & A3 & A4 & A5 & A6 & A7 & A8 & A9 & A10 & A11 & A12).
  assert (Q : forall X (a b c d : X), a = b -> c = d -> b = d -> a = c) by (intros; congruence).
  repeat (split; [solve [congruence]|]). destruct A12 as [[B1 B2]|(t & u & B1 & B2 & B3 & B4 & B5 & B6)]; [left; split; congruence|right; exists t, u; repeat split; congruence]. Qed.

Lemma points_instead0 (G : geodesic) depth depth' f s g : parse_field15 G depth f = Ok true s -> other_points f g -> routes_fit Else (roles_taken f g) = true -> 3 * n_tokens g <= depth' + 1 ->
  exists s', parse_field15 G depth' g = Ok true s' /\ Forall2 (recast (in_place_of f g)) (e_recs (s_ers s)) (e_recs (s_ers s')) /\
    e_errs (s_ers s) = [] /\ e_errs (s_ers s') = [] /\ e_rules (s_ers s) = e_rules (s_ers s').
Proof.
  intros H W Fit Hd. destruct (roles_steps G f depth s H) as (ss & D & Y & R & B & Es).
  set (P := in_place_of f g). assert (Yf : field_tokens f = map fst (field_roles f)) by (rewrite <- Y, R; clear; induction ss as [|x ss IH]; [reflexivity|]; now rewrite yield_cons, ryield_cons, map_app, rstep_fst, IH).
  assert (Wt : Forall2 (inst P) (ryield ss) (field_tokens g)).
  { rewrite <- R. assert (Bg : by_text (field_tokens g)) by apply by_text_field. assert (Bf : by_text (map fst (field_roles f))) by (rewrite <- Yf, <- Y; exact B).
    apply F2_place in W. assert (Ing : forall u, In u (field_tokens g) -> (t_base u, t_sub u) = classify (t_text u)) by exact Bg.
    assert (Cv : forall x u, (instead x u /\ exists n, nth_error (field_roles f) n = Some x /\ nth_error (field_tokens g) n = Some u) -> inst P x u).
    { intros x u (Hi & n & N1 & N2). destruct Hi as [Ht|Hi].
      - left. pose proof (Bg u (nth_error_In _ _ N2)) as K1. pose proof (Bf (fst x) (in_map fst _ _ (nth_error_In _ _ N1))) as K2. rewrite Ht, <- K1 in K2. injection K2 as K2 K3. split; [exact Ht|]. split; assumption.
      - right. destruct Hi as (A1 & A2 & A3 & A4). repeat split; try assumption. exists n. split; [|exact N2]. rewrite Yf, nth_error_map, N1. reflexivity. }
    clear -W Cv. induction W as [|x u l m Hx _ IH]; constructor; [now apply Cv|exact IH]. }
  destruct (steps_exist P ss _ Wt) as (ss' & Y' & Hs).
  assert (Er : roles_taken f g = ryield ss').
  { unfold roles_taken. rewrite R, (proj2 (rels_bases P _ _ Hs)), <- Y'. transitivity (combine (map fst (ryield ss')) (map snd (ryield ss'))); [|apply combine_fst_snd]. f_equal. clear. induction ss' as [|x ss IH]; [reflexivity|]. now rewrite yield_cons, ryield_cons, map_app, rstep_fst, IH. }
  rewrite Er in Fit. pose proof (derives_rel P ss ss' XStart XStart Hs D eq_refl Fit) as D'.
  destruct (parse_steps G depth' ss' g D') as (s' & Hp & E1 & E2 & E3); [rewrite Y'; apply by_text_field|rewrite Y'|exact Hd|].
  { apply et_map. }
  exists s'. split; [exact Hp|].
  assert (K0 : kr P core0 core0) by (split; [constructor|split; [reflexivity|left; split; reflexivity]]).
  pose proof (kr_steps G P ss ss' XStart 0 0 core0 core0 D Hs K0) as K. apply (kr_final P (is_vfr_first (yield ss))) in K.
  assert (Ev : is_vfr_first (yield ss) = is_vfr_first (yield ss')).
  { pose proof (proj1 (rels_bases P _ _ Hs)) as Q. destruct (yield ss) as [|a l], (yield ss') as [|b l']; try discriminate; [reflexivity|]. cbn [map] in Q. injection Q as Q _. cbn [is_vfr_first]. now rewrite Q. }
  fold (result_of G ss) in K. rewrite Ev in K. fold (result_of G ss') in K.
  assert (Rc : Forall2 (recast P) (result_of G ss) (result_of G ss')) by (clear -K; induction K as [|x y l m Hx _ IH]; constructor; [now apply rr_recast|exact IH]).
  rewrite Es. cbn [e_recs e_errs e_rules]. split; [|split; [reflexivity|split; [exact E2|]]].
  - clear -Rc E1. set (l := result_of G ss) in *. set (m := result_of G ss') in *. set (m' := e_recs (s_ers s')) in *. clearbody l m m'. revert m' E1. induction Rc as [|x y l m Hx _ IH]; intros [|z m'] E1; try discriminate; constructor.
    + apply (recast_er P x y); [exact Hx|reflexivity|exact (f_equal (hd (er_rec z)) E1)].
    + apply IH. exact (f_equal (@tl _) E1).
  - rewrite E3. apply derived_rules. exact (recast_rules P _ _ Rc).
Qed.
(** ** No other fields *)
Section C.
Variable P : token -> token -> Prop.
Lemma inst_base x u : inst P x u -> t_base (fst x) = t_base u.
Proof. intro H. exact (pw_base P _ _ (inst_pw P _ _ H)). Qed.
Lemma inst_bases w us : Forall2 (inst P) w us -> map t_base (map fst w) = map t_base us.
Proof. induction 1 as [|x u w us H _ IH]; [reflexivity|]. cbn [map]. now rewrite (inst_base _ _ H), IH. Qed.
Lemma inst_opens x u : inst P x u -> opens (fst x) = opens u.
Proof. unfold opens. intros [(_ & E & E')|(_ & E & E' & _)]; [now rewrite E, E'|now rewrite E, E']. Qed.
Lemma f2c {A B} (R : A -> B -> Prop) x l m : Forall2 R (x :: l) m -> exists u us, m = u :: us /\ R x u /\ Forall2 R l us.
Proof. intro H. inversion H; subst. eauto. Qed.
Lemma roled_C t r : t_base t = F15_C -> roled None (t :: r) =
  match r with
  | sl :: p :: r3 => if base_eqb (t_base sl) F15_SLASH then (t, ROut) :: (sl, ROut) :: (p, RClimb) :: roled None r3 else (t, ROut) :: roled None r
  | _ => (t, ROut) :: roled (opens t) r
  end.
Proof. intro E. change (match t_base t, r with F15_C, sl :: p :: r3 => if base_eqb (t_base sl) F15_SLASH then (t, ROut) :: (sl, ROut) :: (p, RClimb) :: roled None r3 else (t, ROut) :: roled None r | _, _ => (t, ROut) :: roled (opens t) r end = match r with
  | sl :: p :: r3 => if base_eqb (t_base sl) F15_SLASH then (t, ROut) :: (sl, ROut) :: (p, RClimb) :: roled None r3 else (t, ROut) :: roled None r
  | _ => (t, ROut) :: roled (opens t) r
  end). rewrite E. destruct r as [|sl [|p r3]]; reflexivity. Qed.
Lemma roled_same : forall n ts us o, length ts <= n -> Forall2 (inst P) (roled o ts) us -> map snd (roled o us) = map snd (roled o ts).
Proof.
  induction n as [|n IH]; intros ts us o Hn H.
  { destruct ts; [|cbn in Hn; lia]. cbn [roled] in H. inversion H. reflexivity. }
  destruct ts as [|t r]; [cbn [roled] in H; inversion H; reflexivity|]. cbn [length] in Hn.
  destruct o as [k|].
  - cbn [roled] in H. apply f2c in H as (u & us' & -> & H1 & H2). pose proof (inst_bases _ _ H2) as Eb. rewrite roles_fst in Eb. destruct H1 as [(E1 & E2 & E3)|(K & _)]; [|now destruct (K eq_refl)]. cbn [fst] in E1, E2, E3.
    assert (Ec : closes k u us' = closes k t r) by (unfold closes; rewrite E3, (resume_look k us' r) by (now rewrite Eb); reflexivity).
    cbn [roled map snd]. rewrite Ec. f_equal. apply IH; [lia|exact H2].
  - destruct (base_eqb (t_base t) F15_C) eqn:Ct.
    + apply base_eqb_eq in Ct. rewrite (roled_C _ _ Ct) in H. rewrite (roled_C _ _ Ct). destruct r as [|sl [|p r3]].
      * apply f2c in H as (u & us' & -> & H1 & H2). pose proof (inst_base _ _ H1) as Eb. cbn [fst] in Eb. inversion H2; subst. rewrite roled_C by congruence. reflexivity.
      * apply f2c in H as (u & us' & -> & H1 & H2). pose proof (inst_base _ _ H1) as Eb. pose proof (inst_opens _ _ H1) as Eo. pose proof (inst_bases _ _ H2) as Ebs. rewrite roles_fst in Ebs. cbn [fst] in *.
        destruct us' as [|u2 [|u3 us']]; try discriminate Ebs. rewrite roled_C by congruence. cbn [map snd]. f_equal. rewrite <- Eo. apply (IH [sl] [u2]); [cbn [length] in *; lia|exact H2].
      * destruct (base_eqb (t_base sl) F15_SLASH) eqn:Es.
        -- apply f2c in H as (u & us' & -> & H1 & H2). apply f2c in H2 as (u2 & us2 & -> & H3 & H4). apply f2c in H4 as (u3 & us3 & -> & H5 & H6).
           pose proof (inst_base _ _ H1) as Eb. pose proof (inst_base _ _ H3) as Eb2. cbn [fst] in *. rewrite roled_C by congruence. rewrite <- Eb2, Es. cbn [map snd]. do 3 f_equal. apply IH; [cbn [length] in Hn; lia|exact H6].
        -- apply f2c in H as (u & us' & -> & H1 & H2). pose proof (inst_base _ _ H1) as Eb. pose proof (inst_bases _ _ H2) as Ebs. rewrite roles_fst in Ebs. cbn [fst] in *.
           destruct us' as [|u2 [|u3 us']]; try discriminate Ebs. cbn [map] in Ebs. assert (Eb2 : t_base sl = t_base u2) by congruence.
           rewrite (roled_C u) by congruence. rewrite <- Eb2, Es. cbn [map snd]. f_equal. apply (IH (sl :: p :: r3) (u2 :: u3 :: us') None); [cbn [length] in *; lia|exact H2].
    + assert (El : forall x l, base_eqb (t_base x) F15_C = false -> roled None (x :: l) = (x, ROut) :: roled (opens x) l).
      { intros x l Hx. cbn [roled]. destruct (t_base x); try reflexivity. discriminate Hx. }
      rewrite (El _ _ Ct) in H. apply f2c in H as (u & us' & -> & H1 & H2). pose proof (inst_base _ _ H1) as Eb. pose proof (inst_opens _ _ H1) as Eo. cbn [fst] in *.
      rewrite (El t r Ct), (El u us') by (now rewrite <- Eb). cbn [map snd]. f_equal. rewrite <- Eo. apply IH; [lia|exact H2].
Qed.
End C.
Lemma fit_derives : forall ss c, derives c ss -> routes_fit (stc c) (ryield ss) = true /\ (c = XThenVfr -> forall p, routes_fit p (ryield ss) = true).
Proof.
  induction ss as [|s ss IH]; intros c D; [split; [reflexivity|intros; reflexivity]|]. cbn [derives] in D. destruct D as (F & Hp & D). destruct (IH _ D) as (I1 & I2). rewrite ryield_cons. split.
  - destruct s; cbn [proper] in Hp; repeat match goal with K : _ /\ _ |- _ => destruct K end; cbn [rstep tokens_of map app].
    all: try (destruct c as [| | | | | | | | |[]|[]| | |]; try discriminate F; cbn [stc]; rewrite texts_fit; exact I1).
    all: cbn [routes_fit]; repeat match goal with K : t_base ?b = ?X |- context [match t_base ?b with _ => _ end] => rewrite K end;
      repeat match goal with K : t_base ?b = _ \/ _ |- _ => destruct K as [K|K] end; repeat match goal with K : _ /\ _ |- _ => destruct K end;
      repeat match goal with K : t_base ?b = ?X |- context [match t_base ?b with _ => _ end] => rewrite K end.
    all: unfold point_passed; destruct c as [| | | | | | |b|b|[]|[]|b| |]; try discriminate F; try destruct b; cbn [follows after stc negb] in *; try discriminate;
      repeat match goal with |- context [computed_point ?x] => destruct (computed_point x) end; try discriminate; try exact I1; try (exact (I2 eq_refl _)).
    all: destruct (begins (t_sub t)) as [[]|]; try exact I1.
  - intros -> p. destruct s; try discriminate F. cbn [proper] in Hp. destruct Hp as (A & B). cbn [rstep tokens_of map app routes_fit]. rewrite A, B. exact I1.
Qed.
Lemma roles_taken_eq f g : other_points f g -> roles_taken f g = field_roles g.
Proof.
  intro W. unfold roles_taken. assert (Yf : forall x, field_tokens x = map fst (field_roles x)) by (intro x; symmetry; apply (roles_fst (field_tokens x) None)).
  assert (Wt : Forall2 (inst (fun _ _ => True)) (field_roles f) (field_tokens g)).
  { assert (Bg : by_text (field_tokens g)) by apply by_text_field. assert (Bf : by_text (map fst (field_roles f))) by (rewrite <- Yf; apply by_text_field).
    apply F2_place in W.
    assert (Cv : forall x u, (instead x u /\ exists n, nth_error (field_roles f) n = Some x /\ nth_error (field_tokens g) n = Some u) -> inst (fun _ _ => True) x u).
    { intros x u (Hi & n & N1 & N2). destruct Hi as [Ht|Hi].
      - left. pose proof (Bg u (nth_error_In _ _ N2)) as K1. pose proof (Bf (fst x) (in_map fst _ _ (nth_error_In _ _ N1))) as K2. rewrite Ht, <- K1 in K2. injection K2 as K2 K3. split; [exact Ht|]. split; assumption.
      - right. tauto. }
    clear -W Cv. induction W as [|x u l m Hx _ IH]; constructor; [now apply Cv|exact IH]. }
  unfold field_roles, roles in Wt. pose proof (roled_same _ _ _ _ None (le_n _) Wt) as Q. unfold field_roles at 1. unfold roles. rewrite <- Q. rewrite (Yf g) at 1. fold (roles (field_tokens g)). fold (field_roles g). apply combine_fst_snd.
Qed.
Theorem points_instead (G : geodesic) depth depth' f s g : parse_field15 G depth f = Ok true s -> other_points f g -> routes_fit Else (field_roles g) = true -> 3 * n_tokens g <= depth' + 1 ->
  exists s', parse_field15 G depth' g = Ok true s' /\ Forall2 (recast (in_place_of f g)) (e_recs (s_ers s)) (e_recs (s_ers s')) /\
    e_errs (s_ers s) = [] /\ e_errs (s_ers s') = [] /\ e_rules (s_ers s) = e_rules (s_ers s').
Proof. intros H W Fit. apply points_instead0 with depth; auto. now rewrite roles_taken_eq. Qed.
Theorem routes_always_fit (G : geodesic) depth g s : parse_field15 G depth g = Ok true s -> routes_fit Else (field_roles g) = true.
Proof. intro Hp. destruct (roles_steps G g depth s Hp) as (ss & D & Y & R & _ & _). rewrite R. exact (proj1 (fit_derives _ _ D)). Qed.
