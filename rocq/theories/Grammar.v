(** * Grammar: a run of the parser methods reports no error exactly when the remaining
    tokens form steps of SpecGrammar; its effect is the effect of those steps. *)
From Coq Require Import ZArith NArith List Bool String Lia.
From Coq Require Import ZifyBool ZifyNat ZifyN.
From Verif Require Import PyBase PyFloat Enums ErrorTable Regex SyntaxTable Syntax Tokenizer Ers Utils Parser.
From Verif Require Import TokenizerProofs SpecNum NumProofs ParserPrims PerfEq PointEq Trace ErrMono SpecParser SpecGrammar GrammarSem.
Import List ListNotations.
Local Open Scope list_scope.
Local Open Scope nat_scope.

(** ** Effects of steps *)
(** Records before the last, last record, and the token indices of the records. *)
Record core := mkK { k_l : list rrec; k_p : rrec; k_js : list nat }.
Definition k_with (k : core) (p : rrec) : core := mkK (k_l k) p (k_js k).
Definition sa_eff (t : token) (p : rrec) : rrec := match sa_cut (t_sub t) with Some a => sa_rec a t p | None => p end.
Definition sap_eff (t : token) (p : rrec) : rrec := match sap_cut (t_sub t) with Some (a, b) => sap_rec a b t p | None => p end.
Definition saa_eff (t : token) (p : rrec) : rrec := match saa_cut (t_sub t) with Some (a, b, c) => saa_rec a b c t p | None => p end.
Definition climb_eff (t : token) (p : rrec) : rrec :=
  match t_base t with F15_SPEED_ALTITUDE_PLUS => sap_eff t p | _ => saa_eff t p end.
Definition vfr_eff (t : token) (p : rrec) : rrec := match vfr_cut (t_sub t) with Some a => vfr_rec a t p | None => p end.
Definition add_k (j : nat) (t : token) (k : core) : core := mkK (k_l k ++ [k_p k]) (carry (k_p k) (tok_rec t)) (k_js k ++ [j]).
Definition rule_k (r : pstr) (k : core) : core := k_with k (set_r_rules r (k_p k)).
Definition vfr_k (j : nat) (t : token) (k : core) : core :=
  mkK (k_l k ++ [copy_perf (vfr_eff t (k_p k)) (k_p k)]) (vfr_eff t (k_p k)) (k_js k ++ [j]).
Definition kind_rule (k : kind) : pstr := match k with KVfr => RULE_V | KOat => RULE_O | KIfpstop => RULE_S end.
Definition break_rule (sb : sub_type) : pstr := match begins sb with Some k => kind_rule k | None => [] end.
Definition sid_sub (t : token) : sub_type := if pstr_eqb (t_text t) ($"SID") then F15_SB_SID_LITERAL else F15_SB_SID.
Definition star_sub (t : token) : sub_type := if pstr_eqb (t_text t) ($"STAR") then F15_SB_STAR_LITERAL else F15_SB_STAR.
Definition texts (txt : list token) (p : rrec) : rrec := fold_left (fun p t => append_break_text (t_text t) p) txt p.

Section G.
Variable G : geodesic.
Definition pt_k (t : token) (k : core) : core := mkK (pt_prev G t (k_l k) (k_p k)) (pt_rec G t (k_p k)) (k_js k).
(** The effect of a step whose first token has index [j]. *)
Definition eff1 (j : nat) (s : step) (k : core) : core :=
  match s with
  | SFirst t | SSpeed _ t => k_with k (sa_eff t (k_p k))
  | SFirstVfr t => vfr_k j t k
  | SVfr _ t => vfr_k (S j) t k
  | SDct t | SC t => add_k j t k
  | SRoute t | SRejoin t => rule_k RULE_I (add_k j t k)
  | SPoint t => pt_k t (rule_k RULE_I (add_k j t k))
  | SSid t => let k' := add_k j t k in k_with k' (retype F15_SID (sid_sub t) (k_p k'))
  | SStar t => let k' := add_k j t k in k_with k' (retype F15_STAR (star_sub t) (k_p k'))
  | STrunc _ => k
  | SBreak t => rule_k (break_rule (t_sub t)) (add_k j t k)
  | SText txt => k_with k (texts txt (k_p k))
  | SClimb _ _ t => pt_k t (add_k (S (S j)) t k)
  | SClimbTo _ t => k_with k (climb_eff t (k_p k))
  | SStay _ _ tm => k_with k (set_r_stay (stay_min (t_text tm)) (k_p k))
  end.
Fixpoint effs (j : nat) (ss : list step) (k : core) : core :=
  match ss with
  | [] => k
  | s :: r => effs (j + length (tokens_of s)) r (eff1 j s k)
  end.

(** ** Inversion of derivations *)
Definition main (c : ctx) : bool :=
  match c with XAdep | XDct | XRoute | XC | XSid | XStay | XPoint _ => true | _ => false end.
(** What a derivation from a main context says about its first token. *)
Definition head_case (c : ctx) (ss : list step) (t : token) (rest : list token) : Prop :=
  match t_base t with
  | F15_DCT => exists r, ss = SDct t :: r /\ derives XDct r /\ yield r = rest
  | F15_POINT => exists r, ss = SPoint t :: r /\ angles_ok t /\ derives (XPoint (computed_point (t_sub t))) r /\ yield r = rest
  | F15_ROUTE => exists r, ss = SRoute t :: r /\ derives XRoute r /\ yield r = rest
  | F15_SLASH => exists t2 rest2, rest = t2 :: rest2 /\
      ((exists r, ss = SSpeed t t2 :: r /\ t_base t2 = F15_SPEED_ALTITUDE /\ levels_ok t2 /\ derives c r /\ yield r = rest2) \/
       (exists r, ss = SVfr t t2 :: r /\ t_base t2 = F15_SPEED_VFR /\ derives (XText KVfr) r /\ yield r = rest2))
  | F15_BREAK_START => exists r k, ss = SBreak t :: r /\ begins (t_sub t) = Some k /\ derives (XText k) r /\ yield r = rest
  | F15_STAY => exists sl tm rest3 r, rest = sl :: tm :: rest3 /\ ss = SStay t sl tm :: r /\ t_base sl = F15_SLASH /\ t_base tm = F15_STAY_TIME /\
      derives XStay r /\ yield r = rest3
  | F15_TRUNCATE => ss = [STrunc t] /\ rest = []
  | F15_C =>
      (exists r, ss = SC t :: r /\ (match rest with nt :: _ => t_base nt <> F15_SLASH | [] => True end) /\ derives XC r /\ yield r = rest) \/
      (exists sl p rest3 r, rest = sl :: p :: rest3 /\ ss = SClimb t sl p :: r /\ t_base sl = F15_SLASH /\ angles_ok p /\
         derives (XClimb (computed_point (t_sub p))) r /\ yield r = rest3)
  | F15_SID => exists r, ss = SSid t :: r /\ derives XSid r /\ yield r = rest
  | F15_SID_STAR => (c = XAdep /\ exists r, ss = SSid t :: r /\ derives XSid r /\ yield r = rest) \/ (c <> XAdep /\ ss = [SStar t] /\ rest = [])
  | F15_STAR => ss = [SStar t] /\ rest = []
  | _ => False
  end.
Definition allowed (c : ctx) (t : token) : bool :=
  match t_base t with
  | F15_DCT => match c with XAdep | XC | XStay | XPoint _ => true | _ => false end
  | F15_POINT => match c with XRoute => negb (computed_point (t_sub t)) | _ => true end
  | F15_ROUTE => match c with XC | XSid | XStay => true | XPoint b => negb b | _ => false end
  | F15_SLASH => match c with XPoint _ => true | _ => false end
  | F15_BREAK_START => match c with XC | XStay | XPoint _ => true | _ => false end
  | F15_STAY => match c with XC | XPoint _ => true | _ => false end
  | F15_TRUNCATE => true
  | F15_C => match c with XDct | XRoute | XC | XStay | XPoint _ => true | _ => false end
  | F15_SID => match c with XAdep => true | _ => false end
  | F15_SID_STAR => match c with XDct | XRoute => false | _ => true end
  | F15_STAR => match c with XDct | XRoute => false | _ => true end
  | _ => false
  end.
Lemma head_inv c ss t rest : main c = true -> derives c ss -> yield ss = t :: rest -> allowed c t = true /\ head_case c ss t rest.
Proof.
  intros Hm D Y. destruct ss as [|s r]; [discriminate|]. cbn [derives] in D. destruct D as (F & P & D).
  unfold yield in Y. cbn [flat_map] in Y. fold (yield r) in Y.
  destruct c; try discriminate Hm; destruct s; try discriminate F; cbn [tokens_of app proper after follows] in *;
    injection Y; intros; subst; unfold head_case, allowed;
    repeat match goal with
    | H : _ /\ _ |- _ => destruct H
    | H : t_base ?t = _ |- context [t_base ?t] => rewrite H
    | H : _ \/ _ |- _ => destruct H
    end; subst;
    try (split; [reflexivity|]);
    try (match goal with H : XAdep <> XAdep |- _ => congruence end);
    try (match goal with H : yield ?r = [] |- _ => assert (r = []) as -> by
          (destruct r as [|s' r]; [reflexivity|]; exfalso; cbn [derives after] in D; destruct D as (F' & _); discriminate F') end).
all: try (match goal with |- context [begins ?x] => destruct (begins x) eqn:?; [|congruence] end).
all: try assumption.
all: try solve [repeat eexists; eauto].
all: try solve [left; repeat eexists; eauto; congruence].
all: try solve [right; repeat eexists; eauto; congruence].
all: try solve [do 2 eexists; split; [reflexivity|]; first [left; repeat eexists; eauto; fail|right; repeat eexists; eauto; fail]].
Qed.

(** ** Judgements *)
Definition ll_p (p : rrec) : bool := is_ll_or_bd (r_sub p).
Lemma ll_eq sb : is_ll_or_bd sb = computed_point sb.
Proof. destruct sb; reflexivity. Qed.
Definition kindof (rule : pstr) : kind := if pstr_eqb rule RULE_O then KOat else if pstr_eqb rule RULE_S then KIfpstop else KVfr.
Lemma kindof_rule k : kindof (kind_rule k) = k. Proof. destruct k; reflexivity. Qed.
Definition kof (x : cfg) : core := mkK (c_l x) (c_p x) (c_us x).

Section L.
Variable L : list token.
Variable ru : pstr.
Hypothesis HL : Forall wt L.

Definition CanR (c : ctx) (i : nat) : Prop := exists r, derives c r /\ yield r = skipn i L.
Definition done (k : core) (e : list rrec) (s : st) : Prop :=
  exists cur calls, length L <= S cur /\ s = st_of L ru (mkC cur (k_l k) (k_p k) e (k_js k) calls).
Definition GoodR (c : ctx) (i : nat) (k : core) (e : list rrec) (s : st) : Prop :=
  exists r, derives c r /\ yield r = skipn i L /\ done (effs i r k) e s.

(** What a call needs in order to report no error, and what it then leaves. *)
Definition tgt (c : call) (x : cfg) : Prop * ctx * nat * core :=
  let i := c_cur x in let k := kof x in
  match c with
  | CSpdAlt t => (levels_ok t, match c_l x with [] => XAdep | _ => XPoint (ll_p (c_p x)) end, S i, k_with k (sa_eff t (k_p k)))
  | CSpdAltAlt t | CSpdAltPlus t => (levels_ok t, XPoint (ll_p (c_p x)), S i, k_with k (climb_eff t (k_p k)))
  | CSpdVfr t => (True, XText KVfr, S i, vfr_k i t k)
  | CBreakStart t => (True, XText (kindof (break_rule (t_sub t))), S i, eff1 i (SBreak t) k)
  | CBreakText t => (True, XText (kindof (r_rules (c_p x))), i, k)
  | CCruiseC t | CSlash t | CPostPoint t | CStay t => (True, XPoint (ll_p (c_p x)), i, k)
  | CCruisePoint t => (angles_ok t, XClimb (computed_point (t_sub t)), S i, pt_k t (add_k i t k))
  | CDct t => (True, XDct, S i, eff1 i (SDct t) k)
  | CPostAdep t => (True, XAdep, i, k)
  | CPostSid => (True, XSid, S i, k)
  | CPoint t => (angles_ok t, XPoint (computed_point (t_sub t)), S i, eff1 i (SPoint t) k)
  | CRoute t => (True, XRoute, S i, eff1 i (SRoute t) k)
  | CSid t => (c_l x = [], XSid, S i, eff1 i (SSid t) k)
  | CSidStar t => match c_l x with
                  | [] => (True, XSid, S i, eff1 i (SSid t) k)
                  | _ => (skipn (S i) L = [], XEnd, S i, eff1 i (SStar t) k)
                  end
  | CStar t => (skipn (S i) L = [], XEnd, S i, eff1 i (SStar t) k)
  | CStayTime t => (True, XStay, S i, k_with k (set_r_stay (stay_min (t_text t)) (k_p k)))
  | CTruncate => (skipn (S i) L = [], XEnd, S i, k)
  | CVtoI | CVtoItoV => (True, XBreak KVfr, S i, k)
  | CErrSync _ _ | CReSync | CBreakEndError _ | CBreakEnd _ => (False, XEnd, i, k)
  end.
Definition can_t (T : Prop * ctx * nat * core) : Prop := let '(P, c, i, k) := T in P /\ CanR c i.
Definition good_t (T : Prop * ctx * nat * core) (e : list rrec) (s : st) : Prop := let '(P, c, i, k) := T in P /\ GoodR c i k e s.
Definition can (c : call) (x : cfg) : Prop :=
  match c with
  | CBreakEnd t =>
      let k := kindof (r_rules (c_p x)) in
      match resume k (skipn (S (c_cur x)) L) with Inside => True | Resumes => CanR (XBreak k) (S (c_cur x)) | Wrong => False end
  | _ => can_t (tgt c x)
  end.
Definition good (c : call) (x : cfg) (s : st) : Prop :=
  match c with
  | CBreakEnd t =>
      let k := kindof (r_rules (c_p x)) in
      match resume k (skipn (S (c_cur x)) L) with
      | Inside => exists calls, s = st_of L ru (mkC (c_cur x) (c_l x) (c_p x) (c_errs x) (c_us x) calls)
      | Resumes => GoodR (XBreak k) (S (c_cur x)) (kof x) (c_errs x) s
      | Wrong => False
      end
  | _ => good_t (tgt c x) (c_errs x) s
  end.
Definition prec (c : call) (x : cfg) : Prop :=
  match c with
  | CErrSync _ _ | CReSync | CBreakEndError _ => False
  | CSpdAlt t => nth_error L (c_cur x) = Some t /\ t_base t = F15_SPEED_ALTITUDE
  | CSpdAltAlt t => nth_error L (c_cur x) = Some t /\ t_base t = F15_SPEED_ALTITUDE_ALTITUDE /\ c_l x <> []
  | CSpdAltPlus t => nth_error L (c_cur x) = Some t /\ t_base t = F15_SPEED_ALTITUDE_PLUS /\ c_l x <> []
  | CSpdVfr t => nth_error L (c_cur x) = Some t /\ t_base t = F15_SPEED_VFR
  | CBreakEnd t => nth_error L (c_cur x) = Some t /\ ends (kindof (r_rules (c_p x))) (t_sub t) = true
  | CBreakStart t => nth_error L (c_cur x) = Some t /\ t_base t = F15_BREAK_START
  | CBreakText t => nth_error L (c_cur x) = Some t /\ exists k, r_rules (c_p x) = kind_rule k
  | CCruiseC t => nth_error L (c_cur x) = Some t /\ t_base t = F15_C
  | CCruisePoint t => nth_error L (c_cur x) = Some t
  | CDct t => nth_error L (c_cur x) = Some t /\ t_base t = F15_DCT
  | CSlash t => nth_error L (c_cur x) = Some t /\ t_base t = F15_SLASH /\ c_l x <> []
  | CPostAdep t => nth_error L (c_cur x) = Some t /\ c_l x = []
  | CPostPoint t => nth_error L (c_cur x) = Some t /\ c_l x <> []
  | CPostSid => c_l x <> []
  | CPoint t => nth_error L (c_cur x) = Some t /\ t_base t = F15_POINT
  | CRoute t => nth_error L (c_cur x) = Some t /\ t_base t = F15_ROUTE
  | CSid t => nth_error L (c_cur x) = Some t /\ t_base t = F15_SID
  | CSidStar t => nth_error L (c_cur x) = Some t /\ t_base t = F15_SID_STAR
  | CStar t => nth_error L (c_cur x) = Some t /\ t_base t = F15_STAR
  | CStay t => nth_error L (c_cur x) = Some t /\ t_base t = F15_STAY /\ c_l x <> []
  | CStayTime t => nth_error L (c_cur x) = Some t /\ t_base t = F15_STAY_TIME /\ c_l x <> []
  | CTruncate => True
  | CVtoI => exists t1 t2 t3 r, skipn (S (c_cur x)) L = t1 :: t2 :: t3 :: r /\
      t_base t1 = F15_POINT /\ t_base t2 = F15_SLASH /\ t_base t3 = F15_SPEED_ALTITUDE
  | CVtoItoV => exists t1 t2 t3 r, skipn (S (c_cur x)) L = t1 :: t2 :: t3 :: r /\
      t_base t1 = F15_POINT /\ t_base t2 = F15_SLASH /\ t_base t3 = F15_SPEED_VFR
  end.

Definition J (m : M unit) (x : cfg) (Can : Prop) (Good : st -> Prop) : Prop :=
  match m (st_of L ru x) with
  | Ok _ s => (errs_of s = c_errs x -> Good s) /\ (Can -> errs_of s = c_errs x)
  | Exn e _ => Can -> e = RecursionError
  end.
Lemma J_conseq m x (Can1 Can : Prop) (Good1 Good : st -> Prop) : J m x Can1 Good1 -> (Can -> Can1) -> (forall s, Good1 s -> Good s) -> J m x Can Good.
Proof. unfold J. destruct (m _) as [a s|e s]; intros H K1 K2; [destruct H; split; auto|auto]. Qed.
Lemma J_ret x (Can : Prop) (Good : st -> Prop) : Good (st_of L ru x) -> J (ret tt) x Can Good.
Proof. intro H. unfold J, ret. split; [auto|reflexivity]. Qed.
Lemma J_end m x y (Can : Prop) (Good : st -> Prop) : m (st_of L ru x) = Ok tt (st_of L ru y) -> c_errs y = c_errs x -> Good (st_of L ru y) -> J m x Can Good.
Proof. intros H E K. unfold J. rewrite H. split; [auto|intros; exact E]. Qed.
Lemma J_step {A} (m : M A) f x a y Can Good : m (st_of L ru x) = Ok a (st_of L ru y) -> c_errs y = c_errs x -> J (f a) y Can Good -> J (bind m f) x Can Good.
Proof. intros H E K. unfold J in *. rewrite (bind_ok _ _ _ _ _ H). now rewrite E in K. Qed.
Lemma J_rw (m m' : M unit) x cur l p us k es (Can : Prop) Good :
  m (st_of L ru x) = m' (st_of L ru (mkC cur l p (c_errs x ++ es) us k)) -> mono m' ->
  (Can -> es = []) -> (es = [] -> J m' (mkC cur l p (c_errs x) us k) Can Good) -> J m x Can Good.
Proof.
  intros H Mo Hc K. unfold J. rewrite H. destruct es as [|e es].
  - rewrite app_nil_r. exact (K eq_refl).
  - pose proof (Mo (st_of L ru (mkC cur l p (c_errs x ++ e :: es) us k))) as [f Ef].
    destruct (m' _) as [a s|ex s]; [|intro C; apply Hc in C; discriminate]. split; [|intro C; apply Hc in C; discriminate].
    intro E. exfalso. cbn [st_out] in Ef. unfold errs_of, st_of, stt in Ef, E. cbn [s_ers e_errs c_errs] in Ef, E. rewrite E in Ef.
    rewrite <- app_assoc in Ef. rewrite <- (app_nil_r (c_errs x)) in Ef at 1. apply app_inv_head in Ef. discriminate.
Qed.
Lemma J_bind_errs {A} (m : M A) (f : A -> M unit) x a cur l p us k es (Can : Prop) Good :
  m (st_of L ru x) = Ok a (st_of L ru (mkC cur l p (c_errs x ++ es) us k)) -> mono (f a) ->
  (Can -> es = []) -> (es = [] -> J (f a) (mkC cur l p (c_errs x) us k) Can Good) -> J (bind m f) x Can Good.
Proof. intros H Mo Hc K. eapply (J_rw _ (f a)); eauto. apply bind_ok. exact H. Qed.

(** An error followed by anything. *)
Lemma errsync_grows d t m s : defined_error m = true ->
  match run G d (CErrSync t m) s with
  | Ok _ s' => exists e, errs_of s' = errs_of s ++ e /\ e <> []
  | Exn _ _ => True
  end.
Proof.
  intro D. destruct d as [|d]; [exact I|]. cbn [run]. unfold bind at 1. cbn [tick]. cbn [body]. unfold b_add_error_and_re_sync, defined_error in *.
  unfold add_error_no_re_sync. destruct (error_message m) as [mm|]; [|discriminate]. unfold bind at 1 2. cbn [opt_or ret ers_mod].
  match goal with |- context [run G d CReSync ?z] => pose proof (mono_run G d CReSync z) as [f Ef]; destruct (run G d CReSync z) as [a s'|e s'] end; [|exact I].
  cbn [st_out] in Ef. rewrite Ef. unfold errs_of. cbn [s_ers e_errs add_error]. rewrite <- app_assoc. eexists. split; [reflexivity|]. discriminate.
Qed.
Lemma J_err_then d t m (f : unit -> M unit) x (Can : Prop) Good : defined_error m = true -> ~ Can -> (forall a, mono (f a)) -> J (bind (run G d (CErrSync t m)) f) x Can Good.
Proof.
  intros D NC Mo. unfold J, bind. pose proof (errsync_grows d t m (st_of L ru x) D) as H.
  destruct (run G d (CErrSync t m) (st_of L ru x)) as [a s|e s]; [|intro; contradiction].
  destruct H as (e & E & Ne). specialize (Mo a s). destruct (f a s) as [b s'|ex s']; [|intro; contradiction].
  split; [|intro; contradiction]. intro Q. destruct Mo as [g Eg]. cbn [st_out] in Eg. exfalso.
  change (c_errs x) with (errs_of (st_of L ru x)) in Q. rewrite Q, E, <- app_assoc in Eg. rewrite <- (app_nil_r (errs_of _)) in Eg at 1.
  apply app_inv_head in Eg. symmetry in Eg. apply app_eq_nil in Eg as [Eg _]. contradiction.
Qed.
Lemma J_err d t m x (Can : Prop) Good : defined_error m = true -> ~ Can -> J (run G d (CErrSync t m)) x Can Good.
Proof.
  intros D NC. unfold J. pose proof (errsync_grows d t m (st_of L ru x) D) as H.
  destruct (run G d (CErrSync t m) (st_of L ru x)) as [a s|e s]; [|intro; contradiction]. destruct H as (e & E & Ne).
  split; [|intro; contradiction]. intro Q. exfalso. change (c_errs x) with (errs_of (st_of L ru x)) in Q. rewrite Q in E.
  rewrite <- (app_nil_r (errs_of _)) in E at 1. apply app_inv_head in E. congruence.
Qed.
Lemma J_call (m : M unit) (f : unit -> M unit) x (Can1 Can : Prop) (Good1 Good : st -> Prop) :
  J m x Can1 Good1 -> mono m -> (forall a, mono (f a)) -> (Can -> Can1) ->
  (forall s, Good1 s -> exists y, s = st_of L ru y /\ c_errs y = c_errs x /\ J (f tt) y Can Good) -> J (bind m f) x Can Good.
Proof.
  intros H Mm Mf K1 K2. unfold J in *. unfold bind. specialize (Mm (st_of L ru x)).
  destruct (m (st_of L ru x)) as [[] s|e s]; [|auto]. destruct H as [H1 H2]. specialize (Mf tt s).
  change (c_errs x) with (errs_of (st_of L ru x)) in *. cbn [st_out] in *.
  assert (Q : errs_of s = errs_of (st_of L ru x) -> match f tt s with Ok _ s' => (errs_of s' = errs_of (st_of L ru x) -> Good s') /\ (Can -> errs_of s' = errs_of (st_of L ru x)) | Exn e _ => Can -> e = RecursionError end).
  { intro E. destruct (K2 s (H1 E)) as (y & -> & Ey & Hy). change (c_errs y) with (errs_of (st_of L ru y)) in *. rewrite Ey in Hy. exact Hy. }
  destruct (f tt s) as [a s'|e s'].
  - split.
    + intro E. destruct (grows_sandwich _ _ _ Mm Mf E) as [E1 _]. now apply Q.
    + intro C. apply Q; auto.
  - intro C. apply Q; auto.
Qed.
Lemma J_next (f : option token -> M unit) x Can Good :
  (forall t, nth_error L (S (c_cur x)) = Some t -> J (f (Some t)) (nextc x) Can Good) ->
  (length L <= S (c_cur x) -> J (f None) (nextc x) Can Good) -> J (bind tok_next f) x Can Good.
Proof.
  intros H1 H2. eapply J_step; [apply tok_next_st|reflexivity|].
  destruct (nth_error L (S (c_cur x))) as [t|] eqn:En; [now apply H1|]. apply H2. now apply nth_error_None in En.
Qed.
Lemma J_nor (k : token -> M unit) x Can (Good : st -> Prop) :
  (forall t, nth_error L (S (c_cur x)) = Some t -> J (k t) (nextc x) Can Good) ->
  (length L <= S (c_cur x) -> Good (st_of L ru (nextc x))) -> J (next_or_return k) x Can Good.
Proof. intros H1 H2. unfold next_or_return. apply J_next; [exact H1|]. intro K. apply J_ret. auto. Qed.
Lemma J_rec (f : option nat -> M unit) x j t Can Good :
  J (f (Some (length (c_l (recc x j t))))) (recc x j t) Can Good -> J (bind (add_record t) f) x Can Good.
Proof. intro K. eapply (J_step _ _ x _ (recc x j t)); [apply add_record_eq|reflexivity|exact K]. Qed.
Lemma J_last (f : option nat -> M unit) x Can Good : J (f (Some (length (c_l x)))) x Can Good -> J (bind last_elem f) x Can Good.
Proof. intro K. eapply (J_step _ _ x _ x); [apply last_elem_eq|reflexivity|exact K]. Qed.
Lemma J_deref {C} (f : C -> M unit) x a Can Good : J (f a) x Can Good -> J (bind (deref (Some a)) f) x Can Good.
Proof. intro K. eapply (J_step _ _ x _ x); [reflexivity|reflexivity|exact K]. Qed.
Lemma J_retb {C} (f : C -> M unit) x a Can Good : J (f a) x Can Good -> J (bind (ret a) f) x Can Good.
Proof. intro K. eapply (J_step _ _ x _ x); [reflexivity|reflexivity|exact K]. Qed.
Lemma J_rdl (f : rrec -> M unit) x i Can Good : i = length (c_l x) -> J (f (c_p x)) x Can Good -> J (bind (rd i) f) x Can Good.
Proof. intros -> K. eapply (J_step _ _ x _ x); [apply rd_last_eq|reflexivity|exact K]. Qed.
Lemma J_updl (f : unit -> M unit) x i g Can Good : i = length (c_l x) -> J (f tt) (with_p x (g (c_p x))) Can Good -> J (bind (upd i g) f) x Can Good.
Proof. intros -> K. eapply (J_step _ _ x _ (with_p x (g (c_p x)))); [apply upd_last_eq|reflexivity|exact K]. Qed.
Lemma J_updl_end x i g Can (Good : st -> Prop) : i = length (c_l x) -> Good (st_of L ru (with_p x (g (c_p x)))) -> J (upd i g) x Can Good.
Proof. intros -> K. eapply (J_end _ x (with_p x (g (c_p x)))); [apply upd_last_eq|reflexivity|exact K]. Qed.
Lemma J_nel (f : Z -> M unit) x Can Good : J (f (Z.of_nat (length (c_l x)) + 1)%Z) x Can Good -> J (bind n_elems f) x Can Good.
Proof. intro K. eapply (J_step _ _ x _ x); [apply n_elems_eq|reflexivity|exact K]. Qed.
Lemma J_peek (f : option token -> M unit) x k Can Good : J (f (nth_error L (c_cur x + k))) x Can Good -> J (bind (tok_peek (Z.of_nat k)) f) x Can Good.
Proof. intro K. eapply (J_step _ _ x _ x); [apply tok_peek_st|reflexivity|exact K]. Qed.

(** ** Tokens and derivations *)
Lemma skipn_nth i t : nth_error L i = Some t -> skipn i L = t :: skipn (S i) L.
Proof. intro H. revert i H. clear. induction L as [|a l IH]; intros [|i] H; try discriminate; [now injection H as ->|]. cbn [skipn]. apply IH. exact H. Qed.
Lemma skipn_end i : length L <= i -> skipn i L = [].
Proof. apply skipn_all2. Qed.
Lemma nth_wt i t : nth_error L i = Some t -> wt t.
Proof. intro H. apply nth_error_In in H. rewrite Forall_forall in HL. now apply HL. Qed.
Lemma yield_nil r c : derives c r -> yield r = [] -> r = [].
Proof.
  destruct r as [|s r]; [reflexivity|]. intros (F & P & D) Y. exfalso. unfold yield in Y. cbn [flat_map] in Y. apply app_eq_nil in Y as [Y _].
  destruct s; cbn [tokens_of] in Y; try discriminate. destruct P as [P _]. contradiction.
Qed.
Lemma effs_1 i s t r k : tokens_of s = [t] -> effs i (s :: r) k = effs (S i) r (eff1 i s k).
Proof. intro H. cbn [effs]. rewrite H. cbn [length]. now rewrite Nat.add_1_r. Qed.
Lemma effs_2 i s t u r k : tokens_of s = [t; u] -> effs i (s :: r) k = effs (S (S i)) r (eff1 i s k).
Proof. intro H. cbn [effs]. rewrite H. cbn [length]. f_equal. lia. Qed.
Lemma effs_3 i s t u v r k : tokens_of s = [t; u; v] -> effs i (s :: r) k = effs (S (S (S i))) r (eff1 i s k).
Proof. intro H. cbn [effs]. rewrite H. cbn [length]. f_equal. lia. Qed.
Lemma yield_cons s r : yield (s :: r) = tokens_of s ++ yield r.
Proof. reflexivity. Qed.

Lemma good_end c i k e x : may_end c = true -> length L <= i -> k = kof x -> e = c_errs x -> length L <= S (c_cur x) -> GoodR c i k e (st_of L ru x).
Proof.
  intros Hm Hi -> -> Hx. exists []. split; [exact Hm|]. split; [now rewrite skipn_end|]. exists (c_cur x), (c_k x). split; [exact Hx|]. destruct x; reflexivity.
Qed.
Lemma can_end c i : may_end c = true -> length L <= i -> CanR c i.
Proof. intros Hm Hi. exists []. split; [exact Hm|]. now rewrite skipn_end. Qed.

Lemma good_cons1 c s t i k e z : tokens_of s = [t] -> nth_error L i = Some t -> follows c s = true -> proper c s (skipn (S i) L) ->
  GoodR (after c s) (S i) (eff1 i s k) e z -> GoodR c i k e z.
Proof.
  intros T N F P (r & D & Y & Dn). exists (s :: r). cbn [derives]. rewrite yield_cons, T, Y, (skipn_nth _ _ N). split; [auto|]. split; [reflexivity|].
  now rewrite (effs_1 i s t r k T).
Qed.
Lemma good_cons2 c s t u i k e z : tokens_of s = [t; u] -> nth_error L i = Some t -> nth_error L (S i) = Some u -> follows c s = true -> proper c s (skipn (S (S i)) L) ->
  GoodR (after c s) (S (S i)) (eff1 i s k) e z -> GoodR c i k e z.
Proof.
  intros T N N2 F P (r & D & Y & Dn). exists (s :: r). cbn [derives]. rewrite yield_cons, T, Y, (skipn_nth _ _ N), (skipn_nth _ _ N2). split; [auto|]. split; [reflexivity|].
  now rewrite (effs_2 i s t u r k T).
Qed.
Lemma good_cons3 c s t u v i k e z : tokens_of s = [t; u; v] -> nth_error L i = Some t -> nth_error L (S i) = Some u -> nth_error L (S (S i)) = Some v ->
  follows c s = true -> proper c s (skipn (S (S (S i))) L) -> GoodR (after c s) (S (S (S i))) (eff1 i s k) e z -> GoodR c i k e z.
Proof.
  intros T N N2 N3 F P (r & D & Y & Dn). exists (s :: r). cbn [derives]. rewrite yield_cons, T, Y, (skipn_nth _ _ N), (skipn_nth _ _ N2), (skipn_nth _ _ N3).
  split; [auto|]. split; [reflexivity|]. now rewrite (effs_3 i s t u v r k T).
Qed.
Lemma can_head c i t : main c = true -> nth_error L i = Some t -> CanR c i ->
  allowed c t = true /\ exists ss, derives c ss /\ yield ss = t :: skipn (S i) L /\ head_case c ss t (skipn (S i) L).
Proof.
  intros Hm N (ss & D & Y). rewrite (skipn_nth _ _ N) in Y. destruct (head_inv c ss t _ Hm D Y) as [A H]. split; [exact A|]. exists ss. auto.
Qed.
Lemma not_can c i t : main c = true -> nth_error L i = Some t -> allowed c t = false -> ~ CanR c i.
Proof. intros Hm N A C. destruct (can_head c i t Hm N C) as [A' _]. congruence. Qed.
Lemma good_head c i t k e z : main c = true -> nth_error L i = Some t -> GoodR c i k e z ->
  allowed c t = true /\ exists ss, derives c ss /\ yield ss = t :: skipn (S i) L /\ done (effs i ss k) e z /\ head_case c ss t (skipn (S i) L).
Proof.
  intros Hm N (ss & D & Y & Dn). pose proof Y as Y'. rewrite (skipn_nth _ _ N) in Y'. destruct (head_inv c ss t _ Hm D Y') as [A H]. split; [exact A|]. exists ss. auto.
Qed.

Section Step.
Variable d : nat.
Hypothesis IH : forall c x, prec c x -> J (run G d c) x (can c x) (good c x).

Lemma bs_begins t : wt t -> t_base t = F15_BREAK_START -> exists k, begins (t_sub t) = Some k.
Proof.
  intros W B. assert (R : all_rows F15_BREAK_START (fun sb _ => match begins sb with Some _ => true | None => false end) = true) by (vm_compute; reflexivity).
  destruct (all_rows_spec F15_BREAK_START _ t ltac:(discriminate) ltac:(discriminate) W B R) as (sh & Hs & K). destruct (begins (t_sub t)); [eauto|discriminate].
Qed.
Lemma be_sub t : wt t -> t_base t = F15_BREAK_END -> In (t_sub t) [F15_SB_IFR; F15_SB_GAT; F15_SB_IFPSTART].
Proof.
  intros W B. assert (R : all_rows F15_BREAK_END (fun sb _ => match sb with F15_SB_IFR | F15_SB_GAT | F15_SB_IFPSTART => true | _ => false end) = true) by (vm_compute; reflexivity).
  destruct (all_rows_spec F15_BREAK_END _ t ltac:(discriminate) ltac:(discriminate) W B R) as (sh & Hs & K). destruct (t_sub t); try discriminate; cbn; auto.
Qed.
Lemma J_bee t x (Can : Prop) Good : wt t -> t_base t = F15_BREAK_END -> ~ Can -> J (run G d (CBreakEndError t)) x Can Good.
Proof.
  intros W B NC. pose proof (be_sub t W B) as S. destruct d as [|d']; [intro C; contradiction|]. cbn [run].
  eapply (J_step _ _ x tt (tickc x)); [apply tick_eq|reflexivity|]. cbn [body]. unfold b_break_end_error.
  destruct S as [<-|[<-|[<-|[]]]]; cbn [sub_eqb]; (apply J_err; [reflexivity|exact NC]).
Qed.
Definition disp (t : token) : option call :=
  match t_base t with
  | F15_DCT => Some (CDct t) | F15_POINT => Some (CPoint t) | F15_ROUTE => Some (CRoute t) | F15_SLASH => Some (CSlash t)
  | F15_BREAK_START => Some (CBreakStart t) | F15_STAY => Some (CStay t) | F15_TRUNCATE => Some CTruncate | F15_C => Some (CCruiseC t)
  | F15_SID => Some (CSid t) | F15_SID_STAR => Some (CSidStar t) | F15_STAR => Some (CStar t)
  | _ => None
  end.
Lemma xend_nil r : derives XEnd r -> r = [].
Proof. destruct r as [|s r]; [reflexivity|]. intros (F & _). destruct s; discriminate. Qed.
Lemma J_disp c t c' x : main c = true -> nth_error L (c_cur x) = Some t -> (c = XAdep <-> c_l x = []) -> (forall b, c = XPoint b -> b = ll_p (c_p x)) ->
  disp t = Some c' -> (allowed c t = true \/ t_base t = F15_SID) ->
  J (run G d c') x (CanR c (c_cur x)) (GoodR c (c_cur x) (kof x) (c_errs x)).
Proof.
  intros Hm N Hl Hb Hd Ha. pose proof (nth_wt _ _ N) as W.
  assert (Hc : prec c' x).
  { unfold disp in Hd. unfold allowed in Ha. destruct (t_base t) eqn:Eb; try discriminate Hd; injection Hd as <-; cbn [prec]; auto.
    - split; [auto|]. split; [auto|]. intro K. apply Hl in K. subst c. destruct Ha; discriminate.
    - split; [auto|]. split; [auto|]. intro K. apply Hl in K. subst c. destruct Ha; discriminate. }
  assert (Ha' : allowed c t = false -> t_base t = F15_SID /\ c_l x <> []).
  { intro F. destruct Ha as [Ha|Ha]; [congruence|]. split; [exact Ha|]. intro K. apply Hl in K. subst c. unfold allowed in F. rewrite Ha in F. discriminate. }
  eapply J_conseq; [exact (IH c' x Hc)| |].
  - intro C. destruct (can_head c _ t Hm N C) as (A & ss & D & Y & H). clear Ha'. unfold head_case in H. unfold disp in Hd.
    destruct (t_base t) eqn:Eb; try discriminate Hd; injection Hd as <-; cbn [can can_t tgt].
    + destruct c; try discriminate; try (unfold allowed in A; rewrite Eb in A; discriminate). rewrite <- (Hb _ eq_refl). split; [exact I|exact C].
    + destruct H as (r & k & -> & Hk & Dr & Yr). split; [exact I|]. exists r. unfold break_rule. rewrite Hk, kindof_rule. auto.
    + destruct H as (r & -> & Dr & Yr). split; [exact I|]. exists r. auto.
    + destruct H as (sl & tm & rest3 & r & Hr & -> & B1 & B2 & Dr & Yr). split; [exact I|]. exists (SStay t sl tm :: r). split.
      * cbn [derives follows proper after]. auto.
      * rewrite yield_cons, Yr, (skipn_nth _ _ N), Hr. reflexivity.
    + destruct H as (-> & Hr). split; [exact Hr|]. exists []. rewrite Hr. split; reflexivity.
    + split; [exact I|]. destruct H as [(r & -> & Hn & Dr & Yr)|(sl & p & rest3 & r & Hr & -> & B1 & An & Dr & Yr)].
      * exists (SC t :: r). split; [cbn [derives follows proper after]; rewrite Yr; auto|]. now rewrite yield_cons, Yr, (skipn_nth _ _ N).
      * exists (SClimb t sl p :: r). split; [cbn [derives follows proper after]; auto|]. now rewrite yield_cons, Yr, (skipn_nth _ _ N), Hr.
    + destruct H as (r & -> & An & Dr & Yr). split; [exact An|]. exists r. auto.
    + destruct H as (r & -> & Dr & Yr). split; [exact I|]. exists r. auto.
    + destruct H as [(-> & r & -> & Dr & Yr)|(Hc' & -> & Hr)].
      * destruct Hl as [Hl _]. rewrite (Hl eq_refl). cbn. split; [exact I|]. exists r. auto.
      * destruct (c_l x) eqn:El; [exfalso; apply Hc'; now apply Hl|]. cbn. split; [exact Hr|]. exists []. rewrite Hr. split; reflexivity.
    + destruct H as (r & -> & Dr & Yr). split; [|exists r; auto]. apply Hl. destruct c; try discriminate Hm; unfold allowed in A; rewrite Eb in A; try discriminate. reflexivity.
    + destruct H as (-> & Hr). split; [exact Hr|]. exists []. rewrite Hr. split; reflexivity.
  - intros z Gd. unfold disp in Hd. assert (Fo : t_base t <> F15_SID -> allowed c t = true) by (intro; destruct (allowed c t); [reflexivity|destruct (Ha' eq_refl); contradiction]).
    unfold allowed in Fo.
    destruct (t_base t) eqn:Eb; try discriminate Hd; injection Hd as <-; cbn [good good_t tgt] in Gd; try specialize (Fo ltac:(discriminate)).
    + destruct c; try discriminate. rewrite <- (Hb _ eq_refl) in Gd. exact (proj2 Gd).
    + destruct Gd as [_ Gd]. destruct (bs_begins t W Eb) as [k Hk]. eapply (good_cons1 c (SBreak t)); [reflexivity|exact N|destruct c; try discriminate; reflexivity|cbn; rewrite Hk; split; [assumption|discriminate]|].
      cbn [after]. unfold break_rule in Gd. rewrite Hk in *. rewrite kindof_rule in Gd. exact Gd.
    + eapply (good_cons1 c (SDct t)); [reflexivity|exact N|destruct c; try discriminate; reflexivity|exact Eb|exact (proj2 Gd)].
    + destruct Gd as [_ Gd]. destruct (good_head (XPoint (ll_p (c_p x))) _ t _ _ _ eq_refl N Gd) as (_ & ss & D & Y & Dn & H). unfold head_case in H. rewrite Eb in H.
      destruct H as (sl & tm & rest3 & r & Hr & -> & B1 & B2 & Dr & Yr). exists (SStay t sl tm :: r). split; [|split; [now rewrite Y, (skipn_nth _ _ N)|exact Dn]].
      destruct c; try discriminate; cbn [derives follows proper after]; auto.
    + destruct Gd as [Hr (r & D & Y & Dn)]. apply xend_nil in D. subst r. exists [STrunc t]. split; [destruct c; try discriminate; cbn; auto|].
      split; [rewrite (skipn_nth _ _ N), Hr; reflexivity|exact Dn].
    + destruct Gd as [_ Gd]. destruct (good_head (XPoint (ll_p (c_p x))) _ t _ _ _ eq_refl N Gd) as (_ & ss & D & Y & Dn & H). unfold head_case in H. rewrite Eb in H.
      exists ss. split; [|split; [now rewrite Y, (skipn_nth _ _ N)|exact Dn]].
      destruct H as [(r & -> & Hn & Dr & Yr)|(sl & p & rest3 & r & Hr & -> & B1 & An & Dr & Yr)]; destruct c; try discriminate; cbn [derives follows proper after]; rewrite ?Yr; auto.
    + eapply (good_cons1 c (SPoint t)); [reflexivity|exact N|destruct c; try discriminate; try reflexivity; exact Fo|exact (conj Eb (proj1 Gd))|].
      destruct c; try discriminate; exact (proj2 Gd).
    + eapply (good_cons1 c (SRoute t)); [reflexivity|exact N|destruct c; try discriminate; try reflexivity; exact Fo|exact Eb|exact (proj2 Gd)].
    + destruct (c_l x) as [|a l] eqn:El; cbv beta iota zeta delta [good_t] in Gd.
      * assert (c = XAdep) as -> by now apply Hl. eapply (good_cons1 XAdep (SSid t)); [reflexivity|exact N|reflexivity|right; exact Eb|exact (proj2 Gd)].
      * destruct Gd as [Hr (r & D & Y & Dn)]. apply xend_nil in D. subst r. exists [SStar t].
        assert (Cn : c <> XAdep) by (intro K; apply Hl in K; discriminate).
        split; [destruct c; try discriminate; try congruence; cbn; (split; [reflexivity|]); (split; [|reflexivity]); (split; [|reflexivity]); right; (split; [exact Eb|discriminate])|]. split; [rewrite (skipn_nth _ _ N), Hr; reflexivity|exact Dn].
    + destruct Gd as [Hr Gd]. assert (c = XAdep) as -> by now apply Hl. eapply (good_cons1 XAdep (SSid t)); [reflexivity|exact N|reflexivity|left; exact Eb|exact Gd].
    + destruct Gd as [Hr (r & D & Y & Dn)]. apply xend_nil in D. subst r. exists [SStar t].
      split; [destruct c; try discriminate; cbn; auto|]. split; [rewrite (skipn_nth _ _ N), Hr; reflexivity|exact Dn].
Qed.
Lemma J_tgt (m : M unit) x (P : Prop) c i k e : P -> J m x (CanR c i) (GoodR c i k e) -> J m x (P /\ CanR c i) (fun s => P /\ GoodR c i k e s).
Proof. intros H K. eapply J_conseq; [exact K|tauto|]. intros s Gs. split; assumption. Qed.
Lemma nor_main (k : token -> M unit) c x : main c = true ->
  (forall t, nth_error L (S (c_cur x)) = Some t -> J (k t) (nextc x) (CanR c (S (c_cur x))) (GoodR c (S (c_cur x)) (kof x) (c_errs x))) ->
  J (next_or_return k) x (CanR c (S (c_cur x))) (GoodR c (S (c_cur x)) (kof x) (c_errs x)).
Proof.
  intros Hm H. apply J_nor; [exact H|]. intro K. apply (good_end c (S (c_cur x)) (kof x) (c_errs x) (nextc x)); try reflexivity; [destruct c; try discriminate; reflexivity|exact K|cbn; lia].
Qed.

Lemma J_open c m y x P X i k : match c with CBreakEnd _ => False | _ => True end -> tgt c x = (P, X, i, k) -> P ->
  J m y (CanR X i) (GoodR X i k (c_errs x)) -> J m y (can c x) (good c x).
Proof.
  intros Hc Ht HP K. assert (E : can c x = can_t (tgt c x)) by (destruct c; try reflexivity; contradiction).
  assert (E' : good c x = good_t (tgt c x) (c_errs x)) by (destruct c; try reflexivity; contradiction).
  rewrite E, E', Ht. exact (J_tgt m y P X i k (c_errs x) HP K).
Qed.
Lemma can_P c x P X i k : match c with CBreakEnd _ => False | _ => True end -> tgt c x = (P, X, i, k) -> can c x -> P.
Proof.
  intros Hc Ht K. assert (E : can c x = can_t (tgt c x)) by (destruct c; try reflexivity; contradiction). rewrite E, Ht in K. exact (proj1 K).
Qed.
Lemma kof_rule x r : kof (with_p x (set_r_rules r (c_p x))) = rule_k r (kof x). Proof. reflexivity. Qed.
Lemma kof_rec x j t : kof (recc x j t) = add_k j t (kof x). Proof. reflexivity. Qed.
Lemma kof_tick x : kof (tickc x) = kof x. Proof. reflexivity. Qed.
Lemma app_ne {A} (l : list A) a : l ++ [a] <> []. Proof. destruct l; discriminate. Qed.
Lemma pt_prev_ne t l p : l <> [] -> pt_prev G t l p <> [].
Proof. intros H K. apply (f_equal (@length rrec)) in K. rewrite pt_prev_length in K. destruct l; [now apply H|discriminate]. Qed.
Lemma azi_sub p q : ll_p (set_bd G p q) = ll_p p -> True. Proof. auto. Qed.
Lemma ll_pt t p : ll_p (pt_rec G t p) = ll_p p.
Proof. unfold pt_rec, move_bd, set_coords, ll_p. destruct (t_sub t); try reflexivity; repeat match goal with |- context [match ?z with _ => _ end] => destruct z end; reflexivity. Qed.

Ltac jd := match goal with |- J (run G d ?c') ?z (CanR ?c _) _ => refine (J_disp c _ c' z _ _ _ _ _ _) end.
Ltac lead := first
  [ split; [discriminate|intro; exfalso; congruence]
  | split; [reflexivity|intros _; assumption] | split; [intros _; assumption|reflexivity]
  | let K := fresh in split; [discriminate|intro K; exfalso; revert K; first [assumption | exact (app_ne _ _) | refine (pt_prev_ne _ _ _ _); first [assumption | exact (app_ne _ _)]]] ].
Ltac pb := let K := fresh in intros ? K; first [discriminate K | injection K as <-; first [reflexivity | rewrite ll_pt; symmetry; exact (ll_eq _)]].
Ltac alw Eb := unfold allowed; rewrite Eb; first [reflexivity | assumption].
Ltac leaf N Eb := first
  [ apply J_err; [reflexivity|eapply not_can; [reflexivity|exact N|alw Eb]]
  | apply J_bee; [exact (nth_wt _ _ N)|exact Eb|eapply not_can; [reflexivity|exact N|alw Eb]]
  | jd; [reflexivity|exact N|lead|pb|unfold disp; rewrite Eb; reflexivity|first [right; exact Eb|left; alw Eb]] ].

Lemma step_postadep t x : prec (CPostAdep t) x -> J (b_post_adep (run G d) t) (tickc x) (can (CPostAdep t) x) (good (CPostAdep t) x).
Proof.
  intros [N Hl]. eapply J_open; [exact I|reflexivity|exact I|]. unfold b_post_adep. destruct (t_base t) eqn:Eb; leaf N Eb.
Qed.
Lemma step_postpoint t x : prec (CPostPoint t) x -> J (b_post_point (run G d) t) (tickc x) (can (CPostPoint t) x) (good (CPostPoint t) x).
Proof.
  intros [N Hl]. eapply J_open; [exact I|reflexivity|exact I|]. unfold b_post_point. destruct (t_base t) eqn:Eb; try leaf N Eb.
  apply J_last, J_deref, J_rdl; [reflexivity|]. cbn [c_p tickc]. change (is_ll_or_bd (r_sub (c_p x))) with (ll_p (c_p x)). destruct (ll_p (c_p x)) eqn:El.
  - leaf N Eb.
  - rewrite <- El. jd; [reflexivity|exact N|lead|pb|unfold disp; rewrite Eb; reflexivity|left; unfold allowed; rewrite Eb, El; reflexivity].
Qed.
Lemma step_postsid x : prec CPostSid x -> J (b_post_sid (run G d)) (tickc x) (can CPostSid x) (good CPostSid x).
Proof.
  intros Hl. cbn [prec] in Hl. eapply J_open; [exact I|reflexivity|exact I|]. unfold b_post_sid.
  refine (nor_main _ XSid (tickc x) eq_refl _). intros nt N. destruct (t_base nt) eqn:Eb; leaf N Eb.
Qed.
Lemma step_truncate x : prec CTruncate x -> J (b_truncate (run G d)) (tickc x) (can CTruncate x) (good CTruncate x).
Proof.
  intros _. unfold b_truncate. apply J_nor.
  - intros nt N. apply J_err; [reflexivity|]. intros [C _]. cbn [c_cur tickc] in N. rewrite (skipn_nth _ _ N) in C. discriminate.
  - intro K. cbn [c_cur tickc] in K. split; [now apply skipn_end|]. apply (good_end XEnd (S (c_cur x)) _ _ (nextc (tickc x))); try reflexivity; [exact K|cbn; lia].
Qed.
Lemma step_dct t x : prec (CDct t) x -> J (b_dct (run G d) t) (tickc x) (can (CDct t) x) (good (CDct t) x).
Proof.
  intros [N Eb]. eapply J_open; [exact I|reflexivity|exact I|]. unfold b_dct. apply (J_rec _ _ (c_cur x)).
  refine (nor_main _ XDct (recc (tickc x) (c_cur x) t) eq_refl _). intros nt Nn. destruct (t_base nt) eqn:En; leaf Nn En.
Qed.
Lemma step_stay t x : prec (CStay t) x -> J (b_stay (run G d) t) (tickc x) (can (CStay t) x) (good (CStay t) x).
Proof.
  intros (N & Eb & Hl). eapply J_open; [exact I|reflexivity|exact I|]. unfold b_stay. set (c := XPoint (ll_p (c_p x))).
  assert (H : forall k e z, CanR c (c_cur x) \/ GoodR c (c_cur x) k e z -> exists sl tm rest3 r, skipn (S (c_cur x)) L = sl :: tm :: rest3 /\ t_base sl = F15_SLASH /\ t_base tm = F15_STAY_TIME /\
     derives XStay r /\ yield r = rest3).
  { intros k e z [C|C]; [destruct (can_head c _ t eq_refl N C) as (_ & ss & D & Y & H)|destruct (good_head c _ t _ _ _ eq_refl N C) as (_ & ss & D & Y & _ & H)];
      unfold head_case in H; rewrite Eb in H; destruct H as (sl & tm & rest3 & r & Hr & _ & B1 & B2 & Dr & Yr); exists sl, tm, rest3, r; auto. }
  apply J_next; cbn [c_cur tickc].
  - intros nt Nn. destruct (base_eqb (t_base nt) F15_SLASH) eqn:B1; cbn [negb].
    + apply base_eqb_eq in B1. apply J_next; cbn [c_cur tickc nextc].
      * intros nt2 N2. destruct (base_eqb (t_base nt2) F15_STAY_TIME) eqn:B2; cbn [negb].
        -- apply base_eqb_eq in B2. eapply J_conseq; [apply IH; cbn [prec c_cur tickc nextc c_l]; auto| |].
           ++ intro C. destruct (H (kof x) [] (st_of L ru x) (or_introl C)) as (sl & tm & rest3 & r & Hr & _ & _ & Dr & Yr). cbn [can can_t tgt]. split; [exact I|]. exists r. split; [exact Dr|].
              cbn [c_cur tickc nextc]. rewrite (skipn_nth _ _ Nn), (skipn_nth _ _ N2) in Hr. clear - Hr Yr. congruence.
           ++ intros z [_ Gz]. eapply (good_cons3 c (SStay t nt nt2)); [reflexivity|exact N|exact Nn|exact N2|reflexivity|cbn; auto|exact Gz].
        -- apply J_err; [reflexivity|]. intro C. destruct (H (kof x) [] (st_of L ru x) (or_introl C)) as (sl & tm & rest3 & r & Hr & _ & B & _).
           rewrite (skipn_nth _ _ Nn), (skipn_nth _ _ N2) in Hr. injection Hr as -> -> _. rewrite B in B2. discriminate.
      * intro K. apply J_err; [reflexivity|]. intro C. destruct (H (kof x) [] (st_of L ru x) (or_introl C)) as (sl & tm & rest3 & r & Hr & _ & B & _).
        rewrite (skipn_nth _ _ Nn), (skipn_end _ K) in Hr. discriminate.
    + apply J_err; [reflexivity|]. intro C. destruct (H (kof x) [] (st_of L ru x) (or_introl C)) as (sl & tm & rest3 & r & Hr & B & _).
      rewrite (skipn_nth _ _ Nn) in Hr. injection Hr as -> _. rewrite B in B1. discriminate.
  - intro K. apply J_err; [reflexivity|]. intro C. destruct (H (kof x) [] (st_of L ru x) (or_introl C)) as (sl & tm & rest3 & r & Hr & _).
    rewrite (skipn_end _ K) in Hr. discriminate.
Qed.
Lemma step_staytime t x : prec (CStayTime t) x -> J (b_stay_time (run G d) t) (tickc x) (can (CStayTime t) x) (good (CStayTime t) x).
Proof.
  intros (N & Eb & Hl). eapply J_open; [exact I|reflexivity|exact I|]. unfold b_stay_time.
  apply J_last, J_deref, J_rdl; [reflexivity|]. rewrite (set_stay_eq t _ (nth_wt _ _ N) Eb). cbn [lift]. apply J_retb.
  apply J_updl; [reflexivity|].
  refine (nor_main _ XStay (with_p (tickc x) (set_r_stay (stay_min (t_text t)) (c_p x))) eq_refl _). intros nt Nn. destruct (t_base nt) eqn:En; leaf Nn En.
Qed.
Lemma route_next x1 nt : c_l x1 <> [] -> nth_error L (S (c_cur x1)) = Some nt ->
  J (match t_base nt with
    | F15_UNKNOWN => run G d (CErrSync nt 3)
    | F15_SLASH => run G d (CErrSync nt 12)
    | F15_BREAK_START => run G d (CErrSync nt 13)
    | F15_SPEED_VFR => run G d (CErrSync nt 13)
    | F15_SPEED_ALTITUDE => run G d (CErrSync nt 55)
    | F15_BREAK_END => run G d (CBreakEndError nt)
    | F15_DCT => run G d (CErrSync nt 14)
    | F15_STAY => run G d (CErrSync nt 15)
    | F15_TRUNCATE => run G d CTruncate
    | F15_C => run G d (CCruiseC nt)
    | F15_POINT =>
        (if is_ll_or_bd (t_sub nt) then run G d (CErrSync nt 48) else ret tt) ;;;
        run G d (CPoint nt)
    | F15_ROUTE => run G d (CErrSync nt 53)
    | F15_SID_STAR | F15_STAR => run G d (CErrSync nt 54)
    | F15_SPEED_ALTITUDE_ALTITUDE | F15_SPEED_ALTITUDE_PLUS => run G d (CErrSync nt 9)
    | F15_TOO_LONG => run G d (CErrSync nt 4)
    | F15_STAY_TIME => run G d (CErrSync nt 10)
    | F15_SID => run G d (CErrSync nt 30)
    end) (nextc x1) (CanR XRoute (S (c_cur x1))) (GoodR XRoute (S (c_cur x1)) (kof x1) (c_errs x1)).
Proof.
  intros Hl Nn. destruct (t_base nt) eqn:En; try leaf Nn En.
  rewrite ll_eq. destruct (computed_point (t_sub nt)) eqn:Ec.
  - apply J_err_then; [reflexivity| |intro; apply mono_run]. eapply not_can; [reflexivity|exact Nn|]. unfold allowed. now rewrite En, Ec.
  - apply J_retb. jd; [reflexivity|exact Nn|lead|pb|unfold disp; rewrite En; reflexivity|left; unfold allowed; now rewrite En, Ec].
Qed.
Lemma step_route t x : prec (CRoute t) x -> J (b_route (run G d) t) (tickc x) (can (CRoute t) x) (good (CRoute t) x).
Proof.
  intros (N & Eb). eapply J_open; [exact I|reflexivity|exact I|]. unfold b_route. apply (J_rec _ _ (c_cur x)).
  apply J_last, J_deref, J_updl; [reflexivity|].
  set (x1 := with_p _ _). assert (Hl : c_l x1 <> []) by exact (app_ne _ _).
  refine (nor_main _ XRoute x1 eq_refl (fun nt Nn => route_next x1 nt Hl Nn)).
Qed.
Lemma step_point t x : prec (CPoint t) x -> J (b_point G (run G d) t) (tickc x) (can (CPoint t) x) (good (CPoint t) x).
Proof.
  intros (N & Eb). unfold b_point. apply (J_rec _ _ (c_cur x)). apply J_last, J_deref, J_updl; [reflexivity|].
  set (x1 := with_p _ _).
  eapply (J_bind_errs _ _ x1 _ (c_cur x) (pt_prev G t (c_l x1) (c_p x1)) (pt_rec G t (c_p x1)) (c_us x1) (c_k x1) (pt_errs t)); [exact (check_sem_eq G L _ t (c_l x1) (c_p x1) (c_errs x1) ru (c_k x1) (nth_wt _ _ N))| | |].
  - apply mono_nor. intro. apply mono_run.
  - intro C. apply pt_angles; [exact (nth_wt _ _ N)|]. exact (can_P (CPoint t) x _ _ _ _ I eq_refl C).
  - intro E. apply pt_angles in E; [|exact (nth_wt _ _ N)]. eapply J_open; [exact I|reflexivity|exact E|].
    set (x2 := mkC _ _ _ _ _ _). refine (nor_main _ (XPoint (computed_point (t_sub t))) x2 eq_refl _).
    intros nt Nn. eapply J_conseq; [apply IH; split; [exact Nn|refine (pt_prev_ne _ _ _ _); exact (app_ne _ _)]| |].
    + intro C. cbn [can can_t tgt]. split; [exact I|]. assert (El : ll_p (c_p (nextc x2)) = computed_point (t_sub t)) by (cbn [c_p nextc x2]; rewrite ll_pt; exact (ll_eq _)). rewrite El. exact C.
    + intros z [_ Gz]. assert (El : ll_p (c_p (nextc x2)) = computed_point (t_sub t)) by (cbn [c_p nextc x2]; rewrite ll_pt; exact (ll_eq _)). rewrite El in Gz. exact Gz.
Qed.

Lemma nor_gen (k : token -> M unit) c x i kk e : may_end c = true -> S (c_cur x) = i -> kof x = kk -> c_errs x = e ->
  (forall t, nth_error L i = Some t -> J (k t) (nextc x) (CanR c i) (GoodR c i kk e)) ->
  J (next_or_return k) x (CanR c i) (GoodR c i kk e).
Proof.
  intros Hm <- <- <- H. apply J_nor; [exact H|]. intro K. apply (good_end c (S (c_cur x)) (kof x) (c_errs x) (nextc x)); try reflexivity; [exact Hm|exact K|cbn; lia].
Qed.
Lemma post_next x1 nt : c_l x1 <> [] -> nth_error L (S (c_cur x1)) = Some nt ->
  J (run G d (CPostPoint nt)) (nextc x1) (CanR (XPoint (ll_p (c_p x1))) (S (c_cur x1))) (GoodR (XPoint (ll_p (c_p x1))) (S (c_cur x1)) (kof x1) (c_errs x1)).
Proof. intros Hl N. eapply J_conseq; [apply IH; split; assumption| |]; cbn [can good can_t good_t tgt]; [auto|]. intros z [_ H]. exact H. Qed.
Lemma adep_next x1 nt : c_l x1 = [] -> nth_error L (S (c_cur x1)) = Some nt ->
  J (run G d (CPostAdep nt)) (nextc x1) (CanR XAdep (S (c_cur x1))) (GoodR XAdep (S (c_cur x1)) (kof x1) (c_errs x1)).
Proof. intros Hl N. eapply J_conseq; [apply IH; split; assumption| |]; cbn [can good can_t good_t tgt]; [auto|]. intros z [_ H]. exact H. Qed.
Lemma text_next x1 nt k : r_rules (c_p x1) = kind_rule k -> nth_error L (S (c_cur x1)) = Some nt ->
  J (run G d (CBreakText nt)) (nextc x1) (CanR (XText k) (S (c_cur x1))) (GoodR (XText k) (S (c_cur x1)) (kof x1) (c_errs x1)).
Proof.
  intros Hr N. eapply J_conseq; [apply IH; split; [assumption|exists k; exact Hr]| |]; cbn [can good can_t good_t tgt]; change (c_p (nextc x1)) with (c_p x1); rewrite Hr, kindof_rule; [auto|].
  intros z [_ H]. exact H.
Qed.
Lemma sa_next x1 i kk e : S (c_cur x1) = i -> kof x1 = kk -> c_errs x1 = e ->
  J (next_or_return (fun nt => n <- n_elems ;; if (n =? 1)%Z then run G d (CPostAdep nt) else run G d (CPostPoint nt))) x1
    (CanR (match c_l x1 with [] => XAdep | _ => XPoint (ll_p (c_p x1)) end) i) (GoodR (match c_l x1 with [] => XAdep | _ => XPoint (ll_p (c_p x1)) end) i kk e).
Proof.
  intros <- <- <-. apply nor_gen; try reflexivity; [destruct (c_l x1); reflexivity|]. intros nt Nn. apply J_nel. change (c_l (nextc x1)) with (c_l x1).
  destruct (c_l x1) as [|q l] eqn:El.
  - cbn [length]. change (Z.of_nat 0 + 1 =? 1)%Z with true. cbv iota. now apply adep_next.
  - replace (Z.of_nat (length (q :: l)) + 1 =? 1)%Z with false by (cbn [length]; lia). apply post_next; [congruence|exact Nn].
Qed.
Lemma step_spdalt t x : prec (CSpdAlt t) x -> J (b_assign_speed_altitude (run G d) t) (tickc x) (can (CSpdAlt t) x) (good (CSpdAlt t) x).
Proof.
  intros (N & Eb). pose proof (nth_wt _ _ N) as W. destruct (sa_fields t W Eb) as (a & Ha & Hs & Hl).
  eapply (J_rw _ _ _ (c_cur x) (c_l x) (sa_rec a t (c_p x)) (c_us x) (S (c_k x)) (lvl_errs t (text_from a t))).
  - exact (b_sa_eq (run G d) L _ _ _ _ ru _ t a Ha Hs Hl).
  - apply mono_nor. intro. apply mono_bind; [auto with mono|]. intro. destruct (_ =? _)%Z; apply mono_run.
  - intro C. apply (sa_levels t a W Eb Ha). exact (can_P (CSpdAlt t) x _ _ _ _ I eq_refl C).
  - intro E. apply (sa_levels t a W Eb Ha) in E. eapply J_open; [exact I|reflexivity|exact E|].
    set (x1 := mkC _ _ _ _ _ _). refine (sa_next x1 _ _ _ eq_refl _ eq_refl). unfold sa_eff. rewrite Ha. reflexivity.
Qed.
Lemma climb_next x1 i kk e : c_l x1 <> [] -> S (c_cur x1) = i -> kof x1 = kk -> c_errs x1 = e ->
  J (next_or_return (fun nt => run G d (CPostPoint nt))) x1 (CanR (XPoint (ll_p (c_p x1))) i) (GoodR (XPoint (ll_p (c_p x1))) i kk e).
Proof. intros Hl <- <- <-. apply nor_gen; try reflexivity. intros nt Nn. now apply post_next. Qed.
Lemma step_spdaltplus t x : prec (CSpdAltPlus t) x -> J (b_assign_speed_altitude_plus (run G d) t) (tickc x) (can (CSpdAltPlus t) x) (good (CSpdAltPlus t) x).
Proof.
  intros (N & Eb & Hne). pose proof (nth_wt _ _ N) as W. destruct (sap_fields t W Eb) as (a & b & Ha & Hs & Hl & _).
  eapply (J_rw _ _ _ (c_cur x) (c_l x) (sap_rec a b t (c_p x)) (c_us x) (S (c_k x)) (lvl_errs t (text_mid a b t))).
  - exact (b_sap_eq (run G d) L _ _ _ _ ru _ t a b Ha Hs Hl).
  - apply mono_nor. intro. apply mono_run.
  - intro C. apply (sap_levels t a b W Eb Ha). exact (can_P (CSpdAltPlus t) x _ _ _ _ I eq_refl C).
  - intro E. apply (sap_levels t a b W Eb Ha) in E. eapply J_open; [exact I|reflexivity|exact E|].
    set (x1 := mkC _ _ _ _ _ _). refine (climb_next x1 _ _ _ Hne eq_refl _ eq_refl). unfold climb_eff, sap_eff. rewrite Eb, Ha. reflexivity.
Qed.
Lemma step_spdaltalt t x : prec (CSpdAltAlt t) x -> J (b_assign_speed_altitude_altitude (run G d) t) (tickc x) (can (CSpdAltAlt t) x) (good (CSpdAltAlt t) x).
Proof.
  intros (N & Eb & Hne). pose proof (nth_wt _ _ N) as W. destruct (saa_fields t W Eb) as (a & b & c & Ha & Hs & Hl & Hc).
  destruct (is_na_sm (t_sub t)) eqn:Ena.
  - unfold J. rewrite (b_saa_exn (run G d) L _ _ _ _ ru _ t W Eb Ena : b_assign_speed_altitude_altitude (run G d) t (st_of L ru (tickc x)) = _).
    intro C. exfalso. apply (na_levels t W Eb Ena). exact (can_P (CSpdAltAlt t) x _ _ _ _ I eq_refl C).
  - specialize (Hc eq_refl).
    pose proof (b_saa_eq (run G d) L (Z.of_nat (c_cur x)) (c_l x) (c_p x) (c_errs x) ru (S (c_k x)) t a b c Ha Hs Hl Hc) as Eq. rewrite <- app_assoc in Eq.
    eapply (J_rw _ _ _ (c_cur x) (c_l x) (saa_rec a b c t (c_p x)) (c_us x) (S (c_k x)) (lvl_errs t (text_mid a b t) ++ lvl_errs t (text_from c t))).
    + exact Eq.
    + apply mono_nor. intro. apply mono_run.
    + intro C. apply (saa_levels t a b c W Eb Ha Ena). exact (can_P (CSpdAltAlt t) x _ _ _ _ I eq_refl C).
    + intro E. apply (saa_levels t a b c W Eb Ha Ena) in E. eapply J_open; [exact I|reflexivity|exact E|].
      set (x1 := mkC _ _ _ _ _ _). refine (climb_next x1 _ _ _ Hne eq_refl _ eq_refl). unfold climb_eff, saa_eff. rewrite Eb, Ha. reflexivity.
Qed.
Lemma step_spdvfr t x : prec (CSpdVfr t) x -> J (b_assign_speed_vfr (run G d) t) (tickc x) (can (CSpdVfr t) x) (good (CSpdVfr t) x).
Proof.
  intros (N & Eb). pose proof (nth_wt _ _ N) as W. destruct (vfr_fields t W Eb) as (a & Ha & Hs & _ & Hv).
  eapply (J_rw _ _ _ (c_cur x) (c_l x ++ [copy_perf (vfr_rec a t (c_p x)) (c_p x)]) (vfr_rec a t (c_p x)) (c_us x ++ [c_cur x]) (S (c_k x)) []).
  - rewrite app_nil_r. exact (b_vfr_eq (run G d) L _ _ _ _ ru _ t a Ha Hs Hv).
  - apply mono_nor. intro. apply mono_run.
  - reflexivity.
  - intros _. eapply J_open; [exact I|reflexivity|exact I|]. set (x1 := mkC _ _ _ _ _ _).
    assert (Hk : kof x1 = vfr_k (c_cur x) t (kof x)) by (unfold vfr_k, vfr_eff; rewrite Ha; reflexivity). rewrite <- Hk.
    refine (nor_gen _ (XText KVfr) x1 _ _ _ eq_refl eq_refl eq_refl eq_refl (fun nt Nn => text_next x1 nt KVfr eq_refl Nn)).
Qed.
Lemma step_slash t x : prec (CSlash t) x -> J (b_forward_slash (run G d) t) (tickc x) (can (CSlash t) x) (good (CSlash t) x).
Proof.
  intros (N & Eb & Hl). eapply J_open; [exact I|reflexivity|exact I|]. unfold b_forward_slash. set (c := XPoint (ll_p (c_p x))).
  assert (H : CanR c (c_cur x) -> exists t2 rest2, skipn (S (c_cur x)) L = t2 :: rest2 /\
     ((t_base t2 = F15_SPEED_ALTITUDE /\ levels_ok t2 /\ exists r, derives c r /\ yield r = rest2) \/ (t_base t2 = F15_SPEED_VFR /\ exists r, derives (XText KVfr) r /\ yield r = rest2))).
  { intro C. destruct (can_head c _ t eq_refl N C) as (_ & ss & D & Y & H). unfold head_case in H. rewrite Eb in H.
    destruct H as (t2 & rest2 & Hr & [(r & -> & B & Lv & Dr & Yr)|(r & -> & B & Dr & Yr)]); exists t2, rest2; split; eauto 8. }
  apply J_next; cbn [c_cur tickc].
  - intros nt Nn. rewrite (skipn_nth _ _ Nn) in H. destruct (t_base nt) eqn:En;
      try (apply J_err; [reflexivity|]; intro C; destruct (H C) as (t2 & rest2 & Hr & [(B & _)|(B & _)]); injection Hr as -> _; congruence).
    + eapply J_conseq; [apply IH; split; [exact Nn|exact En]| |].
      * intro C. split; [exact I|]. destruct (H C) as (t2 & rest2 & Hr & [(B & _)|(B & r & Dr & Yr)]); [injection Hr as -> _; congruence|]. exists r. split; [exact Dr|]. cbn [c_cur tickc nextc]. clear - Hr Yr. congruence.
      * intros z [_ Gz]. eapply (good_cons2 c (SVfr t nt)); [reflexivity|exact N|exact Nn|reflexivity|cbn; auto|exact Gz].
    + eapply J_conseq; [apply IH; split; [exact Nn|exact En]| |].
      * intro C. destruct (H C) as (t2 & rest2 & Hr & [(B & Lv & r & Dr & Yr)|(B & _)]); [|injection Hr as -> _; congruence]. assert (t2 = nt) as -> by (clear - Hr; congruence).
        cbn [can can_t tgt]. split; [exact Lv|]. exists r. cbn [c_cur tickc nextc c_l c_p]. destruct (c_l x); [contradiction|]. split; [exact Dr|]. clear - Hr Yr. congruence.
      * intros z. cbn [good good_t tgt c_cur tickc nextc c_l c_p]. destruct (c_l x); [contradiction|]. intros [Lv Gz].
        eapply (good_cons2 c (SSpeed t nt)); [reflexivity|exact N|exact Nn|reflexivity|cbn; auto|exact Gz].
  - intro K. apply J_err; [reflexivity|]. intro C. rewrite (skipn_end _ K) in H. destruct (H C) as (t2 & rest2 & Hr & _). discriminate.
Qed.
Lemma sid_len {A} (l : list A) a : (Z.of_nat (length (l ++ [a])) + 1 =? 2)%Z = match l with [] => true | _ => false end.
Proof. rewrite app_length. destruct l; cbn [length]; lia. Qed.
Lemma post_sid x1 i kk e : c_l x1 <> [] -> S (c_cur x1) = i -> kof x1 = kk -> c_errs x1 = e ->
  J (run G d CPostSid) x1 (CanR XSid i) (GoodR XSid i kk e).
Proof. intros Hl <- <- <-. eapply J_conseq; [apply IH; exact Hl| |]; cbn [can good can_t good_t tgt]; [auto|]. intros z [_ H]. exact H. Qed.
Lemma step_sid t x : prec (CSid t) x -> J (b_sid (run G d) t) (tickc x) (can (CSid t) x) (good (CSid t) x).
Proof.
  intros (N & Eb). unfold b_sid. apply (J_rec _ _ (c_cur x)). apply J_nel. cbn [c_l recc tickc c_p]. rewrite sid_len.
  destruct (c_l x) as [|q l] eqn:El.
  - eapply J_open; [exact I|reflexivity|exact El|]. set (x1 := recc _ _ _).
    assert (Ln : length (c_l x1) = 1) by (cbn [c_l recc tickc x1]; now rewrite El).
    eapply (J_step _ _ x1 _ x1); [apply (elem_at_eq L _ _ _ _ _ _ 1); exact (Nat.eq_le_incl _ _ (eq_sym Ln))|reflexivity|].
    apply J_deref. apply J_rdl; [now rewrite Ln|]. apply J_updl; [now rewrite Ln|].
    set (x2 := with_p _ _). refine (post_sid x2 _ _ _ _ eq_refl _ eq_refl); [exact (app_ne _ _)|reflexivity].
  - apply J_err; [reflexivity|]. intro C. pose proof (can_P (CSid t) x _ _ _ _ I eq_refl C) as K. cbv beta in K. congruence.
Qed.
Lemma plus1' x : c_cur x + 1 = S (c_cur x). Proof. lia. Qed.
Lemma nth_none i : nth_error L i = None -> skipn i L = []. Proof. intro H. apply skipn_end. now apply nth_error_None. Qed.
Lemma step_star_end t x (x1 := recc (tickc x) (c_cur x) t) (Can : Prop) (Good : st -> Prop) : 
  (Can -> skipn (S (c_cur x)) L = []) ->
  (forall z, skipn (S (c_cur x)) L = [] /\ GoodR XEnd (S (c_cur x)) (eff1 (c_cur x) (SStar t) (kof x)) (c_errs x) z -> Good z) ->
  J (pk <- tok_peek 1 ;; match pk with
    | None => i <- deref (Some (length (c_l x1))) ;; upd i (retype F15_STAR (if pstr_eqb (t_text t) ($"STAR") then F15_SB_STAR_LITERAL else F15_SB_STAR))
    | Some nt => run G d (CErrSync nt 34) end) x1 Can Good.
Proof.
  intros HC HG. apply (J_peek _ _ 1). change (c_cur x1) with (c_cur x). rewrite plus1'. destruct (nth_error L (S (c_cur x))) as [nt|] eqn:E1.
  - apply J_err; [reflexivity|]. intro C. apply HC in C. rewrite (skipn_nth _ _ E1) in C. discriminate.
  - apply J_deref. apply J_updl_end; [reflexivity|]. apply HG. split; [now apply nth_none|]. apply nth_error_None in E1.
    eapply good_end; [reflexivity|exact E1|reflexivity|reflexivity|exact E1].
Qed.
Lemma step_star t x : prec (CStar t) x -> J (b_star (run G d) t) (tickc x) (can (CStar t) x) (good (CStar t) x).
Proof.
  intros (N & Eb). unfold b_star. apply (J_rec _ _ (c_cur x)). apply step_star_end.
  - intro C. exact (can_P (CStar t) x _ _ _ _ I eq_refl C).
  - intros z H. exact H.
Qed.
Lemma step_sidstar t x : prec (CSidStar t) x -> J (b_sid_star (run G d) t) (tickc x) (can (CSidStar t) x) (good (CSidStar t) x).
Proof.
  intros (N & Eb). unfold b_sid_star. apply (J_rec _ _ (c_cur x)). apply J_nel. cbn [c_l recc tickc c_p]. rewrite sid_len.
  destruct (c_l x) as [|q l] eqn:El.
  - assert (T : tgt (CSidStar t) x = (True, XSid, S (c_cur x), eff1 (c_cur x) (SSid t) (kof x))) by (unfold tgt; now rewrite El).
    eapply J_open; [exact I|exact T|exact I|]. set (x1 := recc _ _ _). apply J_deref. apply J_updl; [cbn [c_l recc tickc x1]; now rewrite El|].
    set (x2 := with_p _ _). refine (post_sid x2 _ _ _ _ eq_refl _ eq_refl); [exact (app_ne _ _)|reflexivity].
  - assert (T : tgt (CSidStar t) x = (skipn (S (c_cur x)) L = [], XEnd, S (c_cur x), eff1 (c_cur x) (SStar t) (kof x))) by (unfold tgt; now rewrite El).
    rewrite <- El. apply step_star_end.
    + intro C. exact (can_P (CSidStar t) x _ _ _ _ I T C).
    + intros z H. change (good_t (tgt (CSidStar t) x) (c_errs x) z). rewrite T. exact H.
Qed.

(** Cruise climb *)
Lemma c_rest t x b : nth_error L (c_cur x) = Some t -> t_base t = F15_C -> CanR (XPoint b) (c_cur x) ->
  (match skipn (S (c_cur x)) L with nt :: _ => t_base nt <> F15_SLASH | [] => True end /\ CanR XC (S (c_cur x))) \/
  (exists sl p rest3, skipn (S (c_cur x)) L = sl :: p :: rest3 /\ t_base sl = F15_SLASH /\ angles_ok p /\ exists r, derives (XClimb (computed_point (t_sub p))) r /\ yield r = rest3).
Proof.
  intros N Eb C. destruct (can_head (XPoint b) _ t eq_refl N C) as (_ & ss & D & Y & H). unfold head_case in H. rewrite Eb in H.
  destruct H as [(r & -> & Hn & Dr & Yr)|(sl & p & rest3 & r & Hr & -> & B1 & An & Dr & Yr)].
  - left. split; [exact Hn|]. exists r. auto.
  - right. exists sl, p, rest3. split; [exact Hr|]. split; [exact B1|]. split; [exact An|]. exists r. auto.
Qed.
Lemma c_good t x b e z : nth_error L (c_cur x) = Some t -> t_base t = F15_C -> match skipn (S (c_cur x)) L with nt :: _ => t_base nt <> F15_SLASH | [] => True end ->
  GoodR XC (S (c_cur x)) (add_k (c_cur x) t (kof x)) e z -> GoodR (XPoint b) (c_cur x) (kof x) e z.
Proof. intros N Eb H Gz. eapply (good_cons1 _ (SC t)); [reflexivity|exact N|reflexivity|exact (conj Eb H)|exact Gz]. Qed.
Lemma xc_next x1 nt c' : nth_error L (S (c_cur x1)) = Some nt -> c_l x1 <> [] -> disp nt = Some c' -> (allowed XC nt = true \/ t_base nt = F15_SID) ->
  J (run G d c') (nextc x1) (CanR XC (S (c_cur x1))) (GoodR XC (S (c_cur x1)) (kof x1) (c_errs x1)).
Proof. intros Nn Hl Hd Ha. jd; [reflexivity|exact Nn|lead|pb|exact Hd|exact Ha]. Qed.
Lemma step_cruisec t x : prec (CCruiseC t) x -> J (b_cruise_climb_c (run G d) t) (tickc x) (can (CCruiseC t) x) (good (CCruiseC t) x).
Proof.
  intros (N & Eb). eapply J_open; [exact I|reflexivity|exact I|]. unfold b_cruise_climb_c. set (b := ll_p (c_p x)). pose proof (c_rest t x b N Eb) as H.
  pose proof (c_good t x b (c_errs x)) as HG.
  apply J_next; cbn [c_cur tickc].
  - intros nt Nn. rewrite (skipn_nth _ _ Nn) in H, HG.
    assert (Herr : forall m, defined_error m = true -> t_base nt <> F15_SLASH -> allowed XC nt = false ->
       J (run G d (CErrSync nt m)) (nextc (tickc x)) (CanR (XPoint b) (c_cur x)) (GoodR (XPoint b) (c_cur x) (kof x) (c_errs x))).
    { intros m Hm Hs Ha. apply J_err; [exact Hm|]. intro C. destruct (H C) as [[_ C']|(sl & p & r & Hr & B & _)]; [exact (not_can XC _ nt eq_refl Nn Ha C')|].
      apply Hs. injection Hr as -> _. exact B. }
    assert (Hgo : forall c', t_base nt <> F15_SLASH -> disp nt = Some c' -> (allowed XC nt = true \/ t_base nt = F15_SID) ->
       J (add_record t ;;; run G d c') (nextc (tickc x)) (CanR (XPoint b) (c_cur x)) (GoodR (XPoint b) (c_cur x) (kof x) (c_errs x))).
    { intros c' Hs Hd Ha. apply (J_rec _ _ (c_cur x)). set (x1 := recc (tickc x) (c_cur x) t).
      change (recc (nextc (tickc x)) (c_cur x) t) with (nextc x1).
      eapply J_conseq; [apply (xc_next x1 nt c' Nn (app_ne _ _) Hd Ha)| |].
      - intro C. destruct (H C) as [[_ C']|(sl & p & r & Hr & B & _)]; [exact C'|]. exfalso. apply Hs. injection Hr as -> _. exact B.
      - intros z Gz. exact (HG z N Eb Hs Gz). }
    destruct (t_base nt) eqn:En;
      try (apply Herr; [reflexivity|discriminate|unfold allowed; rewrite En; reflexivity]);
      try (apply Hgo; [discriminate|unfold disp; rewrite En; reflexivity|first [right; reflexivity|left; unfold allowed; rewrite En; reflexivity]]).
    + apply J_next; cbn [c_cur tickc nextc].
      * intros nt2 N2. rewrite (skipn_nth _ _ N2) in H. eapply J_conseq; [apply IH; exact N2| |].
        -- intro C. destruct (H C) as [[K _]|(sl & p & rest3 & Hr & B & An & r & Dr & Yr)]; [exfalso; exact (K eq_refl)|].
           assert (p = nt2) as -> by (clear - Hr; congruence). cbn [can can_t tgt]. split; [exact An|]. exists r. split; [exact Dr|]. cbn [c_cur tickc nextc]. clear - Hr Yr. congruence.
        -- intros z [An Gz]. eapply (good_cons3 _ (SClimb t nt nt2)); [reflexivity|exact N|exact Nn|exact N2|reflexivity|exact (conj Eb (conj En An))|exact Gz].
      * intro K. apply (J_rec _ _ (c_cur x)). apply J_err; [reflexivity|]. intro C. rewrite (skipn_end _ K) in H. destruct (H C) as [[K' _]|(sl & p & rest3 & Hr & _)]; [exact (K' eq_refl)|discriminate].
    + apply J_bee; [exact (nth_wt _ _ Nn)|exact En|]. intro C. destruct (H C) as [[_ C']|(sl & p & r & Hr & B & _)].
      * revert C'. apply (not_can XC _ nt eq_refl Nn). unfold allowed. now rewrite En.
      * injection Hr as -> _. congruence.
  - intro K. apply (J_rec _ _ (c_cur x)). apply J_ret. apply HG; [exact N|exact Eb|now rewrite (skipn_end _ K)|]. eapply good_end; [reflexivity|exact K|reflexivity|reflexivity|cbn; lia].
Qed.
Lemma done_next k e z (f : token -> M unit) (Can : Prop) (Good : st -> Prop) : done k e z -> (forall z', done k e z' -> Good z') ->
  exists y, z = st_of L ru y /\ c_errs y = e /\ J (next_or_return f) y Can Good.
Proof.
  intros (cur & calls & Hc & ->) HG. eexists. split; [reflexivity|]. split; [reflexivity|]. apply J_nor.
  - intros t Nt. exfalso. cbn [c_cur] in Nt. apply nth_error_None in Hc. congruence.
  - intros _. apply HG. exists (S cur), calls. split; [lia|reflexivity].
Qed.
Lemma climb_inv c i : CanR (XClimb c) i -> exists sl t r, skipn i L = sl :: t :: yield r /\ t_base sl = F15_SLASH /\
  (t_base t = F15_SPEED_ALTITUDE_ALTITUDE \/ t_base t = F15_SPEED_ALTITUDE_PLUS) /\ levels_ok t /\ derives (XPoint c) r.
Proof.
  intros (ss & D & Y). destruct ss as [|s r]; [discriminate|]. cbn [derives] in D. destruct D as (F & P & D). destruct s; try discriminate F.
  cbn [proper after] in *. destruct P as (P1 & P2 & P3). rewrite <- Y, yield_cons. exists sl, t, r. auto.
Qed.
Lemma step_cruisepoint t x : prec (CCruisePoint t) x -> J (b_cruise_climb_point G (run G d) t) (tickc x) (can (CCruisePoint t) x) (good (CCruisePoint t) x).
Proof.
  intros N. cbn [prec] in N. unfold b_cruise_climb_point. apply (J_rec _ _ (c_cur x)). set (x1 := recc _ _ _).
  eapply (J_bind_errs _ _ x1 _ (c_cur x) (pt_prev G t (c_l x1) (c_p x1)) (pt_rec G t (c_p x1)) (c_us x1) (c_k x1) (pt_errs t)); [exact (assign_ll_eq G L _ t (c_l x1) (c_p x1) (c_errs x1) ru (c_k x1) (nth_wt _ _ N))| | |].
  - repeat first [apply mono_bind; [|intro] | apply mono_nor; intro | apply mono_run | match goal with |- mono (match ?z with _ => _ end) => destruct z end | solve [auto with mono]].
  - intro C. apply pt_angles; [exact (nth_wt _ _ N)|]. exact (can_P (CCruisePoint t) x _ _ _ _ I eq_refl C).
  - intro E. apply pt_angles in E; [|exact (nth_wt _ _ N)]. eapply J_open; [exact I|reflexivity|exact E|].
    set (b := computed_point (t_sub t)). set (x2 := mkC _ _ _ _ _ _). assert (Hl : c_l x2 <> []) by exact (pt_prev_ne _ _ _ (app_ne _ _)).
    assert (Hb : ll_p (c_p x2) = b) by (cbn [c_p x2]; rewrite ll_pt; exact (ll_eq _)).
    change (pt_k t (add_k (c_cur x) t (kof x))) with (kof x2). change (c_cur x) with (c_cur x2). change (c_errs x) with (c_errs x2).
    clearbody x2. clear N x1 E.
    apply J_next.
    + intros nt Nn. destruct (base_eqb (t_base nt) F15_SLASH) eqn:B1; cbn [negb].
      * apply base_eqb_eq in B1. apply J_retb. apply J_next.
        -- cbn [c_cur nextc]. intros nt2 N2. assert (Hc : forall c', (c' = CSpdAltAlt nt2 /\ t_base nt2 = F15_SPEED_ALTITUDE_ALTITUDE) \/ (c' = CSpdAltPlus nt2 /\ t_base nt2 = F15_SPEED_ALTITUDE_PLUS) ->
             J (run G d c' ;;; next_or_return (fun nt3 => run G d (CPoint nt3))) (nextc (nextc x2)) (CanR (XClimb b) (S (c_cur x2))) (GoodR (XClimb b) (S (c_cur x2)) (kof x2) (c_errs x2))).
           { intros c' Hc'. assert (T : tgt c' (nextc (nextc x2)) = (levels_ok nt2, XPoint b, S (S (S (c_cur x2))), k_with (kof x2) (climb_eff nt2 (c_p x2)))) by
               (destruct Hc' as [[-> _]|[-> _]]; cbn [tgt c_p nextc c_cur]; rewrite Hb; reflexivity).
             assert (Hne : match c' with CBreakEnd _ => False | _ => True end) by (destruct Hc' as [[-> _]|[-> _]]; exact I).
             assert (Hp : prec c' (nextc (nextc x2))) by (destruct Hc' as [[-> B]|[-> B]]; cbn [prec c_cur nextc c_l]; auto).
             assert (B2 : t_base nt2 = F15_SPEED_ALTITUDE_ALTITUDE \/ t_base nt2 = F15_SPEED_ALTITUDE_PLUS) by tauto.
             assert (Ec : can c' (nextc (nextc x2)) = can_t (tgt c' (nextc (nextc x2)))) by (destruct c'; try reflexivity; contradiction).
             assert (Eg : good c' (nextc (nextc x2)) = good_t (tgt c' (nextc (nextc x2))) (c_errs x2)) by (destruct c'; try reflexivity; contradiction).
             pose proof (IH c' _ Hp) as K. rewrite Ec, Eg, T in K. cbn [can_t good_t] in K.
             eapply J_call; [exact K|apply mono_run|intro; apply mono_nor; intro; apply mono_run| |].
             - intro C. destruct (climb_inv b _ C) as (sl & t' & r & Hr & _ & _ & Lv & Dr). rewrite (skipn_nth _ _ Nn), (skipn_nth _ _ N2) in Hr.
               assert (t' = nt2) as -> by (clear - Hr; congruence). split; [exact Lv|]. exists r. split; [exact Dr|]. clear - Hr. congruence.
             - intros z [Lv (r & Dr & Yr & Dn)]. eapply done_next; [exact Dn|]. intros z' Dn'. 
               eapply (good_cons2 _ (SClimbTo nt nt2)); [reflexivity|exact Nn|exact N2|reflexivity|exact (conj B1 (conj B2 Lv))|]. exists r. auto. }
           destruct (t_base nt2) eqn:E2; try (apply Hc; tauto);
             (apply J_err_then; [reflexivity| |intro; apply mono_nor; intro; apply mono_run]);
             intro C; destruct (climb_inv b _ C) as (sl & t' & r & Hr & _ & [B|B] & _); rewrite (skipn_nth _ _ Nn), (skipn_nth _ _ N2) in Hr; assert (t' = nt2) as -> by (clear - Hr; congruence); congruence.
        -- cbn [c_cur nextc]. intro K. apply J_err; [reflexivity|]. intro C. destruct (climb_inv b _ C) as (sl & t' & r & Hr & _). rewrite (skipn_nth _ _ Nn), (skipn_end _ K) in Hr. discriminate.
      * apply J_err_then; [reflexivity| |].
        -- intro C. destruct (climb_inv b _ C) as (sl & t' & r & Hr & B & _). rewrite (skipn_nth _ _ Nn) in Hr. assert (sl = nt) as -> by (clear - Hr; congruence). rewrite B in B1. discriminate.
        -- intro. repeat first [apply mono_bind; [|intro] | apply mono_nor; intro | apply mono_run | match goal with |- mono (match ?z with _ => _ end) => destruct z end | solve [auto with mono]].
    + intro K. apply J_err; [reflexivity|]. intro C. destruct (climb_inv b _ C) as (sl & t' & r & Hr & _). rewrite (skipn_end _ K) in Hr. discriminate.
Qed.

(** Break sections *)
Lemma text_inv k i t : nth_error L i = Some t -> CanR (XText k) i ->
  t_base t <> F15_TOO_LONG /\
  (if ends k (t_sub t) then
     match resume k (skipn (S i) L) with Inside => CanR (XText k) (S i) | Resumes => CanR (XBreak k) (S i) | Wrong => False end
   else CanR (XText k) (S i)).
Proof.
  intros N (ss & D & Y). rewrite (skipn_nth _ _ N) in Y. destruct ss as [|s r]; [discriminate|]. cbn [derives] in D. destruct D as (F & P & D).
  destruct s; try discriminate F. cbn [proper after] in *. destruct P as [P1 P2]. rewrite yield_cons in Y. cbn [tokens_of] in Y.
  destruct txt as [|t' txt]; [contradiction|]. cbn [app] in Y. assert (t' = t) as -> by (clear - Y; congruence). assert (Yr : txt ++ yield r = skipn (S i) L) by (clear - Y; congruence).
  cbn [section] in P2. destruct P2 as [P2 P3]. split; [exact P2|].
  assert (In' : section k txt (yield r) -> CanR (XText k) (S i)).
  { intro Sc. destruct txt as [|t' txt].
    - cbn [section] in Sc. exists []. split; [reflexivity|]. rewrite <- Yr, Sc. reflexivity.
    - exists (SText (t' :: txt) :: r). split; [cbn [derives follows proper after]; split; [reflexivity|]; split; [split; [discriminate|exact Sc]|exact D]|]. rewrite yield_cons. exact Yr. }
  destruct (ends k (t_sub t)); [|auto]. rewrite Yr in P3. destruct (resume k _); [auto| |exact P3]. subst txt. exists r. auto.
Qed.
Lemma text_cons k i t kk e z : nth_error L i = Some t -> t_base t <> F15_TOO_LONG -> (ends k (t_sub t) = true -> resume k (skipn (S i) L) = Inside) ->
  GoodR (XText k) (S i) (k_with kk (append_break_text (t_text t) (k_p kk))) e z -> GoodR (XText k) i kk e z.
Proof.
  intros N B E (r & D & Y & Dn).
  assert (H : exists txt r', section k txt (yield r') /\ (txt <> [] \/ r' = []) /\ derives (XBreak k) r' /\ txt ++ yield r' = skipn (S i) L /\
     done (effs (S i + length txt) r' (k_with kk (texts (t :: txt) (k_p kk)))) e z).
  { destruct r as [|s r'].
    - exists [], []. cbn [section]. split; [reflexivity|]. split; [now right|]. split; [reflexivity|]. split; [exact Y|]. exact Dn.
    - cbn [derives] in D. destruct D as (F & P & D). destruct s; try discriminate F. cbn [proper after] in *. destruct P as [P1 P2]. exists txt, r'.
      split; [exact P2|]. split; [now left|]. split; [exact D|]. split; [now rewrite <- Y, yield_cons|]. exact Dn. }
  destruct H as (txt & r' & Sc & Hn & D' & Y' & Dn'). exists (SText (t :: txt) :: r').
  split.
  - cbn [derives follows proper after section]. split; [reflexivity|]. split; [|exact D']. split; [discriminate|]. split; [exact B|].
    destruct (ends k (t_sub t)); [|exact Sc]. rewrite Y', (E eq_refl). exact Sc.
  - split; [rewrite yield_cons; cbn [tokens_of app]; now rewrite Y', (skipn_nth _ _ N)|]. cbn [effs tokens_of length eff1].
    replace (i + S (length txt)) with (S i + length txt) by lia. exact Dn'.
Qed.
Lemma text_last k i t kk e z : nth_error L i = Some t -> t_base t <> F15_TOO_LONG -> ends k (t_sub t) = true -> resume k (skipn (S i) L) = Resumes ->
  GoodR (XBreak k) (S i) (k_with kk (append_break_text (t_text t) (k_p kk))) e z -> GoodR (XText k) i kk e z.
Proof.
  intros N B E R (r & D & Y & Dn). exists (SText [t] :: r). split.
  - cbn [derives follows proper after section]. split; [reflexivity|]. split; [|exact D]. split; [discriminate|]. split; [exact B|]. rewrite E. cbn [app]. rewrite Y, R. reflexivity.
  - split; [rewrite yield_cons; cbn [tokens_of app]; now rewrite Y, (skipn_nth _ _ N)|]. rewrite (effs_1 i (SText [t]) t r kk eq_refl). exact Dn.
Qed.
Lemma be_if (A : Type) (k : kind) sb (a b : A) :
  (if (sub_eqb sb F15_SB_IFR && pstr_eqb (kind_rule k) RULE_V)%bool then a
   else if (sub_eqb sb F15_SB_GAT && pstr_eqb (kind_rule k) RULE_O)%bool then a
   else if (sub_eqb sb F15_SB_IFPSTART && pstr_eqb (kind_rule k) RULE_S)%bool then a else b) = if ends k sb then a else b.
Proof. destruct k; destruct sb; reflexivity. Qed.
Lemma step_breakstart t x : prec (CBreakStart t) x -> J (b_break_start (run G d) t) (tickc x) (can (CBreakStart t) x) (good (CBreakStart t) x).
Proof.
  intros (N & Eb). destruct (bs_begins t (nth_wt _ _ N) Eb) as [k Hk]. eapply J_open; [exact I|reflexivity|exact I|].
  unfold break_rule. cbn [eff1]. unfold break_rule. rewrite Hk, kindof_rule. unfold b_break_start. apply (J_rec _ _ (c_cur x)). apply J_last.
  set (x1 := recc _ _ _). set (x2 := with_p x1 (set_r_rules (kind_rule k) (c_p x1))).
  eapply (J_step _ _ x1 tt x2); [|reflexivity|].
  - clear - Hk. clearbody x1. subst x2. destruct x1 as [a b c e u q]. unfold begins in Hk. destruct (t_sub t); try discriminate Hk; injection Hk as <-; exact (upd_last_eq L (Z.of_nat a) b c e ru q (set_r_rules _)).
  - assert (Hk2 : kof x2 = rule_k (kind_rule k) (add_k (c_cur x) t (kof x))) by reflexivity. rewrite <- Hk2.
    refine (nor_gen _ (XText k) x2 _ _ _ eq_refl eq_refl eq_refl eq_refl _). intros nt Nn.
    destruct (base_eqb (t_base nt) F15_TOO_LONG) eqn:B.
    + apply base_eqb_eq in B. apply J_err; [reflexivity|]. intro C. destruct (text_inv k _ nt Nn C) as [K _]. contradiction.
    + exact (text_next x2 nt k eq_refl Nn).
Qed.
Lemma step_breaktext t x : prec (CBreakText t) x -> J (b_break_text_save (run G d) t) (tickc x) (can (CBreakText t) x) (good (CBreakText t) x).
Proof.
  intros (N & k & Hk). eapply J_open; [exact I|reflexivity|exact I|]. rewrite Hk, kindof_rule. unfold b_break_text_save.
  destruct (base_eqb (t_base t) F15_TOO_LONG) eqn:B.
  - apply base_eqb_eq in B. apply J_err_then; [reflexivity| |].
    + intro C. destruct (text_inv k _ t N C) as [K _]. contradiction.
    + intro. repeat first [apply mono_bind; [|intro] | apply mono_nor; intro | apply mono_run | match goal with |- mono (match ?z with _ => _ end) => destruct z end | solve [auto with mono]].
  - assert (B' : t_base t <> F15_TOO_LONG) by (intro K; rewrite K in B; discriminate). apply J_retb. apply J_last, J_deref, J_updl; [reflexivity|].
    set (x1 := with_p _ _). apply J_last, J_deref, J_rdl; [reflexivity|]. cbv zeta.
    assert (Hr : r_rules (c_p x1) = kind_rule k) by (transitivity (r_rules (c_p x)); [cbn [c_p x1 with_p tickc]; unfold append_break_text; destruct (pstr_eqb _ _); reflexivity|exact Hk]). rewrite Hr, be_if.
    assert (Hk1 : kof x1 = k_with (kof x) (append_break_text (t_text t) (c_p x))) by reflexivity.
    change (c_cur x) with (c_cur x1). change (c_errs x) with (c_errs x1). change (nth_error L (c_cur x1) = Some t) in N.
    assert (Hnext : (ends k (t_sub t) = true -> resume k (skipn (S (c_cur x1)) L) = Inside) -> forall y, c_cur y = c_cur x1 -> kof y = kof x1 -> c_errs y = c_errs x1 -> r_rules (c_p y) = kind_rule k ->
      J (next_or_return (fun nt => run G d (CBreakText nt))) y (CanR (XText k) (c_cur x1)) (GoodR (XText k) (c_cur x1) (kof x) (c_errs x1))).
    { intros Hi y E1 E2 E3 E4. eapply J_conseq; [apply (nor_gen _ (XText k) y (S (c_cur y)) (kof y) (c_errs y) eq_refl eq_refl eq_refl eq_refl (fun nt Nn => text_next y nt k E4 Nn))| |].
      - intro C. destruct (text_inv k _ t N C) as [_ K]. rewrite E1. destruct (ends k (t_sub t)); [|exact K]. rewrite (Hi eq_refl) in K. exact K.
      - intros z Gz. rewrite E1, E2, E3, Hk1 in Gz. exact (text_cons k _ t _ _ z N B' Hi Gz). }
    destruct (ends k (t_sub t)) eqn:Ee.
    + assert (Hp : prec (CBreakEnd t) x1) by (cbn [prec]; rewrite Hr, kindof_rule; auto).
      eapply J_call; [exact (IH _ _ Hp)|apply mono_run|intro; apply mono_nor; intro; apply mono_run| |].
      * intro C. destruct (text_inv k _ t N C) as [_ K]. rewrite Ee in K. cbn [can]. rewrite Hr, kindof_rule. destruct (resume k _); auto.
      * intros z. cbn [good]. rewrite Hr, kindof_rule. destruct (resume k (skipn (S (c_cur x1)) L)) eqn:Er; [| |contradiction].
        -- intros [calls ->]. exists (mkC (c_cur x1) (c_l x1) (c_p x1) (c_errs x1) (c_us x1) calls). split; [reflexivity|]. split; [reflexivity|].
           apply Hnext; auto.
        -- intros (r & D & Y & Dn). eapply done_next; [exact Dn|]. intros z' Dn'. apply (text_last k _ t _ _ _ N B' Ee Er). change (k_p (kof x)) with (c_p x). rewrite <- Hk1. exists r. auto.
    + apply J_retb. apply Hnext; auto. discriminate.
Qed.
Lemma brk_inv k t1 rest ss : derives (XBreak k) ss -> yield ss = t1 :: rest ->
  (exists r, ss = SPoint t1 :: r /\ t_base t1 = F15_POINT /\ angles_ok t1 /\ derives (match k with KVfr => XThenSpeed (computed_point (t_sub t1)) | _ => XPoint (computed_point (t_sub t1)) end) r /\ yield r = rest) \/
  (k = KVfr /\ exists r, ss = SRejoin t1 :: r /\ t_base t1 = F15_POINT /\ derives XThenVfr r /\ yield r = rest).
Proof.
  intros D Y. destruct ss as [|s r]; [discriminate|]. cbn [derives] in D. destruct D as (F & P & D).
  destruct s; try (destruct k; discriminate F); rewrite yield_cons in Y; cbn [tokens_of app proper after] in *; assert (t = t1) as -> by (clear - Y; congruence);
    assert (Yr : yield r = rest) by (clear - Y; congruence).
  - left. exists r. split; [reflexivity|]. split; [tauto|]. split; [tauto|]. split; [|exact Yr]. destruct k; exact D.
  - right. split; [destruct k; try discriminate F; reflexivity|]. exists r. auto.
Qed.
Lemma azi_cong l p q : r_llv p = r_llv q -> r_lat p = r_lat q -> r_lon p = r_lon q -> azi G l p = azi G l q.
Proof. intros E1 E2 E3. unfold azi, set_bd. now rewrite E1, E2, E3. Qed.
Lemma pt_rec_rule t r p : pt_rec G t (set_r_rules r p) = set_r_rules r (pt_rec G t p).
Proof. unfold pt_rec, move_bd, set_coords. destruct (t_sub t); reflexivity. Qed.
Lemma pt_prev_rule t r l p : pt_prev G t l (set_r_rules r p) = pt_prev G t l p.
Proof.
  unfold pt_prev. rewrite pt_rec_rule. destruct (t_sub t); try reflexivity;
    first [apply azi_cong; reflexivity | rewrite (azi_cong _ (set_r_rules r (pt_rec G t p)) (pt_rec G t p)) by reflexivity; f_equal; apply azi_cong; reflexivity].
Qed.
Lemma pt_rule t r k : pt_k t (rule_k r k) = rule_k r (pt_k t k).
Proof. unfold pt_k, rule_k, k_with. cbn [k_l k_p k_js]. now rewrite pt_rec_rule, pt_prev_rule. Qed.
Lemma step_vtoi x : prec CVtoI x -> J (b_v_to_i G (run G d)) (tickc x) (can CVtoI x) (good CVtoI x).
Proof.
  intros (t1 & t2 & t3 & rest & Hr & B1 & B2 & B3). eapply J_open; [exact I|reflexivity|exact I|].
  assert (N : nth_error L (S (c_cur x)) = Some t1 /\ nth_error L (S (S (c_cur x))) = Some t2 /\ nth_error L (S (S (S (c_cur x)))) = Some t3).
  { rewrite <- (firstn_skipn (S (c_cur x)) L), Hr. assert (Ln : length (firstn (S (c_cur x)) L) = S (c_cur x)).
    { apply firstn_length_le. destruct (Nat.le_gt_cases (S (c_cur x)) (length L)) as [K|K]; [exact K|]. rewrite skipn_all2 in Hr; [discriminate|lia]. }
    split; [|split]; rewrite nth_error_app2 by lia; rewrite Ln; [replace (_ - _) with 0 by lia|replace (_ - _) with 1 by lia|replace (_ - _) with 2 by lia]; reflexivity. }
  destruct N as (N1 & N2 & N3).
  assert (H : CanR (XBreak KVfr) (S (c_cur x)) -> angles_ok t1 /\ levels_ok t3 /\ exists r, derives (XPoint (computed_point (t_sub t1))) r /\ yield r = rest).
  { intros (ss & D & Y). rewrite Hr in Y. destruct (brk_inv _ _ _ _ D Y) as [(r & -> & _ & An & Dr & Yr)|(_ & r & -> & _ & Dr & Yr)].
    - destruct r as [|s r]; [discriminate|]. cbn [derives] in Dr. destruct Dr as (F & P & Dr). destruct s; try discriminate F. rewrite yield_cons in Yr. cbn [tokens_of app proper after] in *.
      assert (t = t3) as -> by (clear - Yr; congruence). split; [exact An|]. split; [tauto|]. exists r. split; [exact Dr|]. clear - Yr. congruence.
    - exfalso. destruct r as [|s r]; [discriminate|]. cbn [derives] in Dr. destruct Dr as (F & P & Dr). destruct s; try discriminate F. rewrite yield_cons in Yr. cbn [tokens_of app proper after] in *.
      assert (t = t3) as -> by (clear - Yr; congruence). destruct P as [_ P]. congruence. }
  unfold b_v_to_i. apply J_next; cbn [c_cur tickc]; [|intro K; apply nth_error_None in K; congruence]. intros t Nt. assert (t = t1) as -> by congruence. clear Nt.
  apply J_deref. apply (J_rec _ _ (S (c_cur x))). set (x1 := recc _ _ _). pose proof (nth_wt _ _ N1) as W1.
  eapply (J_bind_errs _ _ x1 _ (c_cur x1) (pt_prev G t1 (c_l x1) (c_p x1)) (pt_rec G t1 (c_p x1)) (c_us x1) (c_k x1) (pt_errs t1)); [exact (check_sem_eq G L _ t1 (c_l x1) (c_p x1) (c_errs x1) ru (c_k x1) W1)| | |].
  - repeat first [apply mono_bind; [|intro] | apply mono_nor; intro | apply mono_run | match goal with |- mono (match ?z with _ => _ end) => destruct z end | solve [auto with mono]].
  - intro C. apply (pt_angles t1 W1). exact (proj1 (H C)).
  - intro E. apply (pt_angles t1 W1) in E. apply J_deref. set (x2 := mkC _ _ _ _ _ _).
    apply J_updl; [cbn [c_l x2]; now rewrite pt_prev_length|]. set (x3 := with_p _ _).
    assert (Hk : kof x3 = eff1 (S (c_cur x)) (SPoint t1) (kof x)) by (cbn [eff1]; rewrite pt_rule; reflexivity).
    assert (Hl : c_l x3 <> []) by exact (pt_prev_ne _ _ _ (app_ne _ _)).
    assert (Hb : ll_p (c_p x3) = computed_point (t_sub t1)) by (cbn [c_p x3 with_p]; change (ll_p (c_p x2) = computed_point (t_sub t1)); cbn [c_p x2]; rewrite ll_pt; exact (ll_eq _)).
    assert (Hc : c_cur x3 = S (c_cur x)) by reflexivity. assert (He : c_errs x3 = c_errs x) by reflexivity.
    clearbody x3. clear x1 x2.
    apply J_next; rewrite Hc; [|intro K; apply nth_error_None in K; congruence]. intros t' Nt'. 
    apply J_next; cbn [c_cur nextc]; rewrite Hc; [|intro K; apply nth_error_None in K; congruence]. intros t'' Nt''. assert (t'' = t3) as -> by congruence. clear t' Nt' Nt''.
    apply J_deref. set (x4 := nextc (nextc x3)).
    assert (Hp : prec (CSpdAlt t3) x4) by (cbn [prec c_cur x4 nextc]; rewrite Hc; auto).
    assert (T : tgt (CSpdAlt t3) x4 = (levels_ok t3, XPoint (computed_point (t_sub t1)), S (S (S (S (c_cur x)))), k_with (kof x3) (sa_eff t3 (c_p x3)))).
    { cbn [tgt c_cur x4 nextc c_l c_p]. rewrite Hc, Hb. destruct (c_l x3); [contradiction|reflexivity]. }
    assert (K : J (run G d (CSpdAlt t3)) x4 (can_t (tgt (CSpdAlt t3) x4)) (good_t (tgt (CSpdAlt t3) x4) (c_errs x4))) by exact (IH _ _ Hp). rewrite T in K. eapply J_conseq; [exact K| |]; cbn [can_t good_t].
    + intro C. destruct (H C) as (_ & Lv & r & Dr & Yr). split; [exact Lv|]. exists r. split; [exact Dr|]. rewrite (skipn_nth _ _ N1), (skipn_nth _ _ N2), (skipn_nth _ _ N3) in Hr. clear - Hr Yr. congruence.
    + intros z [Lv Gz]. eapply (good_cons1 _ (SPoint t1)); [reflexivity|exact N1|reflexivity|exact (conj B1 E)|]. rewrite <- Hk.
      eapply (good_cons2 _ (SSpeed t2 t3)); [reflexivity|exact N2|exact N3|reflexivity|exact (conj B2 (conj B3 Lv))|]. change (c_errs x4) with (c_errs x3) in Gz. rewrite He in Gz. exact Gz.
Qed.
Lemma vtoitov_next x x3 t1 t2 t3 rest : skipn (S (c_cur x)) L = t1 :: t2 :: t3 :: rest -> t_base t1 = F15_POINT -> t_base t2 = F15_SLASH -> t_base t3 = F15_SPEED_VFR ->
  nth_error L (S (c_cur x)) = Some t1 -> nth_error L (S (S (c_cur x))) = Some t2 -> nth_error L (S (S (S (c_cur x)))) = Some t3 ->
  (CanR (XBreak KVfr) (S (c_cur x)) -> exists r, derives (XText KVfr) r /\ yield r = rest) ->
  kof x3 = eff1 (S (c_cur x)) (SRejoin t1) (kof x) -> c_cur x3 = S (c_cur x) -> c_errs x3 = c_errs x ->
  J (tok_next ;;; tk <- tok_next ;; t' <- deref tk ;; run G d (CSpdVfr t')) x3 (CanR (XBreak KVfr) (S (c_cur x))) (GoodR (XBreak KVfr) (S (c_cur x)) (kof x) (c_errs x)).
Proof.
  intros Hr B1 B2 B3 N1 N2 N3 H Hk Hc He.
  apply J_next; rewrite Hc; [|intro K; apply nth_error_None in K; congruence]. intros t' Nt'. 
  apply J_next; cbn [c_cur nextc]; rewrite Hc; [|intro K; apply nth_error_None in K; congruence]. intros t'' Nt''. assert (t'' = t3) as -> by congruence. clear t' Nt' Nt''.
  apply J_deref. set (x4 := nextc (nextc x3)).
  assert (Hp : prec (CSpdVfr t3) x4) by (cbn [prec c_cur x4 nextc]; rewrite Hc; auto).
  assert (K : J (run G d (CSpdVfr t3)) x4 (can_t (tgt (CSpdVfr t3) x4)) (good_t (tgt (CSpdVfr t3) x4) (c_errs x4))) by exact (IH _ _ Hp). 
  assert (T : tgt (CSpdVfr t3) x4 = (True, XText KVfr, S (S (S (S (c_cur x)))), eff1 (S (S (c_cur x))) (SVfr t2 t3) (kof x3))).
  { cbn [tgt c_cur x4 nextc]. rewrite Hc. reflexivity. }
  rewrite T in K. eapply J_conseq; [exact K| |]; cbn [can_t good_t].
  - intro C. destruct (H C) as (r & Dr & Yr). split; [exact I|]. exists r. split; [exact Dr|]. rewrite (skipn_nth _ _ N1), (skipn_nth _ _ N2), (skipn_nth _ _ N3) in Hr. clear - Hr Yr. congruence.
  - intros z [Lv Gz]. eapply (good_cons1 _ (SRejoin t1)); [reflexivity|exact N1|reflexivity|exact B1|]. rewrite <- Hk.
    eapply (good_cons2 _ (SVfr t2 t3)); [reflexivity|exact N2|exact N3|reflexivity|exact (conj B2 B3)|]. rewrite <- He. exact Gz.
Qed.
Lemma step_vtoitov x : prec CVtoItoV x -> J (b_v_to_i_to_v (run G d)) (tickc x) (can CVtoItoV x) (good CVtoItoV x).
Proof.
  intros (t1 & t2 & t3 & rest & Hr & B1 & B2 & B3). eapply J_open; [exact I|reflexivity|exact I|].
  assert (N : nth_error L (S (c_cur x)) = Some t1 /\ nth_error L (S (S (c_cur x))) = Some t2 /\ nth_error L (S (S (S (c_cur x)))) = Some t3).
  { rewrite <- (firstn_skipn (S (c_cur x)) L), Hr. assert (Ln : length (firstn (S (c_cur x)) L) = S (c_cur x)).
    { apply firstn_length_le. destruct (Nat.le_gt_cases (S (c_cur x)) (length L)) as [K|K]; [exact K|]. rewrite skipn_all2 in Hr; [discriminate|lia]. }
    split; [|split]; rewrite nth_error_app2 by lia; rewrite Ln; [replace (_ - _) with 0 by lia|replace (_ - _) with 1 by lia|replace (_ - _) with 2 by lia]; reflexivity. }
  destruct N as (N1 & N2 & N3).
  assert (H : CanR (XBreak KVfr) (S (c_cur x)) -> exists r, derives (XText KVfr) r /\ yield r = rest).
  { intros (ss & D & Y). rewrite Hr in Y. destruct (brk_inv _ _ _ _ D Y) as [(r & -> & _ & An & Dr & Yr)|(_ & r & -> & _ & Dr & Yr)].
    - exfalso. destruct r as [|s r]; [discriminate|]. cbn [derives] in Dr. destruct Dr as (F & P & Dr). destruct s; try discriminate F. rewrite yield_cons in Yr. cbn [tokens_of app proper after] in *.
      assert (t = t3) as -> by (clear - Yr; congruence). destruct P as [_ [P _]]. congruence.
    - destruct r as [|s r]; [discriminate|]. cbn [derives] in Dr. destruct Dr as (F & P & Dr). destruct s; try discriminate F. rewrite yield_cons in Yr. cbn [tokens_of app proper after] in *.
      exists r. split; [exact Dr|]. clear - Yr. congruence. }
  unfold b_v_to_i_to_v. apply J_next; cbn [c_cur tickc]; [|intro K; apply nth_error_None in K; congruence]. intros t Nt. assert (t = t1) as -> by congruence. clear Nt.
  apply J_deref. apply (J_rec _ _ (S (c_cur x))). apply J_deref. apply J_updl; [reflexivity|]. set (x3 := with_p _ _).
  assert (Hk : kof x3 = eff1 (S (c_cur x)) (SRejoin t1) (kof x)) by reflexivity.
  assert (Hc : c_cur x3 = S (c_cur x)) by reflexivity. assert (He : c_errs x3 = c_errs x) by reflexivity.
  clearbody x3.
  exact (vtoitov_next x x3 t1 t2 t3 rest Hr B1 B2 B3 N1 N2 N3 H Hk Hc He).
Qed.
Lemma step_breakend t x : prec (CBreakEnd t) x -> J (b_break_end (run G d) t) (tickc x) (can (CBreakEnd t) x) (good (CBreakEnd t) x).
Proof.
  intros (N & He). set (k := kindof (r_rules (c_p x))) in *. unfold can, good. fold k. unfold b_break_end. cbv zeta.
  assert (Hin : J (ret tt) (tickc x) True (fun s => exists calls, s = st_of L ru (mkC (c_cur x) (c_l x) (c_p x) (c_errs x) (c_us x) calls))).
  { apply J_ret. exists (S (c_k x)). reflexivity. }
  apply (J_peek _ _ 1). cbn [c_cur tickc]. rewrite plus1'.
  destruct (nth_error L (S (c_cur x))) as [t1|] eqn:N1; [|rewrite (nth_none _ N1); exact Hin]. rewrite (skipn_nth _ _ N1). cbn [resume].
  destruct (base_eqb (t_base t1) F15_POINT) eqn:B1; cbn [negb].
  2: { replace (match t_base t1 with F15_POINT => _ | _ => Inside end) with Inside by (destruct (t_base t1); try reflexivity; discriminate). exact Hin. }
  apply base_eqb_eq in B1. rewrite B1. destruct (sub_eqb (t_sub t) F15_SB_IFR) eqn:S1.
  - assert (Ek : k = KVfr) by (destruct k; [reflexivity| |]; destruct (t_sub t); try discriminate He; discriminate S1). rewrite Ek.
    apply (J_peek _ _ 2). cbn [c_cur tickc]. replace (c_cur x + 2) with (S (S (c_cur x))) by lia.
    destruct (nth_error L (S (S (c_cur x)))) as [t2|] eqn:N2; [|rewrite (nth_none _ N2); apply J_err; [reflexivity|auto]]. rewrite (skipn_nth _ _ N2).
    destruct (base_eqb (t_base t2) F15_SLASH) eqn:B2; cbn [negb].
    2: { replace (match t_base t2 with F15_SLASH => _ | _ => Inside end) with Inside by (destruct (t_base t2); try reflexivity; discriminate). exact Hin. }
    apply base_eqb_eq in B2. rewrite B2.
    apply (J_peek _ _ 3). cbn [c_cur tickc]. replace (c_cur x + 3) with (S (S (S (c_cur x)))) by lia.
    destruct (nth_error L (S (S (S (c_cur x))))) as [t3|] eqn:N3; [|rewrite (nth_none _ N3); apply J_err; [reflexivity|auto]]. rewrite (skipn_nth _ _ N3).
    destruct (base_eqb (t_base t3) F15_SPEED_ALTITUDE) eqn:B3.
    + apply base_eqb_eq in B3. rewrite B3. cbn [negb andb].
      assert (Hp : prec CVtoI (tickc x)) by (exists t1, t2, t3, (skipn (S (S (S (S (c_cur x))))) L); cbn [c_cur tickc]; rewrite (skipn_nth _ _ N1), (skipn_nth _ _ N2), (skipn_nth _ _ N3); auto).
      eapply J_call; [exact (IH _ _ Hp)|apply mono_run|intro; apply mono_nor; intro; apply mono_run| |]; cbn [can good can_t good_t tgt c_cur tickc].
      * auto.
      * intros z [_ (r & D & Y & Dn)]. eapply done_next; [exact Dn|]. intros z' Dn'. exists r. auto.
    + destruct (base_eqb (t_base t3) F15_SPEED_VFR) eqn:B4; cbn [negb andb].
      * apply base_eqb_eq in B4. rewrite B4.
        assert (Hp : prec CVtoItoV (tickc x)) by (exists t1, t2, t3, (skipn (S (S (S (S (c_cur x))))) L); cbn [c_cur tickc]; rewrite (skipn_nth _ _ N1), (skipn_nth _ _ N2), (skipn_nth _ _ N3); auto).
        eapply J_call; [exact (IH _ _ Hp)|apply mono_run|intro; apply mono_nor; intro; apply mono_run| |]; cbn [can good can_t good_t tgt c_cur tickc].
        -- auto.
        -- intros z [_ (r & D & Y & Dn)]. eapply done_next; [exact Dn|]. intros z' Dn'. exists r. auto.
      * replace (match t_base t3 with F15_SPEED_ALTITUDE | F15_SPEED_VFR => Resumes | _ => Wrong end) with Wrong by (destruct (t_base t3); try reflexivity; discriminate).
        apply J_err; [reflexivity|auto].
  - assert (Ek : k <> KVfr) by (intro K; rewrite K in He; destruct (t_sub t); try discriminate He; discriminate S1).
    replace (match k with KVfr => _ | _ => Resumes end) with Resumes by (destruct k; [contradiction|reflexivity|reflexivity]).
    apply J_nor; [|intro K; apply nth_error_None in K; cbn [c_cur tickc] in K; congruence]. cbn [c_cur tickc]. intros nt Nn. assert (nt = t1) as -> by congruence.
    eapply J_conseq; [exact (IH (CPoint t1) (nextc (tickc x)) (conj N1 B1))| |]; cbn [can good can_t good_t tgt c_cur tickc nextc].
    + intros (ss & D & Y). rewrite (skipn_nth _ _ N1) in Y. destruct (brk_inv _ _ _ _ D Y) as [(r & -> & _ & An & Dr & Yr)|(K & _)]; [|contradiction].
      split; [exact An|]. exists r. split; [|exact Yr]. destruct k; [contradiction|exact Dr|exact Dr].
    + intros z [An Gz]. eapply (good_cons1 _ (SPoint t1)); [reflexivity|exact N1|destruct k; reflexivity|exact (conj B1 An)|]. destruct k; [contradiction|exact Gz|exact Gz].
Qed.
End Step.

(** Every call reports no error exactly when it can go on as a derivation, and then has its effect. *)
Theorem run_J d : forall c x, prec c x -> J (run G d c) x (can c x) (good c x).
Proof.
  induction d as [|d IH]; intros c x P.
  - cbn [run]. unfold J, raise. reflexivity.
  - cbn [run]. eapply (J_step _ _ x tt (tickc x)); [apply tick_eq|reflexivity|].
    destruct c; cbn [body]; try (exfalso; exact P);
    [ exact (step_spdalt d IH _ _ P) | exact (step_spdaltalt d IH _ _ P) | exact (step_spdaltplus d IH _ _ P)
    | exact (step_spdvfr d IH _ _ P) | exact (step_breakend d IH _ _ P) | exact (step_breakstart d IH _ _ P) | exact (step_breaktext d IH _ _ P)
    | exact (step_cruisec d IH _ _ P) | exact (step_cruisepoint d IH _ _ P) | exact (step_dct d IH _ _ P) | exact (step_slash d IH _ _ P) | exact (step_postadep d IH _ _ P)
    | exact (step_postpoint d IH _ _ P) | exact (step_postsid d IH _ P) | exact (step_point d IH _ _ P) | exact (step_route d IH _ _ P) | exact (step_sid d IH _ _ P)
    | exact (step_sidstar d IH _ _ P) | exact (step_star d IH _ _ P) | exact (step_stay d IH _ _ P) | exact (step_staytime d IH _ _ P) | exact (step_truncate d IH _ P)
    | exact (step_vtoi d IH _ P) | exact (step_vtoitov d IH _ P) ].
Qed.
End L.
End G.
