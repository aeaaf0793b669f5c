(** * RegexProofs: the matcher is correct; languages as finite unions of shapes. *)
From Coq Require Import ZArith NArith List Bool String Lia.
From Verif Require Import PyBase Enums Regex SyntaxTable Syntax SpecRegex.
Import ListNotations.
Local Open Scope list_scope.
Local Open Scope nat_scope.

(** ** Shapes: sequences of character classes *)
Ltac llia := unfold pstr in *; lia.
Definition cc := list (N * N).
Definition shape := list cc.
Definition shape_in (sh : shape) (s : pstr) : Prop := Forall2 (fun rs c => in_ranges c rs = true) sh s.

Definition prods (a b : list shape) : list shape := flat_map (fun x => map (app x) b) a.
Fixpoint powers (a : list shape) (n : nat) : list shape :=
  match n with O => [[]] | S k => prods a (powers a k) end.
Fixpoint expand (r : re) : list shape :=
  match r with
  | REps => [[]]
  | RClass rs => [[rs]]
  | RSeq a b => prods (expand a) (expand b)
  | RAlt a b => expand a ++ expand b
  | RRep a lo hi => flat_map (fun k => powers (expand a) (lo + k)) (seq 0 (S (hi - lo)))
  end.
Definition some_shape (l : list shape) (s : pstr) : Prop := exists sh, In sh l /\ shape_in sh s.

Fixpoint wf_re (r : re) : bool :=
  match r with
  | REps | RClass _ => true
  | RSeq a b | RAlt a b => wf_re a && wf_re b
  | RRep a lo hi => wf_re a && Nat.leb lo hi
  end.

Lemma in_ranges_spec c rs : in_ranges c rs = true <-> exists a b, In (a, b) rs /\ (a <= c)%N /\ (c <= b)%N.
Proof.
  unfold in_ranges. rewrite existsb_exists. split.
  - intros [[a b] [H1 H2]]. simpl in H2. apply andb_true_iff in H2 as [H2 H3].
    apply N.leb_le in H2, H3. eauto.
  - intros (a & b & H1 & H2 & H3). exists (a, b). split; [assumption|]. simpl.
    apply andb_true_iff. split; now apply N.leb_le.
Qed.

Lemma prods_spec a b s : some_shape (prods a b) s <-> exists s1 s2, s = s1 ++ s2 /\ some_shape a s1 /\ some_shape b s2.
Proof.
  unfold some_shape, prods. split.
  - intros [sh [H1 H2]]. apply in_flat_map in H1 as [x [Hx H1]]. apply in_map_iff in H1 as [y [<- Hy]].
    apply Forall2_app_inv_l in H2 as (s1 & s2 & H3 & H4 & ->). exists s1, s2. split; [reflexivity|]. split; eauto.
  - intros (s1 & s2 & -> & [x [Hx H1]] & [y [Hy H2]]). exists (x ++ y). split.
    + apply in_flat_map. exists x. split; [assumption|]. now apply in_map.
    + now apply Forall2_app.
Qed.

Lemma powers_spec a n : forall s, some_shape (powers a n) s <->
  exists l, List.length l = n /\ s = List.concat l /\ forall x, In x l -> some_shape a x.
Proof.
  induction n as [|n IH]; intro s; simpl powers.
  - split.
    + intros [sh [[<-|[]] H]]. inversion H; subst. exists []. repeat split; [intros ? []].
    + intros [l [Hl [-> _]]]. destruct l; [|discriminate]. exists []. split; [now left|constructor].
  - rewrite prods_spec. split.
    + intros (s1 & s2 & -> & H1 & H2). apply IH in H2 as (l & Hl & -> & Hi).
      exists (s1 :: l). simpl. split; [now rewrite Hl|]. split; [reflexivity|]. intros x [<-|Hx]; auto.
    + intros (l & Hl & -> & Hi). destruct l as [|x l]; [discriminate|]. injection Hl as Hl.
      exists x, (List.concat l). split; [reflexivity|]. split; [apply Hi; now left|].
      apply IH. exists l. split; [assumption|]. split; [reflexivity|]. intros y Hy. apply Hi. now right.
Qed.

Lemma expand_spec r : wf_re r = true -> forall s, re_in r s <-> some_shape (expand r) s.
Proof.
  induction r as [|rs|a IHa b IHb|a IHa b IHb|a IHa lo hi]; cbn [wf_re]; intros Hwf s; cbn [expand].
  - split.
    + intro H. inversion H; subst. exists []. split; [now left|constructor].
    + intros [sh [[<-|[]] H]]. inversion H; subst. constructor.
  - split.
    + intro H. inversion H; subst. exists [rs]. split; [now left|]. constructor; [|constructor].
      apply in_ranges_spec. eauto.
    + intros [sh [[<-|[]] H]]. inversion H as [|? ? ? ? H1 H2]; subst. inversion H2; subst.
      apply in_ranges_spec in H1 as (p & q & H1 & H3 & H4). econstructor; eauto.
  - apply andb_true_iff in Hwf as [Ha Hb]. rewrite prods_spec. split.
    + intro H. inversion H; subst. exists s1, s2. split; [reflexivity|]. split; [now apply IHa|now apply IHb].
    + intros (s1 & s2 & -> & H1 & H2). constructor; [now apply IHa|now apply IHb].
  - apply andb_true_iff in Hwf as [Ha Hb]. split.
    + intro H. inversion H; subst.
      * apply (IHa Ha) in H3 as [sh [H1 H2]]. exists sh. split; [apply in_or_app; now left|assumption].
      * apply (IHb Hb) in H3 as [sh [H1 H2]]. exists sh. split; [apply in_or_app; now right|assumption].
    + intros [sh [H1 H2]]. apply in_app_or in H1 as [H1|H1].
      * apply lang_alt_l. apply IHa; [assumption|]. now exists sh.
      * apply lang_alt_r. apply IHb; [assumption|]. now exists sh.
  - apply andb_true_iff in Hwf as [Ha Hle]. apply Nat.leb_le in Hle. split.
    + intro H. inversion H as [| | | | |r0 lo0 hi0 l H1 H2 E1 E2]; subst.
      assert (some_shape (powers (expand a) (lo + (List.length l - lo))) (List.concat l)) as [sh [H3 H4]].
      { apply powers_spec. exists l. split; [rewrite Nat.add_comm; apply eq_sym, Nat.sub_add, H1|]. split; [reflexivity|]. intros x Hx. apply IHa; auto. }
      exists sh. split; [|assumption]. apply in_flat_map. exists (List.length l - lo). split; [|assumption].
      apply in_seq. llia.
    + intros [sh [H1 H2]]. apply in_flat_map in H1 as [k [Hk H1]]. apply in_seq in Hk.
      assert (some_shape (powers (expand a) (lo + k)) s) as Hp by (exists sh; now split).
      apply powers_spec in Hp as (l & Hl & -> & Hi). constructor; [llia|]. intros x Hx. apply IHa; auto.
Qed.

(** ** The matcher *)
Lemma must_spec a (IH : forall s t, In t (rems a s) <-> exists x, s = x ++ t /\ some_shape (expand a) x) n :
  forall s t,
  In t ((fix must (n : nat) (s : pstr) : list pstr :=
        match n with O => [s] | S k => flat_map (must k) (rems a s) end) n s) <->
  exists x, s = x ++ t /\ some_shape (powers (expand a) n) x.
Proof.
  induction n as [|n IHn]; intros s t.
  - split.
    + intros [<-|[]]. exists []. split; [reflexivity|]. exists []. split; [now left|constructor].
    + intros [x [-> [sh [[<-|[]] H]]]]. inversion H; subst. now left.
  - rewrite in_flat_map. split.
    + intros [u [H1 H2]]. apply IH in H1 as [x [-> Hx]]. apply IHn in H2 as [y [-> Hy]].
      exists (x ++ y). split; [now rewrite app_assoc|]. simpl powers. apply prods_spec. eauto.
    + intros [x [-> Hx]]. simpl powers in Hx. apply prods_spec in Hx as (x1 & x2 & -> & H1 & H2).
      exists (x2 ++ t). split; [apply IH; exists x1; split; [now rewrite app_assoc|assumption]|].
      apply IHn. eauto.
Qed.
Lemma may_spec a (IH : forall s t, In t (rems a s) <-> exists x, s = x ++ t /\ some_shape (expand a) x) n :
  forall s t,
  In t ((fix may (n : nat) (s : pstr) : list pstr :=
        match n with O => [s] | S k => flat_map (may k) (rems a s) ++ [s] end) n s) <->
  exists k x, k <= n /\ s = x ++ t /\ some_shape (powers (expand a) k) x.
Proof.
  induction n as [|n IHn]; intros s t.
  - split.
    + intros [<-|[]]. exists 0, []. split; [llia|]. split; [reflexivity|]. exists []. split; [now left|constructor].
    + intros (k & x & Hk & -> & Hx). assert (k = 0) by llia. subst k. destruct Hx as [sh [[<-|[]] H]]. inversion H; subst. now left.
  - rewrite in_app_iff, in_flat_map. split.
    + intros [[u [H1 H2]]|[<-|[]]].
      * apply IH in H1 as [x [-> Hx]]. apply IHn in H2 as (k & y & Hk & -> & Hy).
        exists (S k), (x ++ y). split; [llia|]. split; [now rewrite app_assoc|]. simpl powers. apply prods_spec. eauto.
      * exists 0, []. split; [llia|]. split; [reflexivity|]. exists []. split; [now left|constructor].
    + intros (k & x & Hk & -> & Hx). destruct k as [|k].
      * right. destruct Hx as [sh [[<-|[]] H]]. inversion H; subst. now left.
      * left. simpl powers in Hx. apply prods_spec in Hx as (x1 & x2 & -> & H1 & H2).
        exists (x2 ++ t). split; [apply IH; exists x1; split; [now rewrite app_assoc|assumption]|].
        apply IHn. exists k, x2. split; [llia|]. split; [reflexivity|assumption].
Qed.

Lemma powers_add a n m s : some_shape (powers a (n + m)) s <->
  exists x y, s = x ++ y /\ some_shape (powers a n) x /\ some_shape (powers a m) y.
Proof.
  rewrite powers_spec. split.
  - intros (l & Hl & -> & Hi). exists (List.concat (firstn n l)), (List.concat (skipn n l)).
    split; [now rewrite <- concat_app, firstn_skipn|]. split; apply powers_spec.
    + exists (firstn n l). split; [rewrite firstn_length; llia|]. split; [reflexivity|].
      intros x Hx. apply Hi. rewrite <- (firstn_skipn n l). apply in_or_app. now left.
    + exists (skipn n l). split; [rewrite skipn_length; llia|]. split; [reflexivity|].
      intros x Hx. apply Hi. rewrite <- (firstn_skipn n l). apply in_or_app. now right.
  - intros (x & y & -> & H1 & H2). apply powers_spec in H1 as (l1 & Hl1 & -> & Hi1).
    apply powers_spec in H2 as (l2 & Hl2 & -> & Hi2).
    exists (l1 ++ l2). rewrite app_length, concat_app. split; [llia|]. split; [reflexivity|].
    intros z Hz. apply in_app_or in Hz as [Hz|Hz]; auto.
Qed.

Lemma rems_spec r : forall s t, In t (rems r s) <-> exists x, s = x ++ t /\ some_shape (expand r) x.
Proof.
  induction r as [|rs|a IHa b IHb|a IHa b IHb|a IHa lo hi]; intros s t; cbn [rems expand].
  - split.
    + intros [<-|[]]. exists []. split; [reflexivity|]. exists []. split; [now left|constructor].
    + intros [x [-> [sh [[<-|[]] H]]]]. inversion H; subst. now left.
  - destruct s as [|c s].
    + split; [intros []|]. intros [x [H [sh [[<-|[]] H']]]]. inversion H'; subst. discriminate.
    + destruct (in_ranges c rs) eqn:E.
      * split.
        -- intros [<-|[]]. exists [c]. split; [reflexivity|]. exists [rs]. split; [now left|]. constructor; [assumption|constructor].
        -- intros [x [H [sh [[<-|[]] H']]]]. inversion H' as [|? ? ? ? ? H2]; subst. inversion H2; subst.
           injection H as -> ->. now left.
      * split; [intros []|]. intros [x [H [sh [[<-|[]] H']]]]. inversion H' as [|? ? ? ? ? H2]; subst. inversion H2; subst.
        injection H as -> ->. congruence.
  - rewrite in_flat_map. split.
    + intros [u [H1 H2]]. apply IHa in H1 as [x [-> Hx]]. apply IHb in H2 as [y [-> Hy]].
      exists (x ++ y). split; [now rewrite app_assoc|]. apply prods_spec. eauto.
    + intros [x [-> Hx]]. apply prods_spec in Hx as (x1 & x2 & -> & H1 & H2). exists (x2 ++ t).
      split; [apply IHa; exists x1; split; [now rewrite app_assoc|assumption]|apply IHb; eauto].
  - rewrite in_app_iff, IHa, IHb. split.
    + intros [[x [-> [sh [H1 H2]]]]|[x [-> [sh [H1 H2]]]]]; exists x; (split; [reflexivity|]); exists sh; (split; [apply in_or_app|assumption]); auto.
    + intros [x [-> [sh [H1 H2]]]]. apply in_app_or in H1 as [H1|H1]; [left|right]; exists x; (split; [reflexivity|]); exists sh; auto.
  - rewrite in_flat_map. split.
    + intros [u [H1 H2]]. apply (must_spec a IHa) in H1 as [x [-> Hx]].
      apply (may_spec a IHa) in H2 as (k & y & Hk & -> & Hy). exists (x ++ y). split; [now rewrite app_assoc|].
      assert (some_shape (powers (expand a) (lo + k)) (x ++ y)) as [sh [H3 H4]] by (apply powers_add; eauto).
      exists sh. split; [|assumption]. apply in_flat_map. exists k. split; [apply in_seq; llia|assumption].
    + intros [x [-> [sh [H1 H2]]]]. apply in_flat_map in H1 as [k [Hk H1]]. apply in_seq in Hk.
      assert (some_shape (powers (expand a) (lo + k)) x) as Hp by (exists sh; now split).
      apply powers_add in Hp as (y & z & -> & Hy & Hz). exists (z ++ t). split.
      * apply (must_spec a IHa). exists y. split; [now rewrite app_assoc|assumption].
      * apply (may_spec a IHa). exists k, z. split; [llia|]. split; [reflexivity|assumption].
Qed.

Lemma fullmatch_shapes r s : fullmatch r s = true <-> some_shape (expand r) s.
Proof.
  unfold fullmatch. rewrite existsb_exists. split.
  - intros [t [H1 H2]]. destruct t; [|discriminate]. apply rems_spec in H1 as [x [-> Hx]]. now rewrite app_nil_r.
  - intro H. exists []. split; [|reflexivity]. apply rems_spec. exists s. split; [now rewrite app_nil_r|assumption].
Qed.
Lemma fullmatch_spec r s : wf_re r = true -> fullmatch r s = true <-> re_in r s.
Proof. intro H. now rewrite fullmatch_shapes, expand_spec. Qed.

(** ** The table as shapes *)
Definition rrow := (re * base_type * sub_type)%type.
Definition compiled_rows : list rrow :=
  flat_map (fun x => match x with (Some r, b, s) => [(r, b, s)] | _ => [] end) compiled_configuration.
Definition rr_types (x : rrow) : base_type * sub_type := (snd (fst x), snd x).
Definition srow := (list shape * base_type * sub_type)%type.
Definition sr_shapes (x : srow) := fst (fst x).
Definition sr_types (x : srow) : base_type * sub_type := (snd (fst x), snd x).
Definition shape_table : list srow :=
  Eval vm_compute in map (fun x => (expand (fst (fst x)), snd (fst x), snd x)) compiled_rows.

Lemma shape_table_eq : shape_table = map (fun x => (expand (fst (fst x)), snd (fst x), snd x)) compiled_rows.
Proof. vm_compute; reflexivity. Qed.
Definition opt_row (x : rrow) : option re * base_type * sub_type := (Some (fst (fst x)), snd (fst x), snd x).
Lemma compiled_rows_eq : map opt_row compiled_rows = map compile_row f15_configuration.
Proof. rewrite <- compiled_configuration_ok. vm_compute; reflexivity. Qed.
Lemma compiled_rows_wf : forallb (fun x : rrow => wf_re (fst (fst x))) compiled_rows = true.
Proof. vm_compute; reflexivity. Qed.

Fixpoint first_re (rows : list rrow) (s : pstr) : base_type * sub_type :=
  match rows with
  | [] => (F15_UNKNOWN, F15_SB_UNKNOWN)
  | x :: rest => if fullmatch (fst (fst x)) s then rr_types x else first_re rest s
  end.
Lemma get_token_type_first s : get_token_type s = first_re compiled_rows s.
Proof.
  unfold get_token_type, compiled_rows.
  assert (H : forall rows, first_match rows s = first_re (flat_map (fun x => match x with (Some r, b, s) => [(r, b, s)] | _ => [] end) rows) s).
  { induction rows as [|[[[r|] b] sb] rows IH]; simpl; [reflexivity| |exact IH]. rewrite IH. reflexivity. }
  apply H.
Qed.

(** The result in terms of the first matching row. *)
Lemma first_re_split rows s T : first_re rows s = T ->
  (exists l1 x l2, rows = l1 ++ x :: l2 /\ rr_types x = T /\ fullmatch (fst (fst x)) s = true /\
     forall y, In y l1 -> fullmatch (fst (fst y)) s = false) \/
  (T = (F15_UNKNOWN, F15_SB_UNKNOWN) /\ forall y, In y rows -> fullmatch (fst (fst y)) s = false).
Proof.
  revert T. induction rows as [|x rows IH]; intro T; simpl.
  - intros <-. right. split; [reflexivity|intros ? []].
  - destruct (fullmatch (fst (fst x)) s) eqn:E.
    + intros <-. left. exists [], x, rows. repeat split; auto. intros ? [].
    + intro H. destruct (IH T H) as [(l1 & y & l2 & -> & H1 & H2 & H3)|[H1 H2]].
      * left. exists (x :: l1), y, l2. repeat split; auto. intros z [<-|Hz]; auto.
      * right. split; [assumption|]. intros z [<-|Hz]; auto.
Qed.
Lemma first_re_app l1 x l2 s : (forall y, In y l1 -> fullmatch (fst (fst y)) s = false) ->
  fullmatch (fst (fst x)) s = true -> first_re (l1 ++ x :: l2) s = rr_types x.
Proof.
  induction l1 as [|y l1 IH]; intros H1 H2; simpl.
  - now rewrite H2.
  - rewrite (H1 y) by now left. apply IH; [|assumption]. intros z Hz. apply H1. now right.
Qed.

(** ** Decision procedures on shapes, sound for all strings *)
Definition cc_disj (a b : cc) : bool :=
  forallb (fun x => forallb (fun y => (N.ltb (snd x) (fst y)) || (N.ltb (snd y) (fst x)))%bool b) a.
Definition cc_incl (a b : cc) : bool :=
  forallb (fun x => existsb (fun y => (N.leb (fst y) (fst x)) && (N.leb (snd x) (snd y)))%bool b) a.
Fixpoint shape_disj (a b : shape) : bool :=
  match a, b with
  | [], [] => false
  | x :: a', y :: b' => cc_disj x y || shape_disj a' b'
  | _, _ => true
  end.
Fixpoint shape_incl (a b : shape) : bool :=
  match a, b with
  | [], [] => true
  | x :: a', y :: b' => cc_incl x y && shape_incl a' b'
  | _, _ => false
  end.

Lemma cc_disj_sound a b c : cc_disj a b = true -> in_ranges c a = true -> in_ranges c b = true -> False.
Proof.
  intros H Ha Hb. apply in_ranges_spec in Ha as (x1 & x2 & Hx & Hx1 & Hx2). apply in_ranges_spec in Hb as (y1 & y2 & Hy & Hy1 & Hy2).
  unfold cc_disj in H. rewrite forallb_forall in H. specialize (H _ Hx). rewrite forallb_forall in H. specialize (H _ Hy).
  simpl in H. apply orb_true_iff in H as [H|H]; apply N.ltb_lt in H; llia.
Qed.
Lemma cc_incl_sound a b c : cc_incl a b = true -> in_ranges c a = true -> in_ranges c b = true.
Proof.
  intros H Ha. apply in_ranges_spec in Ha as (x1 & x2 & Hx & Hx1 & Hx2).
  unfold cc_incl in H. rewrite forallb_forall in H. specialize (H _ Hx). apply existsb_exists in H as [[y1 y2] [Hy H]].
  simpl in H. apply andb_true_iff in H as [H1 H2]. apply N.leb_le in H1, H2.
  apply in_ranges_spec. exists y1, y2. repeat split; [assumption|llia|llia].
Qed.
Lemma shape_disj_sound a : forall b s, shape_disj a b = true -> shape_in a s -> shape_in b s -> False.
Proof.
  induction a as [|x a IH]; intros [|y b] s H Ha Hb; simpl in H; try discriminate;
    inversion Ha; subst; inversion Hb; subst.
  apply orb_true_iff in H as [H|H]; [eapply cc_disj_sound; eauto|eapply IH; eauto].
Qed.
Lemma shape_incl_sound a : forall b s, shape_incl a b = true -> shape_in a s -> shape_in b s.
Proof.
  induction a as [|x a IH]; intros [|y b] s H Ha; simpl in H; try discriminate; inversion Ha; subst; [constructor|].
  apply andb_true_iff in H as [K1 K2]. constructor; [eapply cc_incl_sound; eauto|eapply IH; eauto].
Qed.
Definition incl_any (a : shape) (l : list shape) : bool := existsb (shape_incl a) l.
Definition disj_all (a : shape) (l : list shape) : bool := forallb (shape_disj a) l.
Lemma incl_any_sound a l s : incl_any a l = true -> shape_in a s -> some_shape l s.
Proof. intros H Ha. apply existsb_exists in H as [b [Hb H]]. exists b. split; [assumption|]. eapply shape_incl_sound; eauto. Qed.
Lemma disj_all_sound a l s : disj_all a l = true -> shape_in a s -> some_shape l s -> False.
Proof. intros H Ha [b [Hb Hs]]. unfold disj_all in H. rewrite forallb_forall in H. eapply shape_disj_sound; eauto. Qed.

(** [check P spec R] decides: the tokens typed with [P] are exactly [spec] minus [R]. *)
Definition types := (base_type * sub_type)%type.
(** every row typed P: included in spec; and R-shapes are disjoint from it or taken by an earlier row *)
Fixpoint check_fwd (P : types -> bool) (spec R : list shape) (before : list shape) (rows : list srow) : bool :=
  match rows with
  | [] => true
  | x :: rest =>
      (if P (sr_types x)
       then forallb (fun a => incl_any a spec) (sr_shapes x)
            && forallb (fun rho => disj_all rho (sr_shapes x) || incl_any rho before) R
       else true)
      && check_fwd P spec R (before ++ sr_shapes x) rest
  end.
(** from [sigma] on: some row typed P includes sigma, and rows before it not typed P are disjoint from sigma or within R *)
Fixpoint check_bwd (P : types -> bool) (R : list shape) (sigma : shape) (rows : list srow) : bool :=
  match rows with
  | [] => false
  | x :: rest =>
      if P (sr_types x)
      then incl_any sigma (sr_shapes x) || check_bwd P R sigma rest
      else forallb (fun tau => shape_disj sigma tau || incl_any tau R) (sr_shapes x) && check_bwd P R sigma rest
  end.
Definition check (P : types -> bool) (spec R : list shape) : bool :=
  negb (P (F15_UNKNOWN, F15_SB_UNKNOWN)) && check_fwd P spec R [] shape_table
  && forallb (fun sigma => check_bwd P R sigma shape_table) spec.

(** First matching row, on shapes. *)
Inductive first_sh (s : pstr) : list srow -> types -> Prop :=
| fs_nil : first_sh s [] (F15_UNKNOWN, F15_SB_UNKNOWN)
| fs_hit x rest : some_shape (sr_shapes x) s -> first_sh s (x :: rest) (sr_types x)
| fs_miss x rest T : ~ some_shape (sr_shapes x) s -> first_sh s rest T -> first_sh s (x :: rest) T.
Lemma first_sh_re s rows : first_sh s (map (fun x : rrow => (expand (fst (fst x)), snd (fst x), snd x)) rows) (first_re rows s).
Proof.
  induction rows as [|x rows IH]; simpl; [constructor|].
  destruct (fullmatch (fst (fst x)) s) eqn:E.
  - apply (fs_hit s (expand (fst (fst x)), snd (fst x), snd x)). simpl. now apply fullmatch_shapes.
  - apply fs_miss; [|exact IH]. intro H. apply fullmatch_shapes in H. congruence.
Qed.
Lemma get_token_type_sh s : first_sh s shape_table (get_token_type s).
Proof. rewrite get_token_type_first, shape_table_eq. apply first_sh_re. Qed.
Lemma first_sh_fun s rows T T' : first_sh s rows T -> first_sh s rows T' -> T = T'.
Proof. intros H. revert T'. induction H; intros T' H'; inversion H'; subst; try congruence; try contradiction. auto. Qed.

Lemma check_fwd_sound P spec R s T : P (F15_UNKNOWN, F15_SB_UNKNOWN) = false -> forall rows before,
  check_fwd P spec R before rows = true -> ~ some_shape before s ->
  first_sh s rows T -> P T = true -> some_shape spec s /\ ~ some_shape R s.
Proof.
  intro HU. induction rows as [|x rows IH]; intros before H Hb Hf HP; simpl in H.
  - inversion Hf; subst. congruence.
  - apply andb_true_iff in H as [H K]. inversion Hf as [|x' r' Hm|x' r' T' Hm Hr]; subst.
    + rewrite HP in H. apply andb_true_iff in H as [H1 H2].
      rewrite forallb_forall in H1, H2. destruct Hm as [sh [Hsh Hin]]. split.
      * eapply incl_any_sound; [apply H1; eassumption|assumption].
      * intros [rho [Hr Hrin]]. specialize (H2 _ Hr). apply orb_true_iff in H2 as [H2|H2].
        -- eapply disj_all_sound; [eassumption|eassumption|]. now exists sh.
        -- apply Hb. eapply incl_any_sound; eauto.
    + eapply IH; eauto.
      intros [sh [Hsh Hin]]. apply in_app_or in Hsh as [Hsh|Hsh]; [apply Hb|apply Hm]; now exists sh.
Qed.
Lemma check_bwd_sound P R sigma s T : shape_in sigma s -> ~ some_shape R s -> forall rows,
  check_bwd P R sigma rows = true -> first_sh s rows T -> P T = true.
Proof.
  intros Hs HR. induction rows as [|x rows IH]; intros H Hf; simpl in H; [discriminate|].
  inversion Hf as [|x' r' Hm|x' r' T' Hm Hr]; subst.
  - destruct (P (sr_types x)) eqn:EP; [reflexivity|]. apply andb_true_iff in H as [H _].
    destruct Hm as [sh [Hsh Hin]]. rewrite forallb_forall in H. specialize (H _ Hsh).
    apply orb_true_iff in H as [H|H]; exfalso; [eapply shape_disj_sound; eauto|apply HR; eapply incl_any_sound; eauto].
  - destruct (P (sr_types x)) eqn:EP.
    + apply orb_true_iff in H as [H|H]; [|auto]. exfalso. apply Hm. eapply incl_any_sound; eauto.
    + apply andb_true_iff in H as [_ H]. auto.
Qed.

Lemma check_sound P spec R : wf_re spec = true -> wf_re R = true ->
  check P (expand spec) (expand R) = true ->
  forall s, P (get_token_type s) = true <-> (re_in spec s /\ ~ re_in R s).
Proof.
  intros W1 W2 H s. unfold check in H. apply andb_true_iff in H as [H H3]. apply andb_true_iff in H as [H1 H2].
  apply negb_true_iff in H1. pose proof (get_token_type_sh s) as Hf.
  rewrite (expand_spec spec W1), (expand_spec R W2). split.
  - intro HP. eapply check_fwd_sound; eauto. intros [sh [[] _]].
  - intros [[sigma [Hin Hs]] HR]. rewrite forallb_forall in H3. eapply check_bwd_sound; eauto.
Qed.

(** A token text with given types has one of the shapes of the rows with these types. *)
Definition shapes_with (P : types -> bool) : list shape :=
  flat_map (fun x : srow => if P (sr_types x) then sr_shapes x else []) shape_table.
Lemma first_sh_shapes P s T rows : P (F15_UNKNOWN, F15_SB_UNKNOWN) = false -> first_sh s rows T -> P T = true ->
  some_shape (flat_map (fun x : srow => if P (sr_types x) then sr_shapes x else []) rows) s.
Proof.
  intros HU Hf HP. induction Hf; [congruence| |].
  - simpl. rewrite HP. destruct H as [sh [H1 H2]]. exists sh. split; [apply in_or_app; now left|assumption].
  - destruct (IHHf HP) as [sh [H1 H2]]. exists sh. split; [simpl; apply in_or_app; now right|assumption].
Qed.
Lemma typed_shape P s : P (F15_UNKNOWN, F15_SB_UNKNOWN) = false -> P (get_token_type s) = true ->
  some_shape (shapes_with P) s.
Proof. intros HU HP. eapply first_sh_shapes; eauto. apply get_token_type_sh. Qed.

(** Every type the classifier can return occurs in the table (or is UNKNOWN). *)
Lemma typed_in_table s : get_token_type s = (F15_UNKNOWN, F15_SB_UNKNOWN) \/
  exists x, In x shape_table /\ sr_types x = get_token_type s /\ some_shape (sr_shapes x) s.
Proof.
  pose proof (get_token_type_sh s) as H. induction H; [now left| |].
  - right. exists x. split; [now left|]. now split.
  - destruct IHfirst_sh as [H1|[y [H1 [H2 H3]]]]; [now left|]. right. exists y. split; [now right|]. now split.
Qed.
