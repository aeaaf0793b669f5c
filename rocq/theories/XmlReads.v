(** * XmlReads: a text is at most one XML element, and how a text is one (lemmas behind PropsXmlReads). *)
From Coq Require Import ZArith NArith List Bool String Lia.
From Coq Require Import ZifyBool ZifyNat ZifyN.
From Verif Require Import PyBase PyFloat Enums Regex Ers Xml SpecXml XmlFacts TokenizerProofs.
Import List ListNotations.
Local Open Scope list_scope.
Local Open Scope nat_scope.

Ltac norm_app E := repeat (progress (cbn [app] in E) || rewrite <- app_assoc in E).

(** ** Cutting a text *)
(** [r] does not begin with a character of the class. *)
Definition off (P : N -> bool) (r : pstr) : Prop := match r with [] => False | c :: _ => P c = false end.
Lemma span_eq (P : N -> bool) (a : pstr) : forall a' r r', (forall c, In c a -> P c = true) -> (forall c, In c a' -> P c = true) -> off P r -> off P r' ->
  a ++ r = a' ++ r' -> a = a' /\ r = r'.
Proof.
  induction a as [|c a IH]; intros [|c' a'] r r' Ha Ha' Hr Hr' E; cbn [app] in E.
  - now split.
  - exfalso. subst r. cbn [off] in Hr. rewrite (Ha' c' (or_introl eq_refl)) in Hr. discriminate.
  - exfalso. subst r'. cbn [off] in Hr'. rewrite (Ha c (or_introl eq_refl)) in Hr'. discriminate.
  - injection E as <- E. destruct (IH a' r r') as [-> ->]; auto; intros d Hd; [apply Ha|apply Ha']; now right.
Qed.
(** Up to the first occurrence of an end mark. *)
Lemma app_cmp (a : pstr) : forall a' r r', a ++ r = a' ++ r' -> (exists d, a' = a ++ d /\ r = d ++ r') \/ (exists d, a = a' ++ d /\ r' = d ++ r).
Proof.
  induction a as [|c a IH]; intros [|c' a'] r r' E; cbn [app] in E.
  - left. exists []. auto.
  - left. exists (c' :: a'). auto.
  - right. exists (c :: a). auto.
  - injection E as <- E. destruct (IH _ _ _ E) as [(d & -> & ->)|(d & -> & ->)]; [left|right]; exists d; auto.
Qed.
Lemma first_of (m : pstr) (ok : pstr -> Prop) : (forall t d r r', ok (t ++ d) -> m ++ r = d ++ m ++ r' -> d = []) ->
  forall t t' r r', ok t -> ok t' -> t ++ m ++ r = t' ++ m ++ r' -> t = t' /\ r = r'.
Proof.
  intros H t t' r r' Ht Ht' E. assert (D : t = t').
  { destruct (app_cmp _ _ _ _ E) as [(d & -> & Ed)|(d & -> & Ed)].
    - rewrite (H t d r r' Ht' Ed). now rewrite app_nil_r.
    - rewrite (H t' d r' r Ht Ed). now rewrite app_nil_r. }
  subst t'. split; [reflexivity|]. now apply app_inv_head, app_inv_head in E.
Qed.
Lemma infix_mid (x a b : pstr) : infix x (a ++ x ++ b).
Proof. now exists a, b. Qed.
Lemma cdata_end t d r r' : ~ infix ($"]]>") (t ++ d) -> $"]]>" ++ r = d ++ $"]]>" ++ r' -> d = [].
Proof.
  intros H E. destruct d as [|x [|y [|z d]]]; [reflexivity|exfalso..]; cbn in E; try discriminate E.
  injection E as <- <- <- _. apply H. exact (infix_mid ($"]]>") t d).
Qed.
Lemma comment_end t d r r' : ~ infix ($"--") ((t ++ d) ++ $"-") -> $"-->" ++ r = d ++ $"-->" ++ r' -> d = [].
Proof.
  intros H E. destruct d as [|x [|y d]]; [reflexivity|exfalso..]; cbn in E.
  - injection E as <- _. apply H. rewrite <- app_assoc. exact (infix_mid ($"--") t []).
  - injection E as <- <- _. apply H. rewrite <- app_assoc. exact (infix_mid ($"--") t (d ++ $"-")).
Qed.
Lemma pi_end t d r r' : ~ infix ($"?>") (t ++ d) -> $"?>" ++ r = d ++ $"?>" ++ r' -> d = [].
Proof.
  intros H E. destruct d as [|x [|y d]]; [reflexivity|exfalso..]; cbn in E; try discriminate E.
  injection E as <- <- _. apply H. exact (infix_mid ($"?>") t d).
Qed.

(** ** Values *)
Lemma reference_form c x : reference c x -> exists y, x = 38%N :: y ++ [59%N] /\ ~ In 59%N y.
Proof.
  assert (D : forall (ds : pstr) (rs : list (N * N)), (forall d, In d ds -> in_ranges d rs = true) -> in_ranges 59 rs = false -> ~ In 59%N ds).
  { intros ds rs A B K. apply A in K. congruence. }
  intro H. destruct H.
  1: exists ($"amp"). 2: exists ($"lt"). 3: exists ($"gt"). 4: exists ($"apos"). 5: exists ($"quot").
  1-5: split; [reflexivity|cbn; intuition discriminate].
  - exists ($"#" ++ ds). split; [reflexivity|]. cbn. intros [K|K]; [discriminate|]. now apply (D _ _ H0).
  - exists ($"#x" ++ ds). split; [reflexivity|]. cbn. intros [K|[K|K]]; [discriminate..|]. now apply (D _ _ H0).
Qed.
Lemma reference_fun c c' x : reference c x -> reference c' x -> c = c'.
Proof.
  assert (L : forall (ds : pstr) (rs : list (N * N)) d r, (forall d, In d ds -> in_ranges d rs = true) -> ds ++ $";" = d :: r -> in_ranges d rs = false -> ds = []).
  { intros ds rs d r A B C. destruct ds as [|e ds]; [reflexivity|]. injection B as -> _. rewrite (A d (or_introl eq_refl)) in C. discriminate. }
  intros H H'. destruct H; inversion H' as [E|E|E|E|E|ds' A B C D E|ds' A B C D E]; try reflexivity; try discriminate E; subst.
  - apply app_inv_tail in E. now subst.
  - exfalso. symmetry in E. apply (L ds [(48, 57)]%N 120%N (ds' ++ $";")) in E; auto.
  - exfalso. apply (L ds' [(48, 57)]%N 120%N (ds ++ $";")) in E; auto.
  - apply app_inv_tail in E. now subst.
Qed.
Lemma value_fun stop norm a s : value stop norm a s -> forall a', value stop norm a' s -> a = a'.
Proof.
  induction 1 as [|c a s H1 H2 H3 H IH|c x a s H1 H IH]; intros a' H'.
  - inversion H' as [| |c x b s E H4 E1 E2]; [reflexivity|]. destruct (reference_form _ _ E) as (y & -> & _). discriminate.
  - inversion H' as [|d b u K1 K2 K3 K|d x b u K1 K E1 E2]; subst; [f_equal; now apply IH|].
    exfalso. destruct (reference_form _ _ K1) as (y & -> & _). injection E2 as E2 _. apply H2. rewrite <- E2. right. now left.
  - destruct (reference_form _ _ H1) as (y & -> & Hy). inversion H' as [E1 E2|d b u K1 K2 K3 K E1 E2|d x b u K1 K E1 E2]; subst.
    + exfalso. apply K2. right. now left.
    + destruct (reference_form _ _ K1) as (y' & -> & Hy'). injection E2 as E2. rewrite <- !app_assoc in E2. cbn [app] in E2.
      destruct (span_eq (fun c => negb (N.eqb c 59)) y' y (59%N :: u) (59%N :: s)) as [-> E3]; auto.
      * intros e He. destruct (N.eqb_spec e 59); [now subst|reflexivity].
      * intros e He. destruct (N.eqb_spec e 59); [now subst|reflexivity].
      * reflexivity.
      * reflexivity.
      * injection E3 as ->. rewrite (reference_fun _ _ _ H1 K1). f_equal. now apply IH.
Qed.
Lemma value_free q stop norm a s : value stop norm a s -> In q stop -> (q = 34 \/ q = 39)%N -> ~ In q s.
Proof.
  intros H Hs Hq. induction H as [|c a s H1 H2 H3 H IH|c x a s H1 H IH]; [intros []| |].
  - intros [->|K]; [now apply H3|now apply IH].
  - intro K. apply in_app_or in K as [K|K]; [|now apply IH]. apply (reference_chars _ _ H1) in K. lia.
Qed.
Lemma value_no_lt stop norm a s : value stop norm a s -> ~ In 60%N s.
Proof.
  intro H. induction H as [|c a s H1 H2 H3 H IH|c x a s H1 H IH]; [intros []| |].
  - intros [->|K]; [apply H2; now left|now apply IH].
  - intro K. apply in_app_or in K as [K|K]; [|now apply IH]. apply (reference_chars _ _ H1) in K. lia.
Qed.

(** ** Tags *)
Definition namec (c : N) : bool := in_ranges c name_more.
Lemma name_span n n' r r' : xml_name n -> xml_name n' -> off namec r -> off namec r' -> n ++ r = n' ++ r' -> n = n' /\ r = r'.
Proof.
  assert (K : forall m, xml_name m -> forall c, In c m -> namec c = true).
  { intros m (c & t & -> & H1 & H2) d [<-|Hd]; [now apply start_chars|now apply H2]. }
  intros H H'. apply span_eq; now apply K.
Qed.
Lemma name_head n r : xml_name n -> exists c t, n ++ r = c :: t /\ in_ranges c name_start = true.
Proof. intros (c & t & -> & H & _). now exists c, (t ++ r). Qed.
Lemma space_class c : xml_space c = true -> namec c = false.
Proof. unfold xml_space, namec, in_ranges, name_more, name_start. cbn. lia. Qed.
Lemma start_space c : in_ranges c name_start = true -> xml_space c = false.
Proof. unfold xml_space, in_ranges, name_start. cbn. lia. Qed.
Lemma space_span w w' r r' : spaces w -> spaces w' -> off xml_space r -> off xml_space r' -> w ++ r = w' ++ r' -> w = w' /\ r = r'.
Proof. apply span_eq. Qed.
Lemma off_space_name w r : spaces w -> off namec r -> off namec (w ++ r).
Proof. intros H K. destruct w as [|c w]; [exact K|]. cbn. apply space_class, H. now left. Qed.
(** What comes after the attributes. *)
Definition tag_end (r : pstr) : Prop := match r with c :: _ => c = 62%N \/ c = 47%N | [] => False end.
Lemma tag_end_space r : tag_end r -> off xml_space r.
Proof. destruct r as [|c r]; [intros []|]. cbn. intros [-> | ->]; reflexivity. Qed.
Lemma atts_off l a w r : attributes l a -> spaces w -> tag_end r -> off namec (a ++ w ++ r).
Proof.
  intros Ha Hw Hr. destruct Ha as [|n v l q x w0 w1 w2 s _ Hw0 Hne].
  - cbn [app]. apply off_space_name; [exact Hw|]. destruct r as [|c r]; [exact Hr|]. cbn in *. destruct Hr as [-> | ->]; reflexivity.
  - destruct w0 as [|c w0]; [congruence|]. cbn. apply space_class, Hw0. now left.
Qed.
Lemma atts_unique l a : attributes l a -> forall l' a' w w' r r', attributes l' a' -> spaces w -> spaces w' -> tag_end r -> tag_end r' ->
  a ++ w ++ r = a' ++ w' ++ r' -> l = l' /\ a = a' /\ w = w' /\ r = r'.
Proof.
  induction 1 as [|n v l q x w0 w1 w2 s Hq Hw0 Hne Hn Hw1 Hw2 Hv Ha IH]; intros l' a' w w' r r' Ha' Hw Hw' Hr Hr' E;
    destruct Ha' as [|n' v' l' q' x' w0' w1' w2' s' Hq' Hw0' Hne' Hn' Hw1' Hw2' Hv' Ha'].
  - cbn [app] in E. destruct (space_span w w' r r') as [-> ->]; auto using tag_end_space.
  - exfalso. norm_app E. destruct (name_head n' (w1' ++ 61%N :: w2' ++ q' :: x' ++ q' :: s' ++ w' ++ r') Hn') as (c & t & En & Hc).
    rewrite En in E. destruct (space_span w w0' r (c :: t)) as [_ Er]; auto using tag_end_space; [cbn; now apply start_space|].
    subst r. cbn in Hr. destruct Hr as [-> | ->]; discriminate Hc.
  - exfalso. norm_app E. destruct (name_head n (w1 ++ 61%N :: w2 ++ q :: x ++ q :: s ++ w ++ r) Hn) as (c & t & En & Hc).
    rewrite En in E. destruct (space_span w0 w' (c :: t) r') as [_ Er]; auto using tag_end_space; [cbn; now apply start_space|].
    subst r'. cbn in Hr'. destruct Hr' as [-> | ->]; discriminate Hc.
  - norm_app E.
    destruct (name_head n (w1 ++ 61%N :: w2 ++ q :: x ++ q :: s ++ w ++ r) Hn) as (c & t & En & Hc).
    destruct (name_head n' (w1' ++ 61%N :: w2' ++ q' :: x' ++ q' :: s' ++ w' ++ r') Hn') as (c' & t' & En' & Hc').
    apply space_span in E as [-> E]; auto; [|rewrite En; cbn; now apply start_space|rewrite En'; cbn; now apply start_space].
    apply name_span in E as [-> E]; auto; [|apply off_space_name; [assumption|reflexivity]..].
    apply space_span in E as [-> E]; auto; [|reflexivity..]. injection E as E.
    apply space_span in E as [-> E]; auto; [|cbn; destruct Hq as [<-|[<-|[]]]; reflexivity|cbn; destruct Hq' as [<-|[<-|[]]]; reflexivity].
    injection E as <- E. apply (span_eq (fun c => negb (N.eqb c q))) in E.
    + destruct E as [-> E]. injection E as E. rewrite (value_fun _ _ _ _ Hv _ Hv'). destruct (IH _ _ _ _ _ _ Ha' Hw Hw' Hr Hr' E) as (-> & -> & -> & ->). auto.
    + intros d Hd. destruct (N.eqb_spec d q); [|reflexivity]. subst d. exfalso. revert Hd. apply (value_free q [q] att_norm v x Hv); [now left|]. destruct Hq as [<-|[<-|[]]]; auto.
    + intros d Hd. destruct (N.eqb_spec d q); [|reflexivity]. subst d. exfalso. revert Hd. apply (value_free q [q] att_norm v' x' Hv'); [now left|]. destruct Hq as [<-|[<-|[]]]; auto.
    + cbn. now rewrite N.eqb_refl.
    + cbn. now rewrite N.eqb_refl.
Qed.

(** ** Elements *)
Definition lt_or_end (s : pstr) : Prop := s = [] \/ exists r, s = 60%N :: r.
Lemma element_lt e x : element e x -> exists n r, x = 60%N :: n ++ r /\ xml_name n.
Proof. intro H. destruct H as [n ? ? a w1 c w2 Hn|n ? a w1 Hn]; exists n; eexists; (split; [reflexivity|exact Hn]). Qed.
Lemma content_lt l s : content l s -> starts_with_text l = false -> lt_or_end s.
Proof.
  intros H T. destruct H; try discriminate T; [now left|right..]; try (eexists; reflexivity).
  destruct (element_lt _ _ H) as (m & r & -> & _). eexists. reflexivity.
Qed.
(** The first two characters of a node that begins with a less-than sign. *)
Inductive sort := Close | Open | Bang | Pi.
Definition sort_of (s : pstr) (k : sort) : Prop :=
  match s with
  | c :: d :: _ => c = 60%N /\ match k with Close => d = 47%N | Open => in_ranges d name_start = true | Bang => d = 33%N | Pi => d = 63%N end
  | _ => False
  end.
Lemma sort_fun s s' k k' : sort_of s k -> sort_of s' k' -> s = s' -> k = k'.
Proof.
  intros H H' <-. destruct s as [|c [|d s]]; [destruct H..|]. destruct H as [_ H], H' as [_ H']. destruct k, k'; try reflexivity; subst; discriminate.
Qed.
Lemma element_open e x r : element e x -> sort_of (x ++ r) Open.
Proof. intro H. destruct (element_lt _ _ H) as (n & t & -> & (c & u & -> & Hc & _)). cbn. auto. Qed.
Lemma text_head v t r : value [] text_norm v t -> t <> [] -> forall k, ~ sort_of (t ++ r) k.
Proof.
  intros H Ht k K. destruct t as [|c t]; [congruence|]. pose proof (value_no_lt _ _ _ _ H) as L. cbn in K. destruct (t ++ r); [exact K|]. destruct K as [-> _]. apply L. now left.
Qed.
Definition kind_of (l : list xml) : option sort :=
  match l with
  | [] => Some Close | Elem _ _ _ :: _ => Some Open | Text _ :: _ => None | CData _ :: _ => Some Bang | Comment _ :: _ => Some Bang | Instruction _ _ :: _ => Some Pi
  end.
Lemma content_sort l s r : content l s -> match kind_of l with Some k => sort_of (s ++ [60; 47]%N ++ r) k | None => forall k, ~ sort_of (s ++ [60; 47]%N ++ r) k end.
Proof.
  intro H. destruct H; cbn [kind_of]; try (cbn; auto; fail).
  - rewrite <- app_assoc. now apply (text_head v).
  - rewrite <- app_assoc. now apply (element_open _ _ _ H).
Qed.
Lemma same_sort l s r l' s' r' : content l s -> content l' s' -> s ++ [60; 47]%N ++ r = s' ++ [60; 47]%N ++ r' -> kind_of l = kind_of l'.
Proof.
  intros H H' E. apply (content_sort _ _ r) in H. apply (content_sort _ _ r') in H'. rewrite E in H. destruct (kind_of l), (kind_of l'); try reflexivity.
  - f_equal. now apply (sort_fun _ _ _ _ H H').
  - now destruct (H' s0).
  - now destruct (H s0).
Qed.
Lemma unique_xml :
  (forall e s, element e s -> forall e' s' r r', element e' s' -> s ++ r = s' ++ r' -> e = e' /\ s = s') /\
  (forall l c, content l c -> forall l' c' r r', content l' c' -> c ++ [60; 47]%N ++ r = c' ++ [60; 47]%N ++ r' -> l = l' /\ c = c').
Proof.
  apply (xml_ind2 (fun e s _ => forall e' s' r r', element e' s' -> s ++ r = s' ++ r' -> e = e' /\ s = s')
    (fun l c _ => forall l' c' r r', content l' c' -> c ++ [60; 47]%N ++ r = c' ++ [60; 47]%N ++ r' -> l = l' /\ c = c')).
  - intros n atts kids a w1 c w2 Hn Ha _ Hw1 _ IH Hw2 e' s' r r' H' E. destruct H' as [n' atts' kids' a' w1' c' w2' Hn' Ha' _ Hw1' Hc' Hw2'|n' atts' a' w1' Hn' Ha' _ Hw1'].
    + norm_app E. injection E as E. apply name_span in E as [<- E]; auto; [|apply (atts_off atts); cbn; auto|apply (atts_off atts'); cbn; auto].
      apply (atts_unique atts) with (l' := atts') in E as (<- & <- & <- & E); auto; [|cbn; auto..].
      injection E as E. apply (IH kids' c') in E as E'; [|assumption]. destruct E' as [<- <-].
      apply app_inv_head in E. injection E as E. apply app_inv_head in E. apply space_span in E as [<- _]; auto; reflexivity.
    + exfalso. norm_app E. injection E as E. apply name_span in E as [<- E]; auto; [|apply (atts_off atts); cbn; auto|apply (atts_off atts'); cbn; auto].
      apply (atts_unique atts) with (l' := atts') in E as (_ & _ & _ & E); auto; [discriminate|cbn; auto..].
  - intros n atts a w1 Hn Ha _ Hw1 e' s' r r' H' E. destruct H' as [n' atts' kids' a' w1' c' w2' Hn' Ha' _ Hw1' Hc' Hw2'|n' atts' a' w1' Hn' Ha' _ Hw1'].
    + exfalso. norm_app E. injection E as E. apply name_span in E as [<- E]; auto; [|apply (atts_off atts); cbn; auto|apply (atts_off atts'); cbn; auto].
      apply (atts_unique atts) with (l' := atts') in E as (_ & _ & _ & E); auto; [discriminate|cbn; auto..].
    + norm_app E. injection E as E. apply name_span in E as [<- E]; auto; [|apply (atts_off atts); cbn; auto|apply (atts_off atts'); cbn; auto].
      apply (atts_unique atts) with (l' := atts') in E as (<- & <- & <- & E); auto; cbn; auto.
  - intros l' c' r r' H' E. pose proof (same_sort _ _ _ _ _ _ co_nil H' E) as K. destruct H'; try discriminate K. auto.
  - intros v t l s Hv Hi Ht Hs Hl IH l' c' r r' H' E. pose proof (same_sort _ _ _ _ _ _ (co_text v t l s Hv Hi Ht Hs Hl) H' E) as K.
    destruct H' as [|v' t' l' s' Hv' Hi' Ht' Hs' Hl'| | | |]; try discriminate K. rewrite <- !app_assoc in E.
    assert (O : forall m u z, content m u -> starts_with_text m = false -> off (fun c => negb (N.eqb c 60)) (u ++ [60; 47]%N ++ z)).
    { intros m u z Hm Hf. destruct (content_lt _ _ Hm Hf) as [->|[y ->]]; reflexivity. }
    assert (V : forall v t, value [] text_norm v t -> forall c, In c t -> negb (N.eqb c 60) = true).
    { intros v0 t0 H0 c0 Hc. destruct (N.eqb_spec c0 60); [|reflexivity]. subst. now destruct (value_no_lt _ _ _ _ H0). }
    apply (span_eq (fun c => negb (N.eqb c 60))) in E as [<- E]; [|now apply (V v)|now apply (V v')|now apply (O l)|now apply (O l')].
    destruct (IH _ _ _ _ Hl' E) as [<- <-]. now rewrite (value_fun _ _ _ _ Hv _ Hv').
  - intros n atts kids l x s He IHe Hl IH l' c' r r' H' E. pose proof (same_sort _ _ _ _ _ _ (co_elem n atts kids l x s He Hl) H' E) as K.
    destruct H' as [| |n' atts' kids' l' x' s' He' Hl'| | |]; try discriminate K. rewrite <- !app_assoc in E.
    apply (IHe (Elem n' atts' kids') x') in E as E'; [|assumption]. destruct E' as [E' <-]. injection E' as <- <- <-. apply app_inv_head in E. destruct (IH _ _ _ _ Hl' E) as [<- <-]. auto.
  - intros t l s Hc Hi Hl IH l' c' r r' H' E. pose proof (same_sort _ _ _ _ _ _ (co_cdata t l s Hc Hi Hl) H' E) as K.
    destruct H' as [| | |t' l' s' Hc' Hi' Hl'|t' l' s' Hc' Hi' Hl'|]; try discriminate K; rewrite <- !app_assoc in E; [|discriminate E].
    apply app_inv_head in E. apply (first_of ($"]]>") (fun t => ~ infix ($"]]>") t) cdata_end) in E as [<- E]; auto. destruct (IH _ _ _ _ Hl' E) as [<- <-]. auto.
  - intros t l s Hc Hi Hl IH l' c' r r' H' E. pose proof (same_sort _ _ _ _ _ _ (co_comment t l s Hc Hi Hl) H' E) as K.
    destruct H' as [| | |t' l' s' Hc' Hi' Hl'|t' l' s' Hc' Hi' Hl'|]; try discriminate K; rewrite <- !app_assoc in E; [discriminate E|].
    apply app_inv_head in E. apply (first_of ($"-->") (fun t => ~ infix ($"--") (t ++ $"-")) comment_end) in E as [<- E]; auto. destruct (IH _ _ _ _ Hl' E) as [<- <-]. auto.
  - intros n w t l s Hn Hx Hw Ht Hh Hc Hi Hl IH l' c' r r' H' E. pose proof (same_sort _ _ _ _ _ _ (co_pi n w t l s Hn Hx Hw Ht Hh Hc Hi Hl) H' E) as K.
    destruct H' as [| | | | |n' w' t' l' s' Hn' Hx' Hw' Ht' Hh' Hc' Hi' Hl']; try discriminate K. rewrite <- !app_assoc in E.
    apply app_inv_head in E.
    assert (O : forall (w t z : pstr), spaces w -> (t = [] \/ w <> []) -> off namec (w ++ t ++ $"?>" ++ z)).
    { intros w0 t0 z Hw0 [-> |Hne]; [apply off_space_name; [exact Hw0|reflexivity]|]. destruct w0 as [|c0 w0]; [congruence|]. cbn. apply space_class, Hw0. now left. }
    assert (O2 : forall (t z : pstr), (forall c r, t = c :: r -> xml_space c = false) -> off xml_space (t ++ $"?>" ++ z)).
    { intros [|c0 t0] z Hh0; [reflexivity|]. cbn. now apply (Hh0 c0 t0). }
    apply name_span in E as [<- E]; auto. apply space_span in E as [<- E]; auto.
    apply (first_of ($"?>") (fun t => ~ infix ($"?>") t) pi_end) in E as [<- E]; auto. destruct (IH _ _ _ _ Hl' E) as [<- <-]. auto.
Qed.
Theorem reads_once e e' s : well_formed e s -> well_formed e' s -> e = e'.
Proof.
  intros (a & x & b & -> & Ha & Hb & He) (a' & x' & b' & E & Ha' & Hb' & He').
  destruct (element_lt _ _ He) as (n & r & Ex & _). destruct (element_lt _ _ He') as (n' & r' & Ex' & _).
  apply space_span in E as [<- E]; auto; [|rewrite Ex; reflexivity|rewrite Ex'; reflexivity].
  exact (proj1 (proj1 unique_xml e x He e' x' b b' He' E)).
Qed.

(** ** Writing an element *)
Fixpoint has (x s : pstr) : bool :=
  match s with [] => match x with [] => true | _ => false end | _ :: r => pstr_eqb x (firstn (length x) s) || has x r end.
Lemma has_spec x s : has x s = false -> ~ infix x s.
Proof.
  revert x. induction s as [|c s IH]; intros x H (a & b & E).
  - destruct a, x; try discriminate E. discriminate H.
  - cbn [has] in H. apply orb_false_iff in H as [H1 H2]. destruct a as [|d a].
    + cbn [app] in E. rewrite E, firstn_app, firstn_all, Nat.sub_diag in H1. cbn in H1. rewrite app_nil_r in H1.
      assert (K : pstr_eqb x x = true) by now apply pstr_eqb_eq. congruence.
    + injection E as _ E. apply (IH x H2). now exists a, b.
Qed.
Fixpoint ser (e : xml) : pstr :=
  match e with
  | Elem n atts kids => [60]%N ++ n ++ flat_map (fun p => attr (fst p) (snd p)) atts ++ [62]%N ++ flat_map ser kids ++ [60; 47]%N ++ n ++ [62]%N
  | Text s => s
  | Comment s => $"<!--" ++ s ++ $"-->"
  | _ => []
  end.
Definition textc (c : N) : bool := xml_char c && negb (in_ranges c [(60, 60); (38, 38); (13, 13)]%N).
Fixpoint spaced (l : list xml) : bool :=
  match l with [] => true | Text _ :: r => negb (starts_with_text r) && spaced r | _ :: r => spaced r end.
Fixpoint okx (e : xml) : bool :=
  match e with
  | Elem n atts kids => nameb n && nodupb (map fst atts) && forallb (fun p => nameb (fst p) && forallb okc (snd p)) atts && spaced kids && forallb okx kids
  | Text s => match s with [] => false | _ => true end && forallb textc s && negb (has ($"]]>") s)
  | Comment s => forallb xml_char s && negb (has ($"--") (s ++ $"-"))
  | _ => false
  end.
Definition node (e : xml) : Prop :=
  match e with
  | Elem _ _ _ => element e (ser e)
  | Text s => value [] text_norm s s /\ ~ infix ($"]]>") s /\ s <> []
  | Comment s => (forall c, In c s -> xml_char c = true) /\ ~ infix ($"--") (s ++ $"-")
  | _ => False
  end.
Lemma nodes_content l : spaced l = true -> Forall node l -> content l (flat_map ser l).
Proof.
  induction l as [|e l IH]; intros H K; [constructor|]. inversion K as [|? ? Hn Hl]; subst. cbn [flat_map]. destruct e; cbn [node] in Hn; try contradiction.
  - apply co_elem; [exact Hn|]. now apply IH.
  - cbn [spaced] in H. apply andb_true_iff in H as [H1 H2]. destruct Hn as (A & B & C). apply co_text; auto. now apply negb_true_iff.
  - cbn [ser]. repeat rewrite <- app_assoc. apply co_comment; [apply Hn|apply Hn|now apply IH].
Qed.
Lemma ser_ok : forall e, okx e = true -> node e.
Proof.
  fix IH 1. intros [n atts kids|s|s|s|t s] H; try discriminate H.
  - assert (K : Forall (fun k => okx k = true -> node k) kids)
      by (refine ((fix go l : Forall (fun k => okx k = true -> node k) l := match l with [] => Forall_nil _ | x :: r => Forall_cons x (IH x) (go r) end) kids)).
    clear IH.     cbn [okx] in H. repeat (apply andb_true_iff in H as [H ?]). cbn [node ser].
    change ([60]%N ++ n ++ flat_map (fun p => attr (fst p) (snd p)) atts ++ [62]%N ++ flat_map ser kids ++ [60; 47]%N ++ n ++ [62]%N)
      with ([60]%N ++ n ++ flat_map (fun p => attr (fst p) (snd p)) atts ++ [] ++ [62]%N ++ flat_map ser kids ++ [60; 47]%N ++ n ++ [] ++ [62]%N).
    apply el_tag; [now apply nameb_spec| |now apply nodupb_spec|exact no_spaces| |exact no_spaces].
    + apply attrs_ok. intros p Hp. rewrite forallb_forall in H2. specialize (H2 p Hp). now apply andb_true_iff in H2.
    + apply nodes_content; [assumption|]. rewrite Forall_forall in *. rewrite forallb_forall in H0. auto.
  - cbn [okx] in H. repeat (apply andb_true_iff in H as [H ?]). cbn [node]. split; [|split].
    + apply text_value. intros c Hc. rewrite forallb_forall in H1. specialize (H1 c Hc). unfold textc in H1. apply andb_true_iff in H1 as [H1 H4]. split; [exact H1|]. unfold in_ranges in H4. cbn in H4. lia.
    + apply has_spec. now apply negb_true_iff.
    + intros ->. discriminate H.
  - cbn [okx] in H. apply andb_true_iff in H as [H1 H2]. cbn [node]. split; [now apply forallb_forall|]. apply has_spec. now apply negb_true_iff.
Qed.
Lemma ser_well_formed a n atts kids b : spaces a -> spaces b -> okx (Elem n atts kids) = true -> well_formed (Elem n atts kids) (a ++ ser (Elem n atts kids) ++ b).
Proof. intros Ha Hb H. exists a, (ser (Elem n atts kids)), b. split; [reflexivity|]. split; [exact Ha|]. split; [exact Hb|]. exact (ser_ok _ H). Qed.
