(** * Messages: the messages in use (lemmas behind PropsMessages). *)
From Coq Require Import ZArith NArith List Bool String Lia.
From Verif Require Import PyBase Enums ErrorTable Tokenizer Ers Utils Parser SpecParser SpecReader SpecComplete SpecOnce SpecMessages.
From Verif Require Import TokenizerProofs ParserFacts Once PropsParser.
Import List ListNotations.
Local Open Scope list_scope.
Local Open Scope Z_scope.

(** ** Texts *)
Definition nonempty (l : pstr) : bool := match l with [] => false | _ => true end.
Definition differs (m n : pstr) : bool := told_apart m n || (negb (nonempty m) && nonempty (fst (cut n))) || (negb (nonempty n) && nonempty (fst (cut m))).
Lemma nonempty_fill x m : nonempty (fst (cut m)) = true -> fill x m <> [].
Proof. destruct m as [|c m]; [discriminate|]. cbn [cut fill]. destruct (N.eqb c 33); [discriminate|]. discriminate. Qed.
Lemma differs_ok m n x : differs m n = true -> fill x m <> fill x n.
Proof.
  unfold differs. intro H. apply orb_true_iff in H as [H|H]; [apply orb_true_iff in H as [H|H]|].
  - now apply told_apart_ok.
  - apply andb_true_iff in H as [A B]. destruct m; [|discriminate]. intro E. symmetry in E. exact (nonempty_fill x n B E).
  - apply andb_true_iff in H as [A B]. destruct n; [|discriminate]. exact (nonempty_fill x m B).
Qed.
Lemma table_differs : forallb (fun p => forallb (fun q => (fst p =? fst q) || differs (of_str (snd p)) (of_str (snd q))) error_messages) error_messages = true.
Proof. vm_compute. reflexivity. Qed.
Lemma lookup_in l m t : lookup_msg m l = Some t -> exists s, In (m, s) l /\ t = of_str s.
Proof.
  induction l as [|[k s] l IH]; [discriminate|]. cbn [lookup_msg]. destruct (Z.eqb k m) eqn:E; [|intro H; destruct (IH H) as (s' & A & B); exists s'; split; [now right|exact B]].
  intro H. injection H as <-. apply Z.eqb_eq in E. subst k. exists s. split; [now left|reflexivity].
Qed.
Lemma says_one x m n : says m x -> says n x -> m = n.
Proof.
  intros (p & P & X) (q & Q & Y). apply lookup_in in P as (p' & P & ->). apply lookup_in in Q as (q' & Q & ->). pose proof table_differs as T. rewrite forallb_forall in T. specialize (T _ P). rewrite forallb_forall in T. specialize (T _ Q). cbn [fst snd] in T.
  apply orb_true_iff in T as [T|T]; [now apply Z.eqb_eq|]. exfalso. apply (differs_ok _ _ (r_name x) T). now rewrite <- X, <- Y.
Qed.
(** ** Occurrences *)
Definition samples : list (Z * pstr) :=
  [(1, $"ABC"); (3, $"N0450F350 ??"); (4, $"N0450F350 ABCDEFGHIJKLMNOPQRSTUVWXYZ"); (5, $"N0450F350 PNT N0450F350"); (6, $"N0450F350 PNT IFR"); (7, $"N0450F350 PNT GAT");
   (8, $"N0450F350 PNT IFPSTART"); (9, $"N0450F350 PNT N0450F350F360"); (10, $"N0450F350 PNT 0030"); (11, $"N0450F350 ?? / DCT"); (12, $"N0450F350 PNT UL9 / ABC"); (13, $"N0450F350 PNT UL9 VFR");
   (14, $"N0450F350 PNT UL9 DCT"); (15, $"N0450F350 PNT UL9 STAY1"); (16, $"N0450F350 PNT //"); (19, $"N0450F350 PNT T ABC"); (20, $"N0450F350 PNT/"); (21, $"N0450F350 DCT DCT");
   (22, $"N0450F350 PNT VFR IFR ABC"); (23, $"N0450F350 N0450F350"); (24, $"N0450F350 UL9"); (25, $"N0450F350 ?? /"); (26, $"N0450F350 PNT C/ABC ABC"); (27, $"N0450F350 PNT C/ABC");
   (28, $"N0450F350 PNT C/ABC/"); (29, $"N0450F350 PNT C/ABC/ABC"); (30, $"N0450F350 PNT SID"); (31, $"N0450F350 SID/"); (32, $"N0450F350 SID SID"); (34, $"N0450F350 PNT STAR ABC");
   (35, $"N0450F350 PNT STAY1"); (36, $"N0450F350 PNT STAY1 ABC"); (37, $"N0450F350 PNT STAY1/"); (38, $"N0450F350 PNT STAY1/ABC"); (39, $"N0450F350 PNT STAY1/0030/"); (40, $"N0450F351 PNT"); (41, []);
   (42, $"N0450F350 91N000E"); (43, $"N0450F350 8960N00000E"); (44, $"N0450F350 00N181E"); (45, $"N0450F350 0000N17960E"); (46, $"N0450F350 ABC361010"); (47, $"N0450F350 48N005E UL9");
   (48, $"N0450F350 PNT UL9 48N005E"); (49, $"N0450F350"); (50, $"N0450F350 PNT/ABC"); (52, $"N0450F350 PNT C/"); (53, $"N0450F350 PNT UL9 UL10"); (54, $"N0450F350 PNT UL9 STAR"); (55, $"N0450F350 PNT UL9 N0450F350")].
Definition sample_ok (q : Z * pstr) : bool :=
  match error_message (fst q), parse_field15 flat 100 (snd q) with
  | Some text, Ok _ s => existsb (fun x => pstr_eqb (r_err x) (fill (r_name x) text)) (e_errs (s_ers s))
  | _, _ => false
  end.
Lemma samples_ok : forallb sample_ok samples = true.
Proof. vm_compute. reflexivity. Qed.
Lemma samples_all : forallb (fun m => existsb (fun q => fst q =? m) samples) in_use = true.
Proof. vm_compute. reflexivity. Qed.
Lemma occurs_in_use m : In m in_use -> exists G depth field b s x, parse_field15 G depth field = Ok b s /\ In x (e_errs (s_ers s)) /\ says m x.
Proof.
  intro H. pose proof samples_all as A. rewrite forallb_forall in A. specialize (A m H). apply existsb_exists in A as ([n f] & I & E). apply Z.eqb_eq in E. cbn [fst] in E. subst n.
  pose proof samples_ok as S. rewrite forallb_forall in S. specialize (S _ I). unfold sample_ok in S. cbn [fst snd] in S. destruct (error_message m) as [text|] eqn:M; [|discriminate]. destruct (parse_field15 flat 100 f) as [b s|e s] eqn:P; [|discriminate].
  apply existsb_exists in S as (x & X & Y). apply pstr_eqb_eq in Y. exists flat, 100%nat, f, b, s, x. split; [exact P|]. split; [exact X|]. exists text. auto.
Qed.
Lemma numbers_in_use : forallb (fun m => existsb (Z.eqb m) in_use && match error_message m with Some _ => true | None => false end) numbers = true.
Proof. vm_compute. reflexivity. Qed.
Lemma message_of G depth field b s x : parse_field15 G depth field = Ok b s -> In x (e_errs (s_ers s)) -> exists m, In m in_use /\ says m x /\ forall n, says n x -> n = m.
Proof.
  intros H I.
  assert (K : exists m, In m in_use /\ says m x).
  { destruct (field_tokens field) as [|t0 r0] eqn:F.
    - destruct (parsed_empty G depth field b s H F) as [_ E]. rewrite E in I. destruct I as [<-|[]]. exists 41. split; [cbn; tauto|]. exists ($"Field 15 is empty"). split; reflexivity.
    - assert (Hne : field_tokens field <> []) by (rewrite F; discriminate). destruct (errors_once G depth field b s Hne H) as (e & E & Fe & O). rewrite E in I. apply in_map_iff in I as ([t m] & <- & I).
      rewrite Forall_forall in Fe. specialize (Fe _ I). cbn [fst] in Fe. destruct (once_facts t _ (O t Fe)) as (_ & _ & K).
      assert (M : In m (about t e)) by (apply in_map_iff; exists (t, m); split; [reflexivity|]; apply filter_In; split; [exact I|apply Z.eqb_refl]). specialize (K m M).
      pose proof numbers_in_use as U. rewrite forallb_forall in U. specialize (U m K). apply andb_true_iff in U as [U V]. apply existsb_exists in U as (n & U & W). apply Z.eqb_eq in W. subst n.
      exists m. split; [exact U|]. destruct (error_message m) as [text|] eqn:T; [|discriminate]. exists text. split; [exact T|]. cbn [error_of r_err r_name fst snd]. now rewrite T. }
  destruct K as (m & A & B). exists m. split; [exact A|]. split; [exact B|]. intros n C. exact (says_one x n m C B).
Qed.
Lemma exactly_in_use m : In m in_use <-> exists G depth field b s x, parse_field15 G depth field = Ok b s /\ In x (e_errs (s_ers s)) /\ says m x.
Proof.
  split; [apply occurs_in_use|]. intros (G & depth & field & b & s & x & P & I & S). destruct (message_of G depth field b s x P I) as (n & A & _ & C). now rewrite (C m S).
Qed.
(** ** The element in the text *)
Lemma cut_shows : forallb (fun m => match error_message m with Some t => match cut t with (_, Some b) => clean b | _ => existsb (Z.eqb m) [38; 41; 49] end | None => false end) in_use = true.
Proof. vm_compute. reflexivity. Qed.
Lemma element_shown G depth field b s x : parse_field15 G depth field = Ok b s -> In x (e_errs (s_ers s)) ->
  (exists before after, r_err x = before ++ r_name x ++ after) \/ says 38 x \/ says 41 x \/ says 49 x.
Proof.
  intros H I. destruct (message_of G depth field b s x H I) as (m & A & B & _). pose proof cut_shows as C. rewrite forallb_forall in C. specialize (C m A). pose proof B as B'. destruct B as (text & T & X). rewrite T in C. pose proof (fill_cut (r_name x) text) as F. destruct (cut text) as [p [q|]].
  - left. exists p, q. now rewrite X, F.
  - right. cbn [existsb] in C. apply orb_true_iff in C as [C|C]; [apply Z.eqb_eq in C; subst; tauto|]. apply orb_true_iff in C as [C|C]; [apply Z.eqb_eq in C; subst; tauto|]. apply orb_true_iff in C as [C|C]; [apply Z.eqb_eq in C; subst; tauto|discriminate].
Qed.
