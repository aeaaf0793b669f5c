(** * DescriptionFacts: lemmas for PropsDescriptions. *)
From Coq Require Import ZArith NArith List Bool String Lia.
From Verif Require Import PyBase Enums Regex SyntaxTable Syntax Xml Print SpecRegex RegexProofs SyntaxProofs Descriptions SpecDescriptions.
Import List ListNotations.
Local Open Scope list_scope.
Local Open Scope nat_scope.

Lemma fullmatch_text_row row s : In row f15_configuration -> fullmatch_text (fst (fst (item_of_row row))) s = true <-> row_matches row s.
Proof.
  intro H. apply In_nth_error in H as [k Hk]. destruct row as [[p b] sb].
  destruct (row_compiled _ _ _ _ Hk) as (r & P1 & P2 & P3).
  rewrite (row_matches_spec k _ _ _ _ s Hk P2). unfold fullmatch_text, item_of_row; cbn [fst].
  rewrite P1. reflexivity.
Qed.

Lemma first_item_split rows s :
  (exists l1 x l2, rows = l1 ++ x :: l2 /\ first_item rows s = x /\ fullmatch_text (fst (fst x)) s = true /\
     forall y, In y l1 -> fullmatch_text (fst (fst y)) s = false) \/
  (first_item rows s = ([], F15_UNKNOWN, F15_SB_UNKNOWN) /\ forall y, In y rows -> fullmatch_text (fst (fst y)) s = false).
Proof.
  induction rows as [|x rows IH]; cbn [first_item]; [right; split; [reflexivity|contradiction]|].
  destruct (fullmatch_text (fst (fst x)) s) eqn:E.
  - left. exists [], x, rows. repeat split; [exact E|contradiction].
  - destruct IH as [(l1 & y & l2 & -> & H1 & H2 & H3)|[H1 H2]].
    + left. exists (x :: l1), y, l2. split; [reflexivity|]. split; [exact H1|]. split; [exact H2|].
      intros z [<-|Hz]; [exact E|exact (H3 z Hz)].
    + right. split; [exact H1|]. intros z [<-|Hz]; [exact E|exact (H2 z Hz)].
Qed.

Lemma get_token_item_cases s :
  (exists i row, nth_error f15_configuration i = Some row /\ first_row i s /\ get_token_item s = item_of_row row) \/
  ((forall row, In row f15_configuration -> ~ row_matches row s) /\ get_token_item s = ([], F15_UNKNOWN, F15_SB_UNKNOWN)).
Proof.
  unfold get_token_item. destruct (first_item_split (map item_of_row f15_configuration) s) as [(l1 & x & l2 & E & H1 & H2 & H3)|[H1 H2]].
  - left. apply map_eq_app in E as (m1 & m2 & E & E1 & E2). apply map_eq_cons in E2 as (row & m3 & -> & E2 & E3).
    exists (length m1), row. assert (N : nth_error f15_configuration (length m1) = Some row).
    { rewrite E, nth_error_app2, Nat.sub_diag by lia. reflexivity. }
    split; [exact N|]. split; [|rewrite H1; symmetry; exact E2].
    exists row. split; [exact N|]. split.
    + apply fullmatch_text_row; [exact (nth_error_In _ _ N)|]. rewrite E2. exact H2.
    + intros j row' L N' M. assert (In' := nth_error_In _ _ N'). rewrite E, nth_error_app1 in N' by lia.
      apply nth_error_In in N'. apply fullmatch_text_row in M; [|exact In'].
      rewrite H3 in M; [discriminate|]. rewrite <- E1. apply in_map. exact N'.
  - right. split; [|exact H1]. intros row I M. apply fullmatch_text_row in M; [|exact I].
    rewrite H2 in M; [discriminate|]. apply in_map. exact I.
Qed.

Lemma first_row_unique i j s : first_row i s -> first_row j s -> i = j.
Proof.
  intros (r & A1 & A2 & A3) (r' & B1 & B2 & B3). destruct (Nat.lt_trichotomy i j) as [H|[H|H]]; [|exact H|].
  - destruct (B3 _ _ H A1 A2).
  - destruct (A3 _ _ H B1 B2).
Qed.

Lemma get_token_item_spec s x : get_token_item s = x <->
  (exists i row, nth_error f15_configuration i = Some row /\ first_row i s /\ x = item_of_row row) \/
  ((forall row, In row f15_configuration -> ~ row_matches row s) /\ x = ([], F15_UNKNOWN, F15_SB_UNKNOWN)).
Proof.
  split.
  - intros <-. exact (get_token_item_cases s).
  - intros [(i & row & N & F & ->)|[F ->]]; destruct (get_token_item_cases s) as [(i' & row' & N' & F' & E)|[F' E]].
    + assert (i = i') by exact (first_row_unique i i' s F F'). subst i'. rewrite E. congruence.
    + destruct F as (r & A1 & A2 & _). destruct (F' r (nth_error_In _ _ A1) A2).
    + destruct F' as (r & A1 & A2 & _). destruct (F r (nth_error_In _ _ A1) A2).
    + exact E.
Qed.

Lemma get_token_item_type s : let '(_, b, sb) := get_token_item s in (b, sb) = get_token_type s.
Proof.
  destruct (get_token_item_cases s) as [(i & row & N & F & E)|[F E]]; rewrite E.
  - destruct row as [[p b] sb]. cbn. symmetry. apply get_token_type_spec. left. exists i, (p, b, sb). auto.
  - symmetry. apply get_token_type_spec. right. auto.
Qed.

Lemma no_empty_pattern : forallb (fun row => match item_of_row row with ([], _, _) => false | (_, F15_UNKNOWN, _) => false | _ => true end) f15_configuration = true.
Proof. vm_compute. reflexivity. Qed.
Lemma get_token_item_empty s : fst (fst (get_token_item s)) = [] <-> snd (fst (get_token_item s)) = F15_UNKNOWN.
Proof.
  destruct (get_token_item_cases s) as [(i & row & N & F & E)|[F E]]; rewrite E; [|cbn; tauto].
  pose proof no_empty_pattern as H. rewrite forallb_forall in H. specialize (H row (nth_error_In _ _ N)).
  destruct (item_of_row row) as [[[|c p] b] sb]; cbn; [discriminate H|]. split; [discriminate|]. intros ->. discriminate H.
Qed.

(** ** The printed table *)
Lemma pad_left_aligned w s : length s <= w -> right_aligned w (pad_left w s) s.
Proof. intro H. exists (w - length s). split; [reflexivity|]. unfold pad_left. rewrite app_length, repeat_length. lia. Qed.

Definition fits_b (v : py_version) (row : string * base_type * sub_type) : bool :=
  let '(p, b, s) := row in
  (length (of_str p) <=? 40) && (length (str_base v b) <=? 40) && (length (str_of_Z (base_code b)) <=? 4) &&
  (length (str_sub v s) <=? 40) && (length (str_of_Z (sub_code s)) <=? 4) &&
  forallb (fun c => negb (c =? 10)%N) (description_line v (item_of_row row)).
Lemma fits_described v row : fits_b v row = true -> described v row (description_line v (item_of_row row)).
Proof.
  destruct row as [[p b] s]. unfold fits_b, described. rewrite !andb_true_iff, !Nat.leb_le. intros [[[[[A B] C] D] E] F].
  eexists _, _, _, _, _. split; [reflexivity|]. split.
  - intro I. rewrite forallb_forall in F. specialize (F _ I). discriminate F.
  - repeat split; apply pad_left_aligned; assumption.
Qed.
Lemma print_split v : print_descriptions v = flat_map (fun l => l ++ [10%N]) (map (fun row => description_line v (item_of_row row)) f15_configuration).
Proof. unfold print_descriptions. rewrite !flat_map_concat_map, !map_map. reflexivity. Qed.

Lemma all_fit_311 : forallb (fits_b Py311) f15_configuration = true.
Proof. vm_compute. reflexivity. Qed.
Lemma printed_311 : exists lines, print_descriptions Py311 = flat_map (fun l => l ++ [10%N]) lines /\ Forall2 (described Py311) f15_configuration lines.
Proof.
  eexists. split; [apply print_split|]. pose proof all_fit_311 as H. rewrite forallb_forall in H.
  revert H. generalize f15_configuration as l. induction l as [|x l IH]; intro H; cbn [map]; constructor.
  - apply fits_described, H. left. reflexivity.
  - apply IH. intros y Hy. apply H. right. exact Hy.
Qed.

Lemma all_fit_310 : forallb (fun row => long_base row || fits_b Py310 row) f15_configuration = true.
Proof. vm_compute. reflexivity. Qed.
Lemma long_310 : forallb (fun row => negb (long_base row) || (length (description_line Py310 (item_of_row row)) =? 131)) f15_configuration = true.
Proof. vm_compute. reflexivity. Qed.
Lemma printed_310 : exists lines, print_descriptions Py310 = flat_map (fun l => l ++ [10%N]) lines /\
  Forall2 (fun row l => if long_base row then length l = 131 else described Py310 row l) f15_configuration lines.
Proof.
  eexists. split; [apply print_split|]. pose proof all_fit_310 as H. pose proof long_310 as K. rewrite forallb_forall in H, K.
  revert H K. generalize f15_configuration as l. induction l as [|x l IH]; intros H K; cbn [map]; constructor.
  - specialize (H x (or_introl eq_refl)). specialize (K x (or_introl eq_refl)). destruct (long_base x); cbn in H, K.
    + apply Nat.eqb_eq. exact K.
    + apply fits_described, H.
  - apply IH; intros y Hy; [apply H|apply K]; right; exact Hy.
Qed.

Lemma described_length v row line : described v row line -> length line = 130.
Proof.
  destruct row as [[p b] s]. intros (c1 & c2 & c3 & c4 & c5 & -> & _ & (k1 & _ & L1) & (k2 & _ & L2) & (k3 & _ & L3) & (k4 & _ & L4) & (k5 & _ & L5)).
  rewrite !app_length, L1, L2, L3, L4, L5. reflexivity.
Qed.
Lemma misaligned_310 : exists v row, In row f15_configuration /\ forall line, described v row line -> line <> description_line v (item_of_row row).
Proof.
  assert (H : existsb long_base f15_configuration = true) by (vm_compute; reflexivity).
  apply existsb_exists in H as (row & I & L). exists Py310, row. split; [exact I|]. intros line D ->.
  apply described_length in D. pose proof long_310 as K. rewrite forallb_forall in K. specialize (K row I). rewrite L in K. cbn in K.
  apply Nat.eqb_eq in K. rewrite K in D. discriminate D.
Qed.
