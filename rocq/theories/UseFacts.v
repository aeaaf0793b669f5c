(** * UseFacts: lemmas for PropsUse. *)
From Coq Require Import ZArith NArith List Bool String Lia.
From Verif Require Import PyBase Tokenizer Ers Utils Parser ParserFacts SpecUse.
Import List ListNotations.
Local Open Scope list_scope.
Local Open Scope nat_scope.

Lemma fold_string us z : tz_string (fold_left call_on us z) = last_string us (tz_string z).
Proof. revert z. induction us as [|u us IH]; intro z; [reflexivity|]. cbn [fold_left]. rewrite IH. destruct u; reflexivity. Qed.
Lemma fold_whitespace us z : tz_whitespace (fold_left call_on us z) = last_whitespace us (tz_whitespace z).
Proof. revert z. induction us as [|u us IH]; intro z; [reflexivity|]. cbn [fold_left]. rewrite IH. destruct u; reflexivity. Qed.
Lemma fold_tokens us z : never_tokenized us -> tz_tokens (fold_left call_on us z) = tz_tokens z.
Proof.
  revert z. induction us as [|u us IH]; intros z H; [reflexivity|]. cbn [fold_left]. rewrite IH.
  - destruct u; try reflexivity. destruct H. left. reflexivity.
  - intro I. apply H. right. exact I.
Qed.

Lemma history_never us : never_tokenized us -> tz_tokens (after us) = new_tokens.
Proof. exact (fold_tokens us new_tokenize). Qed.
Lemma history us vs : never_tokenized vs ->
  tz_tokens (after (us ++ DoTokenize :: vs)) = tokenize_string (last_whitespace us default_whitespace) (last_string us []).
Proof.
  intro H. unfold after. rewrite fold_left_app. cbn [fold_left]. rewrite fold_tokens by exact H. cbn [call_on].
  unfold tokenize, tokenize_string. cbn [tz_tokens]. rewrite fold_string, fold_whitespace. reflexivity.
Qed.

Lemma objects_fold h m i :
  fold_left (fun m p => update m (fst p) (call_on (m (fst p)) (snd p))) h m i = fold_left call_on (calls_on i h) (m i).
Proof.
  revert m. induction h as [|[j u] h IH]; intro m; [reflexivity|]. cbn [fold_left fst snd]. rewrite IH.
  unfold calls_on, update. cbn [filter fst]. rewrite (Nat.eqb_sym i j). destruct (Nat.eqb_spec j i) as [->|N].
  - reflexivity.
  - reflexivity.
Qed.
Lemma objects_own h i : objects_after h i = after (calls_on i h).
Proof. exact (objects_fold h _ i). Qed.

Lemma calls_interleaved i j (a b : list use) h : i <> j ->
  interleaved (map (pair i) a) (map (pair j) b) h -> calls_on i h = a /\ calls_on j h = b.
Proof.
  intros N H. remember (map (pair i) a) as x eqn:Ex. remember (map (pair j) b) as y eqn:Ey.
  revert a b Ex Ey. induction H as [|p x y h H IH|p x y h H IH]; intros a b Ex Ey.
  - destruct a; [|discriminate]. destruct b; [|discriminate]. split; reflexivity.
  - destruct a as [|u a]; [discriminate|]. cbn in Ex. injection Ex as -> Ex. destruct (IH a b Ex Ey) as [A B].
    unfold calls_on in *. cbn [filter fst]. rewrite Nat.eqb_refl. destruct (Nat.eqb_spec i j) as [E|_]; [contradiction|].
    cbn [map snd]. rewrite A. auto.
  - destruct b as [|u b]; [discriminate|]. cbn in Ey. injection Ey as -> Ey. destruct (IH a b Ex Ey) as [A B].
    unfold calls_on in *. cbn [filter fst]. rewrite Nat.eqb_refl. destruct (Nat.eqb_spec j i) as [E|_]; [congruence|].
    cbn [map snd]. rewrite B. auto.
Qed.

Lemma inverted G depth field b s : parse_field15 G depth field = Ok b s ->
  ((0 < Z.b2z b)%Z <-> e_errs (s_ers s) = []) /\ ~ ((0 < Z.b2z b)%Z <-> e_errs (s_ers s) <> []).
Proof.
  intro H. apply return_value in H. destruct b; cbn.
  - assert (E : e_errs (s_ers s) = []) by (apply H; reflexivity). split; [split; intros _; [exact E|reflexivity]|].
    intro K. apply (proj1 K); [reflexivity|exact E].
  - assert (E : e_errs (s_ers s) <> []) by (intro E; apply H in E; discriminate E). split; [split; intro K; [discriminate K|contradiction]|].
    intro K. discriminate (proj2 K E).
Qed.
