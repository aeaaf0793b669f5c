(** * Append: texts appended to a record. *)
From Coq Require Import ZArith NArith List Bool String Lia.
From Verif Require Import PyBase PyFloat Enums Ers TokenizerProofs SpecSummary Summary SpecAppend.
Import List ListNotations.
Local Open Scope list_scope.

Lemma spaced_snoc l t : l <> [] -> spaced (l ++ [t]) = spaced l ++ 32%N :: t.
Proof.
  induction l as [|x l IH]; [congruence|]. intros _. destruct l as [|y l]; [reflexivity|].
  change (x ++ 32%N :: spaced ((y :: l) ++ [t]) = (x ++ 32%N :: spaced (y :: l)) ++ 32%N :: t). rewrite IH by discriminate. rewrite <- app_assoc. reflexivity.
Qed.
Lemma spaced_nonempty l : l <> [] -> Forall (fun t => t <> []) l -> spaced l <> [].
Proof. destruct l as [|x [|y l]]; intros N H; [congruence|now apply Forall_inv in H|]. intro K. change (x ++ 32%N :: spaced (y :: l) = []) in K. destruct x; discriminate K. Qed.
Lemma there_nonempty t : Forall (fun t => t <> []) (there t).
Proof. destruct t; repeat constructor. discriminate. Qed.
Lemma spaced_there t : spaced (there t) = t. Proof. destruct t; reflexivity. Qed.
Lemma eqb_nil (t : pstr) : pstr_eqb t [] = match t with [] => true | _ => false end.
Proof. destruct t; reflexivity. Qed.
(** One text after others. *)
Lemma joined (l : list pstr) (t : pstr) : Forall (fun t => t <> []) l -> (if pstr_eqb (spaced l) [] then t else spaced l ++ 32%N :: t) = spaced (l ++ [t]).
Proof.
  intro H. destruct l as [|x l]; [reflexivity|]. rewrite spaced_snoc by discriminate. rewrite eqb_nil. destruct (spaced (x :: l)) eqn:E; [|reflexivity]. exfalso. revert E. apply spaced_nonempty; [discriminate|exact H].
Qed.
Lemma breaks_app l a : breaks (l ++ [a]) = breaks l ++ breaks [a]. Proof. apply flat_map_app. Qed.
Lemma errors_app l a : errors (l ++ [a]) = errors l ++ errors [a]. Proof. apply flat_map_app. Qed.
Lemma nonempty_parts l : Forall (fun a => text_of_app a <> []) l -> Forall (fun t => t <> []) (breaks l) /\ Forall (fun t => t <> []) (errors l).
Proof. induction 1 as [|a l Ha _ (IH1 & IH2)]; [split; constructor|]. destruct a; cbn [breaks errors flat_map app] in *; split; auto; now constructor. Qed.
Lemma rec_eta r : set_r_err (r_err r) (set_r_break (r_break r) r) = r. Proof. destruct r. reflexivity. Qed.
Theorem append_all_texts l r : Forall (fun a => text_of_app a <> []) l ->
  append_all l r = set_r_err (spaced (there (r_err r) ++ errors l)) (set_r_break (spaced (there (r_break r) ++ breaks l)) r).
Proof.
  induction l as [|a l IH] using rev_ind; intro H.
  - cbn [append_all fold_left breaks errors flat_map]. rewrite !app_nil_r, !spaced_there. now rewrite rec_eta.
  - apply Forall_app in H as (H & Ha). specialize (IH H). unfold append_all in *. rewrite fold_left_app. cbn [fold_left]. rewrite IH. clear IH.
    rewrite breaks_app, errors_app, !app_assoc. destruct (nonempty_parts l H) as (N1 & N2).
    assert (M1 : Forall (fun t => t <> []) (there (r_break r) ++ breaks l)) by (apply Forall_app; split; [apply there_nonempty|exact N1]).
    assert (M2 : Forall (fun t => t <> []) (there (r_err r) ++ errors l)) by (apply Forall_app; split; [apply there_nonempty|exact N2]).
    destruct a as [t|t]; cbn [breaks errors flat_map app]; rewrite !app_nil_r.
    + rewrite <- (joined _ t M1). unfold append_break_text. cbn [r_break set_r_err set_r_break]. destruct (pstr_eqb _ _); reflexivity.
    + rewrite <- (joined _ t M2). unfold append_error_text. cbn [r_err set_r_err]. destruct (pstr_eqb _ _); reflexivity.
Qed.
(** Any texts: their words are kept in order. *)
Lemma append_words s t : words_of (if pstr_eqb s [] then t else s ++ 32%N :: t) = words_of s ++ words_of t.
Proof. rewrite eqb_nil. destruct s as [|c s]; [reflexivity|]. apply words_app. Qed.
Lemma append_all_words l r : words_of (r_break (append_all l r)) = words_of (r_break r) ++ flat_map words_of (breaks l) /\
  words_of (r_err (append_all l r)) = words_of (r_err r) ++ flat_map words_of (errors l).
Proof.
  induction l as [|a l IH] using rev_ind.
  - cbn [append_all fold_left breaks errors flat_map]. rewrite !app_nil_r. auto.
  - destruct IH as (I1 & I2). unfold append_all in *. rewrite fold_left_app. cbn [fold_left]. rewrite breaks_app, errors_app, !flat_map_app, !app_assoc, <- I1, <- I2. generalize (fold_left (fun r a => match a with ToBreak t => append_break_text t r | ToError t => append_error_text t r end) l r). intro q.
    destruct a as [t|t]; cbn [breaks errors flat_map app]; rewrite !app_nil_r.
    + rewrite <- (append_words (r_break q) t). unfold append_break_text. destruct (pstr_eqb (r_break q) []); split; reflexivity.
    + rewrite <- (append_words (r_err q) t). unfold append_error_text. destruct (pstr_eqb (r_err q) []); split; reflexivity.
Qed.
