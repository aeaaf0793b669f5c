(** * PropsAppend: C93 — texts appended to a record are joined by blanks, and nothing else changes. *)
From Coq Require Import ZArith NArith List Bool String Lia.
From Verif Require Import PyBase PyFloat Enums Ers SpecSummary SpecAppend Append.
Import List ListNotations.
Local Open Scope list_scope.

(** C93. After any calls of append_break_text and append_error_text in any order, with texts that are not empty, the two texts are
    those that were there and those appended, in the order of the calls, with a blank in between; all else is as before. *)
Theorem C93_joined : forall (l : list appended) (r : rrec), Forall (fun a => text_of_app a <> []) l ->
  append_all l r = set_r_err (spaced (there (r_err r) ++ errors l)) (set_r_break (spaced (there (r_break r) ++ breaks l)) r).
Proof. exact append_all_texts. Qed.
Print Assumptions C93_joined.
(** With any texts, empty ones too, the words are kept in order. *)
Theorem C93_words : forall (l : list appended) (r : rrec),
  words_of (r_break (append_all l r)) = words_of (r_break r) ++ flat_map words_of (breaks l) /\
  words_of (r_err (append_all l r)) = words_of (r_err r) ++ flat_map words_of (errors l).
Proof. exact append_all_words. Qed.
Print Assumptions C93_words.
(** An empty text appended first leaves no blank, one appended later does. *)
Theorem C93_empty_text_refuted : exists r a b,
  r_break (append_all [ToBreak []; ToBreak a] r) <> spaced (there (r_break r) ++ [[]; a]) /\
  r_break (append_all [ToBreak a; ToBreak []; ToBreak b] r) <> spaced [a; b].
Proof. exists (new_rec [] 0 0 F15_POINT F15_SB_UNKNOWN), ($"ABC"), ($"DEF"). split; intro H; vm_compute in H; discriminate H. Qed.
Print Assumptions C93_empty_text_refuted.

(** Two texts of a section and two error texts, interleaved, on a record that has a text of a section already. *)
Example C93_example :
  let r := set_r_break ($"A") (new_rec ($"VFR") 0 3 F15_BREAK_START F15_SB_VFR) in
  let l := [ToBreak ($"B"); ToError ($"no"); ToBreak ($"C"); ToError ($"way")] in
  Forall (fun a => text_of_app a <> []) l /\ r_break (append_all l r) = $"A B C" /\ r_err (append_all l r) = $"no way" /\ r_name (append_all l r) = $"VFR".
Proof. split; [repeat constructor; discriminate|]. repeat split; vm_compute; reflexivity. Qed.
