(** * PropsUse: C70 and C71. *)
From Coq Require Import ZArith NArith List Bool String.
From Verif Require Import PyBase Tokenizer Ers Utils Parser SpecParser SpecUse UseFacts PropsParser.
Import List ListNotations.
Local Open Scope list_scope.
Local Open Scope nat_scope.

(** C70: Readme.md and main.py say that errors exist if the value returned by parse_f15 is greater than zero.
    A Python bool is the integer 0 or 1 ([Z.b2z]). *)
Theorem C70_readme_return_value_refuted : exists (G : geodesic) (field : pstr) (b : bool) (s : st),
  parse_field15 G 100 field = Ok b s /\ (0 < Z.b2z b)%Z /\ e_errs (s_ers s) = [].
Proof. exists flat, ($"N0450F350 ABC"). vm_compute. eexists _, _. repeat split. Qed.
Print Assumptions C70_readme_return_value_refuted.
(** It is the other way round for every field: greater than zero exactly if there are no errors. *)
Theorem C70_return_value_inverted : forall (G : geodesic) (depth : nat) (field : pstr) (b : bool) (s : st),
  parse_field15 G depth field = Ok b s ->
  ((0 < Z.b2z b)%Z <-> e_errs (s_ers s) = []) /\ ~ ((0 < Z.b2z b)%Z <-> e_errs (s_ers s) <> []).
Proof.
  exact inverted.
Qed.
Print Assumptions C70_return_value_inverted.
Example C70_example : exists s, parse_field15 flat 100 bad_route = Ok false s.
Proof. vm_compute. eexists; reflexivity. Qed.

(** C71: after any calls on a Tokenize object, get_tokens gives the tokens of the string and the separators that were
    the last ones set before the last tokenize, whatever was set, tokenized or read otherwise.  Before any set_whitespace
    these are blank, line feed, tab and carriage return. *)
Theorem C71_history : forall us vs : list use, never_tokenized vs ->
  tz_tokens (after (us ++ DoTokenize :: vs)) = tokenize_string (last_whitespace us [32; 10; 9; 13]%N) (last_string us []) /\
  (never_tokenized us -> tz_tokens (after us) = new_tokens).
Proof. intros us vs H. exact (conj (history us vs H) (history_never us)). Qed.
Print Assumptions C71_history.

(** With an object for each thread, as the Readme demands, every order of the calls gives both threads the tokens
    they would get alone. *)
Theorem C71_own_objects : forall (i j : nat) (a b : list use) (h : list (nat * use)), i <> j ->
  interleaved (map (pair i) a) (map (pair j) b) h ->
  objects_after h i = after a /\ objects_after h j = after b.
Proof. intros i j a b h N H. rewrite !objects_own. destruct (calls_interleaved i j a b h N H) as [-> ->]. split; reflexivity. Qed.
Print Assumptions C71_own_objects.

(** A shared object, which main.py:11-12 calls thread safe, is not: the first thread reads the tokens of the
    second one's string. *)
Definition thread (s : pstr) : list use := [SetString s; DoTokenize; GetTokens].
Theorem C71_shared_object_refuted : exists (s1 s2 : pstr) (h h' : list (nat * use)),
  interleaved (map (pair 1) (thread s1)) (map (pair 2) (thread s2)) (h ++ (1, GetTokens) :: h') /\
  tz_tokens (after (map snd h)) <> tz_tokens (after (thread s1)) /\
  tz_tokens (after (map snd h)) = tz_tokens (after (thread s2)).
Proof.
  exists ($"AAA"), ($"BBB"), [(1, SetString ($"AAA")); (2, SetString ($"BBB")); (1, DoTokenize)], [(2, DoTokenize); (2, GetTokens)].
  split; [repeat constructor|]. split; [vm_compute; discriminate|vm_compute; reflexivity].
Qed.
Print Assumptions C71_shared_object_refuted.

Example C71_example : exists h, interleaved (map (pair 1) (thread ($"AAA"))) (map (pair 2) (thread ($"B C"))) h /\
  calls_on 1 h <> [] /\ map t_text (tk_list (tz_tokens (objects_after h 1))) = [$"AAA"] /\
  map t_text (tk_list (tz_tokens (objects_after h 2))) = [$"B"; $"C"].
Proof.
  exists [(1, SetString ($"AAA")); (2, SetString ($"B C")); (1, DoTokenize); (2, DoTokenize); (1, GetTokens); (2, GetTokens)].
  split; [repeat constructor|]. vm_compute. split; [discriminate|]. split; reflexivity.
Qed.
Example C71_history_example :
  tz_tokens (after [SetString ($"A/B"); DoTokenize; SetWhitespace ($"/"); GetTokens; DoTokenize; SetString ($"C")]) = tokenize_string ($"/") ($"A/B").
Proof. vm_compute. reflexivity. Qed.
