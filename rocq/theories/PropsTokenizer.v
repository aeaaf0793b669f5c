(** * PropsTokenizer: C01-C06. *)
From Coq Require Import ZArith NArith List Bool String.
From Verif Require Import PyBase Tokenizer SpecTokenizer TokenizerProofs.
Import ListNotations.
Local Open Scope list_scope.
Open Scope Z_scope.

(** C01: positions address the text. *)
Theorem C01_positions_address_text : forall (w s : pstr) (t : token),
  In t (tk_list (tokenize_string w s)) ->
  0 <= t_start t < t_end t /\ t_end t <= zlen s /\
  slice s (Some (t_start t)) (Some (t_end t)) = t_text t.
Proof. intros w s t. rewrite tokenize_string_toks. exact (tkz_addresses _ _ _ (toks_tokenization w s) t). Qed.
Print Assumptions C01_positions_address_text.

(** C02: order, disjointness, coverage. *)
Theorem C02_ordered_disjoint_covering : forall w s : pstr,
  in_order (tk_list (tokenize_string w s)) /\
  (forall i c, char_at s i c ->
     ((exists t, In t (tk_list (tokenize_string w s)) /\ inside t i) <-> (~ separator w c \/ c = slash))).
Proof.
  intros w s. rewrite tokenize_string_toks.
  exact (conj (tkz_order _ _ _ (toks_tokenization w s)) (tkz_cover _ _ _ (toks_tokenization w s))).
Qed.
Print Assumptions C02_ordered_disjoint_covering.

(** C03: shape of tokens. *)
Theorem C03_maximal_or_slash : forall (w s : pstr) (t : token),
  In t (tk_list (tokenize_string w s)) -> lone_slash w t \/ maximal_run w s t.
Proof. intros w s t. rewrite tokenize_string_toks. exact (tkz_shape _ _ _ (toks_tokenization w s) t). Qed.
Print Assumptions C03_maximal_or_slash.

(** C01-C03 together determine the result: a list of tokens meets the specification
    exactly when it is the one the tokenizer produces. *)
Theorem C03_specification_is_exact : forall (w s : pstr) (l : list token),
  tokenization w s l <-> l = tk_list (tokenize_string w s).
Proof.
  intros w s l. rewrite tokenize_string_toks. split.
  - intro H. exact (tokenization_unique _ _ _ _ H (toks_tokenization w s)).
  - intros ->. exact (toks_tokenization w s).
Qed.
Print Assumptions C03_specification_is_exact.

Example tokenizer_example :
  tk_list (tokenize_string f15_whitespace ($"N0450F350  A/B")) =
  [new_token ($"N0450F350") 0 9; new_token ($"A") 11 12; new_token ($"/") 12 13; new_token ($"B") 13 14].
Proof. vm_compute; reflexivity. Qed.
(** Without '/' among the separators it is an ordinary character. *)
Example tokenizer_example_default :
  tk_list (tokenize_string default_whitespace ($"A/B C")) = [new_token ($"A/B") 0 3; new_token ($"C") 4 5].
Proof. vm_compute; reflexivity. Qed.

(** C04: layout. *)
Theorem C04_blank_splits : forall (w a b : pstr) (c : N),
  separator w c -> c <> slash -> texts w (a ++ c :: b) = texts w a ++ texts w b.
Proof. intros w a b c. exact (texts_blank w a c b). Qed.
Print Assumptions C04_blank_splits.

Theorem C04_slash_splits : forall w a b : pstr,
  separator w slash -> texts w (a ++ slash :: b) = texts w a ++ [[slash]] ++ texts w b.
Proof. intros w a b. exact (texts_slash w a b). Qed.
Print Assumptions C04_slash_splits.

Theorem C04_word_is_one_token : forall w x : pstr,
  x <> [] -> (forall c, In c x -> ~ separator w c) -> texts w x = [x].
Proof. exact texts_word. Qed.
Print Assumptions C04_word_is_one_token.

Theorem C04_rejoin : forall w s : pstr, separator w 32%N -> texts w (join_sp (texts w s)) = texts w s.
Proof. exact texts_rejoin. Qed.
Print Assumptions C04_rejoin.

(** A tokenizer that has been used before gives the same tokens as a new one. *)
Theorem C04_used_tokenizer : forall (z : tokenize_obj) (w s : pstr),
  tz_tokens (tokenize (set_whitespace (set_string_to_tokenize z s) w)) = tokenize_string w s /\
  tz_tokens (tokenize (tokenize z)) = tz_tokens (tokenize z).
Proof. intros z w s. exact (conj (tokenize_reused z w s) (tokenize_twice z)). Qed.
Print Assumptions C04_used_tokenizer.

Example rejoin_example : join_sp (texts f15_whitespace ($" A/B   C")) = $"A / B C".
Proof. vm_compute; reflexivity. Qed.

(** C05: the cursor. *)
Theorem C05_get_token_at_total : forall (ts : tokens) (i : Z),
  (0 <= i < zlen (tk_list ts) ->
     exists t, get_token_at ts i = Some t /\ nth_error (tk_list ts) (Z.to_nat i) = Some t) /\
  (~ 0 <= i < zlen (tk_list ts) -> get_token_at ts i = None).
Proof. intros ts i. exact (conj (get_token_at_in ts i) (get_token_at_out ts i)). Qed.
Print Assumptions C05_get_token_at_total.

(** get_first_token and then k times get_next_token: all tokens in order, then None forever. *)
Theorem C05_enumeration : forall (ts : tokens) (k : nat),
  snd (get_first_token ts) :: nexts k (fst (get_first_token ts)) =
  firstn (S k) (map Some (tk_list ts) ++ repeat None (S k)).
Proof. exact enumerate_all. Qed.
Print Assumptions C05_enumeration.

(** Peeking (which returns no new cursor) sees what the k-th get_next_token returns. *)
Theorem C05_peek_agrees_with_next : forall (k : nat) (ts : tokens),
  nth_error (nexts (S k) ts) k = Some (peek_next_token ts (Z.of_nat (S k))).
Proof. exact peek_is_kth_next. Qed.
Print Assumptions C05_peek_agrees_with_next.

(** The same backwards. *)
Theorem C05_peek_agrees_with_previous : forall (k : nat) (ts : tokens),
  nth_error (prevs (S k) ts) k = Some (peek_previous_token ts (Z.of_nat (S k))).
Proof. exact peek_is_kth_prev. Qed.
Print Assumptions C05_peek_agrees_with_previous.

Theorem C05_next_prev_inverse : forall ts : tokens,
  get_previous_token (fst (get_next_token ts)) = (ts, get_current_token ts) /\
  get_next_token (fst (get_previous_token ts)) = (ts, get_current_token ts).
Proof. intro ts. exact (conj (next_then_prev ts) (prev_then_next ts)). Qed.
Print Assumptions C05_next_prev_inverse.

Theorem C05_last_token : forall ts : tokens,
  exists c, get_last_token ts = (mkTokens (tk_list ts) c, nth_error (rev (tk_list ts)) 0) /\
            c = zlen (tk_list ts) - 1.
Proof. exact get_last_spec. Qed.
Print Assumptions C05_last_token.

Example cursor_example :
  let ts := tokenize_string f15_whitespace ($"A B") in
  map (option_map t_text) (snd (get_first_token ts) :: nexts 3 (fst (get_first_token ts))) =
  [Some ($"A"); Some ($"B"); None; None].
Proof. vm_compute; reflexivity. Qed.
Example cursor_back_example :
  let ts := fst (get_last_token (tokenize_string f15_whitespace ($"A B C"))) in
  map (option_map t_text) (prevs 3 ts) = [Some ($"B"); Some ($"A"); None] /\
  option_map t_text (peek_previous_token ts 2) = Some ($"A").
Proof. vm_compute; split; reflexivity. Qed.

(** C06: insertion and removal. *)
Theorem C06_insert : forall (ts : tokens) (t : token) (i : Z),
  exists l1 l2, tk_list ts = l1 ++ l2 /\ tk_list (insert_token ts t i) = l1 ++ t :: l2 /\
                tk_cur (insert_token ts t i) = tk_cur ts /\
                zlen l1 = (if i <? 0 then Z.max 0 (zlen (tk_list ts) + i) else Z.min i (zlen (tk_list ts))).
Proof. exact insert_token_spec. Qed.
Print Assumptions C06_insert.

Theorem C06_remove_keeps_up_to_split : forall (ts : tokens) (k : Z) (j : nat), -1 <= k ->
  nth_error (tk_list (remove_tokens_from_end_of_list ts k)) j =
  (if Z.of_nat j <=? k then nth_error (tk_list ts) j else None).
Proof. exact remove_keeps. Qed.
Print Assumptions C06_remove_keeps_up_to_split.

Theorem C06_remove_general : forall (ts : tokens) (k : Z),
  tk_cur (remove_tokens_from_end_of_list ts k) = tk_cur ts /\
  tk_list (remove_tokens_from_end_of_list ts k) =
  firstn (Z.to_nat (if k <? -1 then zlen (tk_list ts) + k + 1 else k + 1)) (tk_list ts).
Proof. exact remove_spec. Qed.
Print Assumptions C06_remove_general.

Example insert_remove_example :
  let ts := tokenize_string f15_whitespace ($"A B C") in
  map t_text (tk_list (insert_token ts (new_token ($"X") 0 1) 1)) = [$"A"; $"X"; $"B"; $"C"] /\
  map t_text (tk_list (remove_tokens_from_end_of_list ts 1)) = [$"A"; $"B"] /\
  map t_text (tk_list (remove_tokens_from_end_of_list ts (-2))) = [$"A"; $"B"].
Proof. vm_compute; repeat split. Qed.
