(** * Tokenizer: models Tokenizer/Token.py, Tokenizer/Tokens.py, Tokenizer/Tokenize.py. *)
From Coq Require Import ZArith NArith List Bool String.
From Verif Require Import PyBase Enums.
Import ListNotations.
Open Scope Z_scope.

(** Token.py:19-49 (class Token and its constructor).  The setters at Token.py:51-133
    become record updates. *)
Record token := mkToken {
  t_text : pstr;
  t_start : Z;
  t_end : Z;
  t_base : base_type;
  t_sub : sub_type }.

(** Token.py:36-49: types start as UNKNOWN. *)
Definition new_token (text : pstr) (s e : Z) : token :=
  mkToken text s e F15_UNKNOWN F15_SB_UNKNOWN.

(** Token.py:51-57 *)
Definition set_token_string (t : token) (x : pstr) : token :=
  mkToken x (t_start t) (t_end t) (t_base t) (t_sub t).
(** Token.py:103-109, 119-125 *)
Definition set_token_types (t : token) (b : base_type) (s : sub_type) : token :=
  mkToken (t_text t) (t_start t) (t_end t) b s.

(** Tokens.py:10-23 (class Tokens: the list and the cursor). *)
Record tokens := mkTokens { tk_list : list token; tk_cur : Z }.
Definition new_tokens : tokens := mkTokens [] 0.

(** Tokens.py:25-30 *)
Definition get_number_of_tokens (ts : tokens) : Z := zlen (tk_list ts).
(** Tokens.py:32-38 *)
Definition append_token (ts : tokens) (t : token) : tokens := mkTokens (tk_list ts ++ [t]) (tk_cur ts).
(** Tokens.py:40-47 *)
Definition insert_token (ts : tokens) (t : token) (i : Z) : tokens :=
  mkTokens (list_insert (tk_list ts) i t) (tk_cur ts).
(** Tokens.py:49-59 *)
Definition create_append_token (ts : tokens) (text : pstr) (s e : Z) : tokens :=
  append_token ts (new_token text s e).
(** Tokens.py:68-77 *)
Definition get_token_at (ts : tokens) (i : Z) : option token :=
  if (i <? 0) || (zlen (tk_list ts) <=? i) then None
  else nth_error (tk_list ts) (Z.to_nat i).
(** Tokens.py:79-86 *)
Definition get_first_token (ts : tokens) : tokens * option token :=
  let ts' := mkTokens (tk_list ts) 0 in (ts', get_token_at ts' (tk_cur ts')).
(** Tokens.py:88-95 *)
Definition get_last_token (ts : tokens) : tokens * option token :=
  let ts' := mkTokens (tk_list ts) (get_number_of_tokens ts - 1) in
  (ts', get_token_at ts' (get_number_of_tokens ts' - 1)).
(** Tokens.py:97-105 *)
Definition get_next_token (ts : tokens) : tokens * option token :=
  let ts' := mkTokens (tk_list ts) (tk_cur ts + 1) in (ts', get_token_at ts' (tk_cur ts')).
(** Tokens.py:107-115 *)
Definition get_previous_token (ts : tokens) : tokens * option token :=
  let ts' := mkTokens (tk_list ts) (tk_cur ts - 1) in (ts', get_token_at ts' (tk_cur ts')).
(** Tokens.py:117-124 *)
Definition peek_next_token (ts : tokens) (look_ahead : Z) : option token :=
  get_token_at ts (tk_cur ts + look_ahead).
(** Tokens.py:126-133 *)
Definition peek_previous_token (ts : tokens) (look_behind : Z) : option token :=
  get_token_at ts (tk_cur ts - look_behind).
(** Tokens.py:135-141 *)
Definition get_current_token (ts : tokens) : option token := get_token_at ts (tk_cur ts).
(** Tokens.py:143-150 *)
Definition remove_tokens_from_end_of_list (ts : tokens) (split_index : Z) : tokens :=
  mkTokens (slice (tk_list ts) None (Some (split_index + 1))) (tk_cur ts).

(** Tokenize.py:11-27 (class Tokenize). *)
Record tokenize_obj := mkTokenize {
  tz_string : pstr; tz_whitespace : pstr; tz_tokens : tokens }.
(** Tokenize.py:27: the default separators " \n\t\r". *)
Definition default_whitespace : pstr := [32; 10; 9; 13]%N.
(** Tokenize.py:20-27 *)
Definition new_tokenize : tokenize_obj := mkTokenize [] default_whitespace new_tokens.
(** Tokenize.py:54-60 *)
Definition set_string_to_tokenize (z : tokenize_obj) (s : pstr) : tokenize_obj :=
  mkTokenize s (tz_whitespace z) (tz_tokens z).
(** Tokenize.py:69-80 *)
Definition set_whitespace (z : tokenize_obj) (w : pstr) : tokenize_obj :=
  mkTokenize (tz_string z) w (tz_tokens z).

(** Tokenize.py:96-105 *)
Definition save_token (ts : tokens) (text : pstr) (idx : Z) : tokens :=
  if 0 <? zlen text then create_append_token ts text (idx - zlen text) idx else ts.

(** The '/' character. *)
Definition slash : N := 47.

(** Body of the loop Tokenize.py:40-50, as recursion on the remaining string with the
    loop variables idx and token_text.  [item in "/"] for a one-character item is
    equality with '/'. *)
Fixpoint tokenize_loop (w : pstr) (ts : tokens) (idx : Z) (text : pstr) (s : pstr) : tokens :=
  match s with
  | [] => save_token ts text idx                                   (* :52 *)
  | item :: rest =>
      if char_in item w then                                       (* :41 *)
        let ts1 := if 0 <? zlen text then save_token ts text idx else ts in   (* :42-43 *)
        let ts2 := if N.eqb item slash then save_token ts1 [item] (idx + 1) else ts1 in (* :44-46 *)
        tokenize_loop w ts2 (idx + 1) [] rest                      (* :47,:50 *)
      else
        tokenize_loop w ts (idx + 1) (text ++ [item]) rest         (* :49-50 *)
  end.

(** Tokenize.py:29-52 *)
Definition tokenize (z : tokenize_obj) : tokenize_obj :=
  mkTokenize (tz_string z) (tz_whitespace z)
             (tokenize_loop (tz_whitespace z) new_tokens 0 [] (tz_string z)).

(** The usage in main.py:13-28 / Readme.md: a fresh tokenizer, string and separators set, tokenized. *)
Definition tokenize_string (w s : pstr) : tokens :=
  tz_tokens (tokenize (set_whitespace (set_string_to_tokenize new_tokenize s) w)).

(** main.py:22, Readme.md: the field-15 separators " \n\t\r/". *)
Definition f15_whitespace : pstr := [32; 10; 9; 13; 47]%N.
