(** * SpecSeparators: other separators than the documented ones, and lists of tokens made by hand. *)
From Coq Require Import ZArith NArith List Bool.
From Verif Require Import PyBase Enums Tokenizer Ers Utils Parser SpecTokenizer SpecParser.
Import List ListNotations.
Local Open Scope list_scope.
Local Open Scope Z_scope.

(** ParseF15.parse_f15 on a fresh ExtractedRouteSequence and any list of tokens, with any texts, positions and types (F15Parse.py:52-128). *)
Definition parse_list (G : geodesic) (depth : nat) (l : list token) : out bool := parse_f15 G depth (mkSt (mkTokens l 0) new_ers 0).
(** The documented usage with set_whitespace(w) (main.py:16-40, Readme.md:50-80); without a call of set_whitespace [w] is [default_whitespace]. *)
Definition list_with (w field : pstr) : list token := tk_list (tokenize_string w field).
Definition parse_with (G : geodesic) (depth : nat) (w field : pstr) : out bool := parse_f15 G depth (mkSt (tokenize_string w field) new_ers 0).
(** There is a blank, or an end of the field, on either side of every '/'. *)
Definition slashes_apart (field : pstr) : Prop :=
  forall i, char_at field i slash -> (forall c, char_at field (i - 1) c -> In c default_whitespace) /\ (forall c, char_at field (i + 1) c -> In c default_whitespace).
