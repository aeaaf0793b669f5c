(** * Descriptions: the rest of F15TokenSyntaxDescriptions.py: the complete row that get_token_type
    returns, and print_descriptions. *)
From Coq Require Import ZArith NArith List Bool String.
From Verif Require Import PyBase Enums Regex SyntaxTable Syntax Xml Print.
Import List ListNotations.
Local Open Scope list_scope.
Local Open Scope nat_scope.

(** A returned row: the pattern string and the two types (TOKEN_REGEXP_IDX, TOKEN_BASE_IDENTIFIER_IDX,
    TOKEN_SUBTYPE_IDENTIFIER_IDX). *)
Definition item := (pstr * base_type * sub_type)%type.
Definition item_of_row (row : string * base_type * sub_type) : item := let '(p, b, s) := row in (of_str p, b, s).

(** [re.fullmatch(item[0], token_string)] for a configured row; the pattern is compiled at each call. *)
Definition fullmatch_text (p text : pstr) : bool :=
  match parse_regex p with Some r => fullmatch r text | None => false end.

(** F15TokenSyntaxDescriptions.py:394-397 *)
Fixpoint first_item (rows : list item) (text : pstr) : item :=
  match rows with
  | [] => ([], F15_UNKNOWN, F15_SB_UNKNOWN)
  | x :: rest => if fullmatch_text (fst (fst x)) text then x else first_item rest text
  end.
(** F15TokenSyntaxDescriptions.py:382-397 *)
Definition get_token_item (text : pstr) : item := first_item (map item_of_row f15_configuration) text.

(** F15TokenSyntaxDescriptions.py:407-417.  [print(a, b, c)] puts one blank between its arguments;
    [format] of an IntEnum member with a width formats the int, [str] of one depends on the version. *)
Definition description_line (v : py_version) (x : item) : pstr :=
  let '(p, b, s) := x in
  pad_left 40 p ++ $" " ++
  pad_left 40 (str_base v b) ++ pad_left 4 (str_of_Z (base_code b)) ++ $" " ++
  pad_left 40 (str_sub v s) ++ pad_left 4 (str_of_Z (sub_code s)).
Definition print_description (v : py_version) (x : item) : pstr := print_line (description_line v x).
(** F15TokenSyntaxDescriptions.py:399-405 *)
Definition print_descriptions (v : py_version) : pstr :=
  flat_map (print_description v) (map item_of_row f15_configuration).
