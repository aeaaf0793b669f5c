(** * Syntax: classification of a token text.
    Models F15TokenSyntaxDefinition.get_token_type. *)
From Coq Require Import ZArith NArith List Bool String.
From Verif Require Import PyBase Enums Regex SyntaxTable.
Import ListNotations.

(** One row of the configuration with its pattern compiled.  A pattern outside the
    sublanguage understood by [parse_regex] would compile to [None];
    [compiled_total] below shows that none does. *)
Definition compile_row (row : string * base_type * sub_type) : option re * base_type * sub_type :=
  let '(p, b, s) := row in (parse_regex (of_str p), b, s).

Definition compiled_configuration : list (option re * base_type * sub_type) :=
  Eval vm_compute in map compile_row f15_configuration.

Lemma compiled_configuration_ok : compiled_configuration = map compile_row f15_configuration.
Proof. vm_compute; reflexivity. Qed.

Lemma compiled_total : forallb (fun r => match fst (fst r) with Some _ => true | None => false end)
                               compiled_configuration = true.
Proof. vm_compute; reflexivity. Qed.

(** F15TokenSyntaxDescriptions.py:382-397: the first row whose pattern matches the
    whole token wins; otherwise UNKNOWN.  Simplification: the returned row is
    reduced to its two type identifiers (the pattern string is never used by the
    callers, F15Parse.py:1701-1703). *)
Fixpoint first_match (rows : list (option re * base_type * sub_type)) (text : pstr) : base_type * sub_type :=
  match rows with
  | [] => (F15_UNKNOWN, F15_SB_UNKNOWN)
  | (Some r, b, s) :: rest => if fullmatch r text then (b, s) else first_match rest text
  | (None, _, _) :: rest => first_match rest text
  end.

Definition get_token_type (text : pstr) : base_type * sub_type :=
  first_match compiled_configuration text.
