(** * SpecRecovery: what may be relied upon when a field has errors. *)
From Coq Require Import ZArith NArith List Bool String.
From Verif Require Import PyBase PyFloat Enums Tokenizer Ers SpecParser.
Import List ListNotations.
Local Open Scope list_scope.

(** The tokens that name an element of the route or begin a section, and those that are no token of a route at all.
    The others are modifiers (speed, level, stay time), punctuation, C and T. *)
Definition is_element (t : token) : bool :=
  match t_base t with
  | F15_POINT | F15_ROUTE | F15_DCT | F15_SID | F15_STAR | F15_SID_STAR | F15_BREAK_START | F15_SPEED_VFR | F15_UNKNOWN | F15_TOO_LONG => true
  | _ => false
  end.
(** The result shows the token: as a record at its place, as an error at its place, or within the text of a section. *)
Definition shown (e : ers) (t : token) : Prop :=
  Exists (fun r => r_start r = t_start t /\ r_end r = t_end t) (e_recs e) \/
  Exists (fun r => r_start r = t_start t /\ r_end r = t_end t /\ r_name r = t_text t) (e_errs e) \/
  Exists (fun r => exists u v, r_break r = u ++ t_text t ++ v) (e_recs e).
