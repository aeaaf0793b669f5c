(** * SpecAppend: texts joined by blanks, and what a series of appended texts leaves in a record. *)
From Coq Require Import ZArith NArith List Bool String.
From Verif Require Import PyBase PyFloat Enums Ers.
Import List ListNotations.
Local Open Scope list_scope.

(** The texts one after the other with a blank in between. *)
Fixpoint spaced (l : list pstr) : pstr :=
  match l with
  | [] => []
  | [t] => t
  | t :: r => t ++ 32%N :: spaced r
  end.
(** A text appended to a record: to the text of a section or to the error text. *)
Inductive appended := ToBreak (t : pstr) | ToError (t : pstr).
Definition text_of_app (a : appended) : pstr := match a with ToBreak t | ToError t => t end.
Definition breaks (l : list appended) : list pstr := flat_map (fun a => match a with ToBreak t => [t] | ToError _ => [] end) l.
Definition errors (l : list appended) : list pstr := flat_map (fun a => match a with ToError t => [t] | ToBreak _ => [] end) l.
(** The text that is there counts as the first one, unless it is empty. *)
Definition there (t : pstr) : list pstr := match t with [] => [] | _ => [t] end.
(** The calls of append_break_text and append_error_text, one after the other. *)
Definition append_all (l : list appended) (r : rrec) : rrec :=
  fold_left (fun r a => match a with ToBreak t => append_break_text t r | ToError t => append_error_text t r end) l r.
