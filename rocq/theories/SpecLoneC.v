(** * SpecLoneC: the places where a C stands for a point. *)
From Coq Require Import ZArith NArith List Bool String.
From Verif Require Import PyBase PyFloat Enums Syntax Tokenizer Ers Parser SpecParser SpecGrammar SpecAccept.
Import List ListNotations.
Local Open Scope list_scope.
Local Open Scope nat_scope.

(** The elements from here on begin with a slash. *)
Definition before_slash (rest : list (token * role)) : Prop := exists x rest0, rest = x :: rest0 /\ t_base (fst x) = F15_SLASH.
(** The elements before this place end with an element of a VFR, OAT or IFPSTOP section. *)
Definition after_section (pre : list (token * role)) : Prop := exists pre0 x, pre = pre0 ++ [x] /\ snd x = RText.
(** A word that is a point given by its name alone: no coordinates, no bearing and distance. *)
Definition plain_name (w : pstr) : Prop := fst (classify w) = F15_POINT /\ computed_point (snd (classify w)) = false.
