(** * SpecSettled: what of the result is settled by the beginning of a field. *)
From Coq Require Import ZArith NArith List Bool String.
From Verif Require Import PyBase PyFloat Enums Tokenizer Ers SpecParser SpecReader SpecRecovery.
Import List ListNotations.
Local Open Scope list_scope.

(** A result contains the records [l], then one that continues [i], and the errors [e], in this order and before any other. *)
Definition begins_with (l : list item) (i : item) (e : list (token * Z)) (x : ers) : Prop :=
  (exists i' l', map item_of (e_recs x) = l ++ i' :: l' /\
     i_name i' = i_name i /\ i_start i' = i_start i /\ i_end i' = i_end i /\ exists v, i_text i' = i_text i ++ v) /\
  (exists e1 e2, e_errs x = e1 ++ e2 /\ Forall2 (fun p q => reports (fst p) (snd p) q) e e1).
(** They show a token: as a record, as an error, or within the text of a section. *)
Definition shown_by (l : list item) (i : item) (e : list (token * Z)) (t : token) : Prop :=
  Exists (fun r => i_start r = t_start t /\ i_end r = t_end t) (l ++ [i]) \/
  (exists m, In (t, m) e) \/
  Exists (fun r => exists u v, i_text r = u ++ t_text t ++ v) (l ++ [i]).
