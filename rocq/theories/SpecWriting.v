(** * SpecWriting: two ways to write the same coordinates. *)
From Coq Require Import ZArith NArith List Bool String.
From Verif Require Import PyBase Enums Tokenizer Ers SpecParser SpecReader SpecRename SpecFlow.
Import List ListNotations.
Local Open Scope list_scope.

(** 52N008W is 5200N00800W, and 52N008W180020 is 5200N00800W180020. *)
Definition zero_minutes (s z : pstr) : Prop :=
  exists (lat lon tail : pstr) (h v : N), List.length lat = 2%nat /\ List.length lon = 3%nat /\
    s = lat ++ [h] ++ lon ++ [v] ++ tail /\ z = lat ++ $"00" ++ [h] ++ lon ++ $"00" ++ [v] ++ tail.
(** [t] is a point given in degrees, in order, and [u] is the same one in degrees and minutes. *)
Definition with_minutes (t u : token) : Prop :=
  In (t_sub t) [F15_SB_LL_DEG; F15_SB_LLBD_DEG] /\ angle_faults t = [] /\ zero_minutes (t_text t) (t_text u).
Definition other_writing (t u : token) : Prop := t_text t = t_text u \/ with_minutes t u \/ with_minutes u t.
Definition same_but_writing (f g : pstr) : Prop := Forall2 other_writing (field_tokens f) (field_tokens g).

(** All values; of the types only the notation of a point may differ, names and texts only as the elements do. *)
Definition written_otherwise (P : token -> token -> Prop) (r q : rrec) : Prop :=
  same_shape P r q /\ same_performance r q /\ same_places r q /\ same_stay r q.
