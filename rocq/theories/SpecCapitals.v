(** * SpecCapitals: the characters of a field that count.  Nothing here refers to the parser. *)
From Coq Require Import ZArith NArith List Bool.
From Verif Require Import PyBase.
Import List ListNotations.
Local Open Scope list_scope.

Definition capital (c : N) : Prop := (65 <= c <= 90)%N.
Definition figure (c : N) : Prop := (48 <= c <= 57)%N.
(** The characters of elements that mean something. *)
Definition plain (c : N) : Prop := capital c \/ figure c \/ c = 47%N.
(** str.lower() on ASCII. *)
Definition lower (s : pstr) : pstr := map (fun c => if (65 <=? c)%N && (c <=? 90)%N then (c + 32)%N else c) s.
