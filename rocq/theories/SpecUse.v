(** * SpecUse: histories of calls on Tokenize objects (C71). *)
From Coq Require Import ZArith NArith List Bool.
From Verif Require Import PyBase Tokenizer.
Import List ListNotations.
Local Open Scope list_scope.
Local Open Scope nat_scope.

(** A call on a Tokenize object.  The getters do not change it. *)
Inductive use := SetString (s : pstr) | SetWhitespace (w : pstr) | DoTokenize | GetTokens.
(** The model of the call (Tokenizer.v). *)
Definition call_on (z : tokenize_obj) (u : use) : tokenize_obj :=
  match u with
  | SetString s => set_string_to_tokenize z s
  | SetWhitespace w => set_whitespace z w
  | DoTokenize => tokenize z
  | GetTokens => z
  end.
Definition after (us : list use) : tokenize_obj := fold_left call_on us new_tokenize.

(** What was set last, from the history alone. *)
Fixpoint last_string (us : list use) (d : pstr) : pstr :=
  match us with [] => d | SetString s :: r => last_string r s | _ :: r => last_string r d end.
Fixpoint last_whitespace (us : list use) (d : pstr) : pstr :=
  match us with [] => d | SetWhitespace w :: r => last_whitespace r w | _ :: r => last_whitespace r d end.
Definition never_tokenized (us : list use) : Prop := ~ In DoTokenize us.

(** Several objects, each call naming its object: the calls on one of them. *)
Definition calls_on (i : nat) (h : list (nat * use)) : list use := map snd (filter (fun p => fst p =? i) h).
(** The objects after a history of calls. *)
Definition update (m : nat -> tokenize_obj) (i : nat) (z : tokenize_obj) : nat -> tokenize_obj :=
  fun j => if j =? i then z else m j.
Definition objects_after (h : list (nat * use)) : nat -> tokenize_obj :=
  fold_left (fun m p => update m (fst p) (call_on (m (fst p)) (snd p))) h (fun _ => new_tokenize).

(** The calls of two threads in some order that keeps the order of each. *)
Inductive interleaved {A} : list A -> list A -> list A -> Prop :=
| interleaved_nil : interleaved [] [] []
| interleaved_left x a b c : interleaved a b c -> interleaved (x :: a) b (x :: c)
| interleaved_right x a b c : interleaved a b c -> interleaved a (x :: b) (x :: c).
