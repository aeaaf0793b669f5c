(** * SpecPlaces: results that agree except that positions are moved by a given function. *)
From Coq Require Import ZArith NArith List Bool.
From Verif Require Import PyBase PyFloat Enums Tokenizer Ers Parser SpecTokenizer SpecLayout.
Import List ListNotations.
Local Open Scope list_scope.
Local Open Scope Z_scope.

(** A function on pairs of start and end index. The pair (0, 0) belongs to no token (C01): it is the position of the aerodromes and of the
    error for an empty field. *)
Definition moving : Type := Z * Z -> Z * Z.
(** The token at each place of the second string is where [h] takes the token at that place of the first. *)
Definition takes (h : moving) (a b : pstr) : Prop :=
  h (0, 0) = (0, 0) /\
  forall k t t', nth_error (tk_list (tokenize_string f15_whitespace a)) k = Some t -> nth_error (tk_list (tokenize_string f15_whitespace b)) k = Some t' ->
    h (t_start t, t_end t) = (t_start t', t_end t').
(** The same record at the position to which [h] takes it. *)
Definition moved (h : moving) (r r' : rrec) : Prop := same_but_place r r' /\ (r_start r', r_end r') = h (r_start r, r_end r).
Definition moved_sequence (h : moving) (x y : ers) : Prop :=
  Forall2 (moved h) (e_recs x) (e_recs y) /\ Forall2 (moved h) (e_errs x) (e_errs y) /\ e_rules x = e_rules y.
Definition moved_outcome (h : moving) (o o' : out bool) : Prop :=
  match o, o' with
  | Ok v s, Ok v' s' => v = v' /\ moved_sequence h (s_ers s) (s_ers s')
  | Exn e s, Exn e' s' => e = e' /\ moved_sequence h (s_ers s) (s_ers s')
  | _, _ => False
  end.
(** All that starts at [from] or later is moved by [k]; the pair (0, 0) stays. *)
Definition shift (from k : Z) : moving := fun p =>
  if (snd p =? 0) then p else if (fst p <? from) then p else (fst p + k, snd p + k).
(** No element of [a ++ b] is partly in [a] and partly in [b]. *)
Definition apart (a b : pstr) : Prop :=
  a = [] \/ b = [] \/ (exists a' c, a = a' ++ [c] /\ separator f15_whitespace c) \/ (exists c b', b = c :: b' /\ separator f15_whitespace c).
