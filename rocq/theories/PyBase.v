(** * PyBase: the fragment of Python's run time used by the parser.

    Nothing here comes from /repo; it is the meaning of the Python built-ins the
    modelled code calls (strings, slices, int(), str.replace, list indexing).
    Python strings are finite sequences of Unicode code points: [list N]. *)
From Coq Require Import ZArith NArith List Bool String Ascii Lia.
Import ListNotations.
Open Scope Z_scope.

Definition pstr := list N.

(** ASCII literals. *)
Fixpoint of_str (s : string) : pstr :=
  match s with
  | EmptyString => []
  | String c r => N_of_ascii c :: of_str r
  end.
Notation "$ x" := (of_str x%string) (at level 1, format "$ x").

Fixpoint pstr_eqb (a b : pstr) : bool :=
  match a, b with
  | [], [] => true
  | x :: a', y :: b' => N.eqb x y && pstr_eqb a' b'
  | _, _ => false
  end.

Definition zlen {A} (l : list A) : Z := Z.of_nat (List.length l).

(** One-character membership test [c in s]. *)
Definition char_in (c : N) (s : pstr) : bool := existsb (N.eqb c) s.

(** Normalisation of a slice bound as in CPython's PySlice_AdjustIndices, step 1. *)
Definition slice_bound (n i : Z) : Z :=
  let j := if i <? 0 then i + n else i in
  Z.max 0 (Z.min n j).

(** [s[lo:hi]]; [None] is an omitted bound. *)
Definition slice {A} (s : list A) (lo hi : option Z) : list A :=
  let n := zlen s in
  let a := match lo with Some i => slice_bound n i | None => 0 end in
  let b := match hi with Some i => slice_bound n i | None => n end in
  firstn (Z.to_nat (b - a)) (skipn (Z.to_nat a) s).

(** [list.insert(i, x)]. *)
Definition list_insert {A} (l : list A) (i : Z) (x : A) : list A :=
  let k := Z.to_nat (slice_bound (zlen l) i) in
  firstn k l ++ x :: skipn k l.

(** [s.replace(c, t)] for a one-character pattern [c]: a single left-to-right pass. *)
Definition replace_char (c : N) (t s : pstr) : pstr :=
  flat_map (fun x => if N.eqb x c then t else [x]) s.

(** [s.rstrip(" ")]. *)
Fixpoint lstrip_spaces (s : pstr) : pstr :=
  match s with
  | c :: r => if N.eqb c 32 then lstrip_spaces r else s
  | [] => []
  end.
Definition rstrip_spaces (s : pstr) : pstr := rev (lstrip_spaces (rev s)).

(** Digits. *)
Definition is_digit (c : N) : bool := (N.leb 48 c) && (N.leb c 57).
Definition digit_val (c : N) : Z := Z.of_N c - 48.
Definition digits_val (s : pstr) : Z := fold_left (fun acc c => 10 * acc + digit_val c) s 0.

(** [int(s)] for a str argument; [None] is ValueError.  ASCII fragment of CPython's
    grammar: surrounding white space, one optional sign, digits with single
    underscores between digits.  Simplification: non-ASCII decimal digits, which
    CPython also accepts, are not accepted here; no modelled call can pass one
    (every argument is cut from a token that matched an [0-9] pattern, or contains
    a letter). *)
Definition is_py_space (c : N) : bool :=
  ((N.leb 9 c) && (N.leb c 13)) || ((N.leb 28 c) && (N.leb c 32)).
Fixpoint strip_l (s : pstr) : pstr :=
  match s with c :: r => if is_py_space c then strip_l r else s | [] => [] end.
Definition py_strip (s : pstr) : pstr := rev (strip_l (rev (strip_l s))).

Fixpoint int_tail (acc : Z) (s : pstr) : option Z :=
  match s with
  | [] => Some acc
  | c :: r =>
      if is_digit c then int_tail (10 * acc + digit_val c) r
      else if N.eqb c 95 then
        match r with
        | d :: r' => if is_digit d then int_tail (10 * acc + digit_val d) r' else None
        | [] => None
        end
      else None
  end.
Definition int_unsigned (s : pstr) : option Z :=
  match s with
  | c :: r => if is_digit c then int_tail (digit_val c) r else None
  | [] => None
  end.
Definition py_int (s : pstr) : option Z :=
  match py_strip s with
  | 43%N :: r => int_unsigned r
  | 45%N :: r => option_map Z.opp (int_unsigned r)
  | r => int_unsigned r
  end.

(** [str(z)] for an int. *)
Fixpoint nat_digits (fuel : nat) (n : N) (acc : pstr) : pstr :=
  match fuel with
  | O => acc
  | S f =>
      let acc' := (48 + N.modulo n 10)%N :: acc in
      let q := N.div n 10 in
      if N.eqb q 0 then acc' else nat_digits f q acc'
  end.
Definition str_of_N (n : N) : pstr := nat_digits (S (N.to_nat (N.log2 n))) n [].
Definition str_of_Z (z : Z) : pstr :=
  if z <? 0 then 45%N :: str_of_N (Z.to_N (- z)) else str_of_N (Z.to_N z).

(** Exceptions the modelled code can raise.  [ModelStuck] is not a Python exception:
    it marks a use of the model outside its domain and is proved unreachable. *)
Inductive exn :=
| ValueError | IndexError | KeyError | AttributeError | OverflowError
| RecursionError | ModelStuck.
