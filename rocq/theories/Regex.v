(** * Regex: Python's [re] on the sublanguage used by the configuration table.

    The table (SyntaxTable.v) keeps the regular expressions as the source strings;
    [parse_regex] reads them.  [fullmatch] models [re.fullmatch(p, s)] as used at
    F15_Parser/F15TokenSyntaxDescriptions.py:395: for patterns without anchors,
    look-around or back-references a backtracking full match succeeds exactly when
    some decomposition of the whole subject exists, which [rems] enumerates. *)
From Coq Require Import ZArith NArith List Bool String Ascii Lia.
From Verif Require Import PyBase.
Import ListNotations.

Inductive re :=
| REps
| RClass (ranges : list (N * N))      (* one character in one of the closed ranges *)
| RSeq (a b : re)
| RAlt (a b : re)
| RRep (r : re) (lo hi : nat).        (* r{lo,hi} *)

(** ** Matching *)
Definition in_ranges (c : N) (rs : list (N * N)) : bool :=
  existsb (fun p => (N.leb (fst p) c) && (N.leb c (snd p)))%bool rs.

(** All possible rests of the subject after matching a prefix. *)
Fixpoint rems (r : re) (s : pstr) : list pstr :=
  match r with
  | REps => [s]
  | RClass rs => match s with c :: t => if in_ranges c rs then [t] else [] | [] => [] end
  | RSeq a b => flat_map (rems b) (rems a s)
  | RAlt a b => rems a s ++ rems b s
  | RRep a lo hi =>
      let fix must (n : nat) (s : pstr) : list pstr :=
        match n with O => [s] | S k => flat_map (must k) (rems a s) end in
      let fix may (n : nat) (s : pstr) : list pstr :=
        match n with O => [s] | S k => flat_map (may k) (rems a s) ++ [s] end in
      flat_map (may (Nat.sub hi lo)) (must lo s)
  end.

(** re.fullmatch(p, s) is not None. *)
Definition fullmatch (r : re) (s : pstr) : bool :=
  existsb (fun t => match t with [] => true | _ => false end) (rems r s).

(** ** Reading the pattern syntax: literals, [..] classes with ranges, {m}, {m,n}, (..), | *)
Local Open Scope N_scope.
Definition ch (a : ascii) : N := N_of_ascii a.

Definition is_meta (c : N) : bool := char_in c ($".^$*+?{}[]\|()").

Fixpoint p_class (s : pstr) (acc : list (N * N)) : option (list (N * N) * pstr) :=
  match s with
  | 93 (* ] *) :: t => match acc with [] => None | _ => Some (rev acc, t) end
  | a :: 45 (* - *) :: b :: t => if is_meta a || is_meta b then None else p_class t ((a, b) :: acc)
  | a :: t => if is_meta a then None else p_class t ((a, a) :: acc)
  | [] => None
  end.

Fixpoint p_num (s : pstr) (acc : nat) (some : bool) : option (nat * pstr) :=
  match s with
  | c :: t => if is_digit c then p_num t (Nat.add (Nat.mul 10 acc) (N.to_nat (c - 48))) true
              else if some then Some (acc, s) else None
  | [] => if some then Some (acc, []) else None
  end.

Definition p_quant (r : re) (s : pstr) : option (re * pstr) :=
  match s with
  | 123 (* { *) :: t =>
      match p_num t 0 false with
      | Some (m, 125 (* } *) :: t') => Some (RRep r m m, t')
      | Some (m, 44 (* , *) :: t') =>
          match p_num t' 0 false with
          | Some (n, 125 :: t'') => Some (RRep r m n, t'')
          | _ => None
          end
      | _ => None
      end
  | _ => Some (r, s)
  end.

Fixpoint p_alt (fuel : nat) (s : pstr) : option (re * pstr) :=
  match fuel with
  | O => None
  | S f =>
      match p_seq f s with
      | Some (a, 124 (* | *) :: t) =>
          match p_alt f t with Some (b, t') => Some (RAlt a b, t') | None => None end
      | x => x
      end
  end
with p_seq (fuel : nat) (s : pstr) : option (re * pstr) :=
  match fuel with
  | O => None
  | S f =>
      let continue r t :=
        match p_quant r t with
        | Some (r', t') =>
            match p_seq f t' with
            | Some (REps, t'') => Some (r', t'')
            | Some (b, t'') => Some (RSeq r' b, t'')
            | None => None
            end
        | None => None
        end in
      match s with
      | [] => Some (REps, [])
      | 124 :: _ => Some (REps, s)
      | 41 (* ) *) :: _ => Some (REps, s)
      | 40 (* ( *) :: t =>
          match p_alt f t with
          | Some (r, 41 :: t') => continue r t'
          | _ => None
          end
      | 91 (* [ *) :: t =>
          match p_class t [] with Some (rs, t') => continue (RClass rs) t' | None => None end
      | c :: t => if is_meta c then None else continue (RClass [(c, c)]) t
      end
  end.

Definition parse_regex (s : pstr) : option re :=
  match p_alt (Nat.add (Nat.mul 2 (List.length s)) 2) s with
  | Some (r, []) => Some r
  | _ => None
  end.
