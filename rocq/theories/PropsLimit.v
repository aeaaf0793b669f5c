(** * PropsLimit: C96 — the recursion limit decides only whether the parser returns. *)
From Coq Require Import ZArith NArith List Bool String Lia.
From Verif Require Import PyBase PyFloat Enums ErrorTable Syntax Tokenizer Ers Utils Parser SpecParser SpecLimit Limit PropsParser.
Import List ListNotations.
Local Open Scope list_scope.
Local Open Scope nat_scope.

(** C96. Each field needs a certain depth and has one outcome, a result or an exception other than RecursionError. With a limit of at
    least that depth the outcome is that one; with a smaller limit RecursionError is raised. *)
Theorem C96_threshold : forall (G : geodesic) (f : pstr), exists (o : out bool) (needed : nat),
  ~ raises o RecursionError /\ needed <= 3 * n_tokens f - 1 /\
  forall depth, (needed <= depth -> parse_field15 G depth f = o) /\ (depth < needed -> raises (parse_field15 G depth f) RecursionError).
Proof. exact threshold. Qed.
Print Assumptions C96_threshold.

(** For any tokens and any sequence that the caller hands over: a smaller limit gives the same or RecursionError. *)
Theorem C96_same_or_limit : forall (G : geodesic) (depth depth' : nat) (s : st), depth <= depth' ->
  parse_f15 G depth s = parse_f15 G depth' s \/ raises (parse_f15 G depth s) RecursionError.
Proof. exact same_or_limit. Qed.
Print Assumptions C96_same_or_limit.

(** What the caller holds afterwards, also when RecursionError was raised: all that was there before, followed by the beginning of what a
    larger limit would have given, no error and no record beside it. *)
Theorem C96_left_behind : forall (G : geodesic) (depth depth' : nat) (s : st), depth <= depth' ->
  left_over (s_ers s) (s_ers (final (parse_f15 G depth s))) /\
  left_over (s_ers (final (parse_f15 G depth s))) (s_ers (final (parse_f15 G depth' s))).
Proof. exact left_behind. Qed.
Print Assumptions C96_left_behind.

Definition left_names (depth : nat) (f : pstr) : list pstr := map r_name (e_recs (s_ers (final (parse_field15 flat depth f)))).
Example C96_example :
  let f := $"N0450F350 ABC X DEF/N0400F200 STAR" in
  raises (parse_field15 flat 6 f) RecursionError /\ left_names 6 f = [$"ADEP"; $"ABC"; $"X"] /\
  raises (parse_field15 flat 8 f) RecursionError /\
  left_names 20 f = [$"ADEP"; $"ABC"; $"X"; $"DEF"; $"STAR"; $"ADES"] /\
  parse_field15 flat 20 f = parse_field15 flat 40 f.
Proof. cbv zeta. do 4 (split; [vm_compute; reflexivity|]). vm_compute. reflexivity. Qed.
