(** * SpecBeginning: which fields can still be completed. *)
From Coq Require Import ZArith NArith List Bool String.
From Verif Require Import PyBase Enums Tokenizer SpecTokenizer SpecParser SpecDiagnosis SpecViable.
Import List ListNotations.
Local Open Scope list_scope.
Local Open Scope nat_scope.

(** [t] is the last or the last but one of [ts]. *)
Definition near_end (t : token) (ts : list token) : Prop := exists a b, ts = a ++ t :: b /\ length b <= 1.
(** A verdict that more elements can make good: nothing wrong; something missing at the end; or no speed and
    level yet (message 22) at the point where an IFR section is to go on, at most a slash after it. *)
Definition open_ended (ts : list token) : Prop :=
  match diagnose ts with
  | Fine => True
  | Report t m => end_message m = true \/ (m = 22%Z /\ near_end t ts)
  | Fails => False
  end.
