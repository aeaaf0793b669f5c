(** * PropsSummary: the one-line text of a record (C91). *)
From Coq Require Import ZArith NArith List Bool String.
From Verif Require Import PyBase Enums ErrorTable Tokenizer Ers Utils Parser SpecParser SpecSummary Summary PropsParser.
Import List ListNotations.
Local Open Scope list_scope.
Local Open Scope nat_scope.

(** C91. The words of unit_test_only() are those of the name, the rules, the speed, the level, the text and the error text, in
    this order; it does not end with a blank. *)
Theorem C91_summary : forall r : rrec, words_of (unit_test_only r) =
  words_of (r_name r) ++ words_of (r_rules r) ++ words_of (r_speed r) ++ words_of (r_alt r) ++ words_of (r_break r) ++ words_of (r_err r).
Proof. exact summary. Qed.
Print Assumptions C91_summary.
Theorem C91_no_blank_at_the_end : forall (r : rrec) (t : pstr), unit_test_only r <> t ++ [32%N].
Proof. exact summary_ends. Qed.
Print Assumptions C91_no_blank_at_the_end.

(** A record of a field shows no error text, an error only its name and message. *)
Theorem C91_of_a_field : forall (G : geodesic) (depth : nat) (f : pstr) b s, parse_field15 G depth f = Ok b s ->
  Forall (fun r => words_of (unit_test_only r) = words_of (r_name r) ++ words_of (r_rules r) ++ words_of (r_speed r) ++ words_of (r_alt r) ++ words_of (r_break r)) (e_recs (s_ers s)) /\
  Forall (fun x => words_of (unit_test_only x) = words_of (r_name x) ++ words_of (r_err x)) (e_errs (s_ers s)).
Proof. exact summaries. Qed.
Print Assumptions C91_of_a_field.

Example C91_example :
  match parse_field15 flat 60 ($"N0450F350 ABC OAT low  level GAT DEF ?!") with
  | Ok b s =>
      map unit_test_only (e_recs (s_ers s)) = [$"ADEP IFR N0450 F350"; $"ABC IFR N0450 F350"; $"OAT OAT N0450 F350 low level GAT"; $"DEF IFR N0450 F350"; $"ADES IFR"] /\
      map (fun x => words_of (unit_test_only x)) (e_errs (s_ers s)) = [[$"?!"; $"The"; $"element"; $"'?!'"; $"is"; $"an"; $"unrecognised"; $"Field"; $"15"; $"element"]]
  | Exn _ _ => False
  end.
Proof. vm_compute. split; reflexivity. Qed.
