(** * PropsSettled: what has been read is settled, whatever follows. *)
From Coq Require Import ZArith NArith List Bool String.
From Verif Require Import PyBase PyFloat Enums ErrorTable Tokenizer Ers Utils Parser SpecNum SpecParser SpecGrammar SpecReader SpecRecovery SpecSettled SettledFacts.
From Verif Require Import PropsParser PropsGrammar PropsAccept.
Import List ListNotations.
Local Open Scope list_scope.
Local Open Scope nat_scope.

(** C64. A beginning settles records [l], a record [i] that may still be completed, and errors [e]: they are the first ones of the
    result for every field that begins so.  They show all of its elements but those among the last three tokens, or end at
    an IFR, GAT or IFPSTART keyword after an error (C59).  The only exception are beginnings no continuation of which is parsed. *)
Theorem C64_settled : forall (a : pstr), field_tokens a <> [] ->
  (forall (G : geodesic) (depth : nat) (c : N) (rest : pstr) (b : bool) (s : st),
     In c f15_whitespace -> parse_field15 G depth (a ++ c :: rest) <> Ok b s) \/
  exists (l : list item) (i : item) (e : list (token * Z)) (d r : list token), field_tokens a = d ++ r /\
    (forall t, In t d -> is_element t = true -> shown_by l i e t) /\
    (List.length r <= 3 \/ e <> [] /\ exists d' t, d = d' ++ [t] /\ t_base t = F15_BREAK_END) /\
    (forall (G : geodesic) (depth : nat) (c : N) (rest : pstr) (b : bool) (s : st),
       In c f15_whitespace -> parse_field15 G depth (a ++ c :: rest) = Ok b s -> begins_with l i e (s_ers s)).
Proof. exact settled_field. Qed.
Print Assumptions C64_settled.

(** Two continuations of the same beginning, one of them with further errors. *)
Example C64_example : let a := $"N0450F350 ABC ??? UL9 XYZ 91N010E DCT" in
  let names f := match parse_field15 flat 60 f with
                 | Ok _ s => Some (map r_name (e_recs (s_ers s)), map r_name (e_errs (s_ers s)))
                 | Exn _ _ => None
                 end in
  field_tokens a <> [] /\
  names (a ++ $" DEF") = Some ([$"ADEP"; $"ABC"; $"UL9"; $"XYZ"; $"91N010E"; $"DCT"; $"DEF"; $"ADES"], [$"???"; $"91N010E"]) /\
  names (a ++ $"/VFR UL9 C") = Some ([$"ADEP"; $"ABC"; $"UL9"; $"XYZ"; $"91N010E"; $"DCT"; $"VFR"; $"ADES"], [$"???"; $"91N010E"; $"/"]).
Proof. vm_compute. repeat split. discriminate. Qed.
(** A beginning of the first kind. *)
Example C64_example_never : let a := $"N0450F350 PNT C/PNT/N0450A0505S1130" in
  match parse_field15 flat 60 (a ++ $" DEF XYZ UL9 ABC") with Ok _ _ => False | Exn e _ => e = ValueError end.
Proof. vm_compute. reflexivity. Qed.
