(** * PropsReader: the whole result for every field, including what follows an error. *)
From Coq Require Import ZArith NArith List Bool String.
From Verif Require Import PyBase PyFloat Enums ErrorTable Tokenizer Ers Utils Parser SpecNum SpecParser SpecGrammar SpecDiagnosis SpecReader ReaderFacts.
From Verif Require Import PropsParser PropsGrammar PropsAccept.
Import List ListNotations.
Local Open Scope list_scope.
Local Open Scope nat_scope.

(** C57. All records (texts, positions, types, rules, break text, stay time, speed, level, climb target and its value, whether there are coordinates), all errors and the flight
    rules are those of the reading machine of SpecReader. *)
Theorem C57_whole_result : forall (G : geodesic) (depth : nat) (field : pstr) (b : bool) (s : st),
  field_tokens field <> [] -> parse_field15 G depth field = Ok b s ->
  exists l e, reading (field_tokens field) = Some (Gives l e) /\
    map item_of (e_recs (s_ers s)) = l /\
    Forall2 (fun q x => reports (fst q) (snd q) x) e (e_errs (s_ers s)) /\
    b = (match e with [] => true | _ => false end) /\
    e_rules (s_ers s) = letter l.
Proof. exact whole_result. Qed.
Print Assumptions C57_whole_result.

(** Parsing raises ValueError exactly when the machine breaks, and returns exactly when it does not, if the recursion limit suffices (C14). *)
Theorem C57_raises : forall (G : geodesic) (depth : nat) (field : pstr),
  field_tokens field <> [] -> 3 * n_tokens field <= depth + 1 ->
  match reading (field_tokens field) with
  | Some (Gives _ _) => exists b s, parse_field15 G depth field = Ok b s
  | Some Raises => exists s, parse_field15 G depth field = Exn ValueError s
  | None => False
  end.
Proof. exact read_or_raise. Qed.
Print Assumptions C57_raises.

(** The machine always comes to an end. *)
Theorem C57_machine_stops : forall (ts : list token), reading ts <> None.
Proof. exact reading_stops. Qed.
Print Assumptions C57_machine_stops.

(** The names of the records and the texts and messages reported. *)
Definition gist (field : pstr) : option (list pstr * list (pstr * Z)) :=
  match reading (field_tokens field) with
  | Some (Gives l e) => Some (map i_name l, map (fun q => (t_text (fst q), snd q)) e)
  | _ => None
  end.
(** After an error reading goes on. *)
Example C57_example_slash : gist ($"N0450F350 PNT ??? DCT XYZ / / ABC")
  = Some ([$"ADEP"; $"PNT"; $"DCT"; $"XYZ"; $"ABC"; $"ADES"], [($"???", 3%Z); ($"/", 16%Z)]).
Proof. vm_compute. reflexivity. Qed.
(** The cruise climb without its slash is reported twice, and the point after the last speed is still recorded. *)
Example C57_example_climb : gist ($"N0450F350 PNT C/ABC DEF N0450F350F370 XYZ")
  = Some ([$"ADEP"; $"PNT"; $"ABC"; $"XYZ"; $"ADES"], [($"DEF", 26%Z); ($"ABC", 28%Z)]).
Proof. vm_compute. reflexivity. Qed.
Example C57_example_three : gist ($"UL9 PNT/N0450F330 SID STAR XYZ")
  = Some ([$"ADEP"; $"PNT"; $"SID"; $"STAR"; $"XYZ"; $"ADES"], [($"UL9", 1%Z); ($"SID", 30%Z); ($"XYZ", 34%Z)]).
Proof. vm_compute. reflexivity. Qed.
(** The parser agrees with it. *)
Example C57_example_parser : let field := $"UL9 PNT/N0450F330 SID STAR XYZ" in
  field_tokens field <> [] /\ 3 * n_tokens field <= 40 + 1 /\
  match parse_field15 flat 40 field with
  | Ok b s => b = false /\ map r_name (e_recs (s_ers s)) = [$"ADEP"; $"PNT"; $"SID"; $"STAR"; $"XYZ"; $"ADES"] /\
      map r_name (e_errs (s_ers s)) = [$"UL9"; $"SID"; $"XYZ"]
  | Exn _ _ => False
  end.
Proof. split; [discriminate|]. split; [apply PeanoNat.Nat.leb_le; vm_compute; reflexivity|]. vm_compute. repeat split. Qed.
