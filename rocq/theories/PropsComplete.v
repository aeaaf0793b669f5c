(** * PropsComplete: the extracted route sequence of every field, down to the last attribute. *)
From Coq Require Import ZArith NArith List Bool String.
From Coq Require Import Floats.SpecFloat.
From Verif Require Import PyBase PyFloat Enums ErrorTable Tokenizer Ers Utils Parser SpecNum SpecParser SpecGrammar SpecDiagnosis SpecReader SpecComplete CompleteFacts.
From Verif Require Import PropsParser PropsLegs.
Import List ListNotations.
Local Open Scope list_scope.
Local Open Scope nat_scope.

(** C67. The extracted route sequence is the one SpecComplete computes from the tokens: every attribute of every record and of
    every error record, their order and the flight rules. *)
Theorem C67_complete_result : forall (G : geodesic) (depth : nat) (field : pstr) (b : bool) (s : st),
  field_tokens field <> [] -> parse_field15 G depth field = Ok b s ->
  exists l e, reading (field_tokens field) = Some (Gives l e) /\ b = (match e with [] => true | _ => false end) /\ s_ers s = ers_of G l e.
Proof. exact complete. Qed.
Print Assumptions C67_complete_result.

(** With a recursion limit that suffices this is all that parsing does. *)
Theorem C67_total : forall (G : geodesic) (depth : nat) (field : pstr),
  field_tokens field <> [] -> 3 * n_tokens field <= depth + 1 ->
  match reading (field_tokens field) with
  | Some (Gives l e) => exists s, parse_field15 G depth field = Ok (match e with [] => true | _ => false end) s /\ s_ers s = ers_of G l e
  | Some Raises => exists s, parse_field15 G depth field = Exn ValueError s
  | None => False
  end.
Proof. exact complete_total. Qed.
Print Assumptions C67_total.

(** A field with coordinates of all four forms, legs, a cruise climb, a Mach number and errors. *)
Definition wide : pstr := $"M082F330 4830N00500W DCT 01N002E C/01N002E090010/M084F350F377 4830S00500E180020 ?? XYZ/N0450A100 UL9".
Example C67_example : field_tokens wide <> [] /\ 3 * n_tokens wide <= 100 + 1 /\
  match reading (field_tokens wide), parse_field15 second 100 wide with
  | Some (Gives l e), Ok b s =>
      s_ers s = ers_of second l e /\
      map (fun r => (r_name r, r_llv r, r_speed_si r, r_cto_si r)) (e_recs (s_ers s)) =
        [($"ADEP", false, PyInt 246, PyZeroFloat); ($"4830N00500W", true, PyInt 246, PyZeroFloat); ($"DCT", false, PyInt 246, PyZeroFloat);
         ($"01N002E", true, PyInt 246, PyZeroFloat); ($"01N002E090010", true, PyInt 249, PyInt 77);
         ($"4830S00500E180020", true, PyInt 249, PyZeroFloat); ($"XYZ", false, PyInt 231, PyZeroFloat); ($"UL9", false, PyInt 231, PyZeroFloat);
         ($"ADES", false, PyZeroFloat, PyZeroFloat)] /\
      map r_err (e_errs (s_ers s)) = [$"The element '??' is an unrecognised Field 15 element"]
  | _, _ => False
  end.
Proof.
  split; [vm_compute; discriminate|]. split; [vm_compute; repeat constructor|]. vm_compute. split; [reflexivity|]. split; reflexivity.
Qed.
