(** * PropsUnits: flight level or altitude, metric level or metric altitude (C89). *)
From Coq Require Import ZArith NArith List Bool String.
From Verif Require Import PyBase Enums Tokenizer Ers Utils Parser SpecParser SpecRename SpecFlow SpecUnits Units PropsParser PropsLegs PropsRemoval.
Import List ListNotations.
Local Open Scope list_scope.
Local Open Scope nat_scope.

(** C89. F350 and A350, and S1130 and M1130, are the same level to the parser, in speeds with a level and in climbs with PLUS.  Only the
    letter of the stored level differs: the same return value, errors about the elements at the same places, rules, and record by record the
    same speed as text, the same level, speed and target in SI units, the same coordinates, legs and stays; accepted or not. *)
Theorem C89_level_letters : forall (G : geodesic) (depth : nat) (f g : pstr),
  same_but_letters f g -> field_tokens f <> [] -> 3 * n_tokens f <= depth + 1 ->
  match parse_field15 G depth f, parse_field15 G depth g with
  | Ok a s, Ok b z =>
      a = b /\ Forall2 (measured_otherwise (opposite f g)) (e_recs (s_ers s)) (e_recs (s_ers z)) /\
      Forall2 (same_report (opposite f g)) (e_errs (s_ers s)) (e_errs (s_ers z)) /\ e_rules (s_ers s) = e_rules (s_ers z)
  | Exn x _, Exn y _ => x = y
  | _, _ => False
  end.
Proof. exact letters. Qed.
Print Assumptions C89_level_letters.

Definition levels_f : pstr := $"M082F350 01N002E/N0450S1130 ?! DCT C/ABC/K0830M1130PLUS DEF/M080A100 VFR text IFR GHI/N0400F100".
Definition levels_a : pstr := $"M082A350 01N002E/N0450M1130 ?! DCT C/ABC/K0830S1130PLUS DEF/M080F100 VFR text IFR GHI/N0400A100".
Example C89_example : same_but_letters levels_f levels_a /\ field_tokens levels_f <> [] /\ 3 * n_tokens levels_f <= 90 + 1 /\
  match parse_field15 second 90 levels_f, parse_field15 second 90 levels_a with
  | Ok a s, Ok b z => a = false /\ b = false /\ e_rules (s_ers s) = $"Y" /\ e_rules (s_ers z) = $"Y" /\ map r_alt_si (e_recs (s_ers s)) = map r_alt_si (e_recs (s_ers z)) /\
      map r_speed_si (e_recs (s_ers s)) = map r_speed_si (e_recs (s_ers z)) /\ map r_alt (e_recs (s_ers s)) <> map r_alt (e_recs (s_ers z)) /\ 4 <= length (e_recs (s_ers s))
  | _, _ => False
  end.
Proof.
  split; [apply same_but_letters_test; vm_compute; reflexivity|]. split; [vm_compute; discriminate|]. split; [apply Nat.leb_le; vm_compute; reflexivity|].
  vm_compute. repeat split; try discriminate; repeat constructor.
Qed.

(** A flight level must be a multiple of five, an altitude need not; and in a climb to a second level the letters matter. *)
Theorem C89_anywhere_refuted :
  (says_ok ($"N0450A352 ABC") /\ ~ says_ok ($"N0450F352 ABC")) /\
  (says_ok ($"N0450F350 DCT C/ABC/N0450F350S1190 DEF") /\ ~ says_ok ($"N0450F350 DCT C/ABC/N0450A350S1190 DEF")).
Proof. repeat split; try (eexists; vm_compute; reflexivity); intros (s & H); vm_compute in H; discriminate H. Qed.
Print Assumptions C89_anywhere_refuted.
