(** * PropsTold: what the first message says is so. *)
From Coq Require Import ZArith NArith List Bool String.
From Verif Require Import PyBase PyFloat Enums ErrorTable Tokenizer Ers Utils Parser SpecTokenizer SpecParser SpecGrammar SpecDiagnosis SpecViable SpecTold Told.
From Verif Require Import PropsParser PropsAccept PropsDiagnosis.
Import List ListNotations.
Local Open Scope list_scope.
Local Open Scope nat_scope.

(** C117. The first error of a field is about one of its elements, and what its message says about this element, the
    one before it and the last one is so ([told]). *)
Theorem C117_told_partial : forall (G : geodesic) (depth : nat) (field : pstr) (b : bool) (s : st) (e : rrec) (es : list rrec),
  field_tokens field <> [] -> parse_field15 G depth field = Ok b s -> e_errs (s_ers s) = e :: es ->
  exists i t m, nth_error (field_tokens field) i = Some t /\ reports t m e /\
    told i (match i with O => None | S j => nth_error (field_tokens field) j end) t (last_of (field_tokens field)) m.
Proof. exact message_true. Qed.
Print Assumptions C117_told_partial.

(** What is said and not so: that there is no VFR, OAT or IFPSTOP section before (6, 7, 8), and that a point given by
    bearing and distance from another is a latitude and longitude (47, 48). *)
Theorem C117_section_refuted :
  (says ($"N0450F350 ABC VFR x IFR DEF/N0450F350 IFR GHI") = Some ($"IFR", 6%Z) /\ says ($"N0450F350 ABC VFR x IFR DEF/N0450F350 GHI") = None) /\
  (says ($"N0450F350 ABC OAT x GAT DEF GAT GHI") = Some ($"GAT", 7%Z) /\ says ($"N0450F350 ABC OAT x GAT DEF GHI") = None) /\
  (says ($"N0450F350 ABC IFPSTOP x IFPSTART DEF IFPSTART GHI") = Some ($"IFPSTART", 8%Z) /\ says ($"N0450F350 ABC IFPSTOP x IFPSTART DEF GHI") = None).
Proof. repeat split; vm_compute; reflexivity. Qed.
Print Assumptions C117_section_refuted.
Theorem C117_lat_long_refuted :
  says ($"N0450F350 ABC180030 UL613 DEF") = Some ($"UL613", 47%Z) /\ classify ($"ABC180030") = (F15_POINT, F15_SB_PRP_BD) /\
  says ($"N0450F350 ABC UL613 DEF180030") = Some ($"DEF180030", 48%Z) /\ classify ($"DEF180030") = (F15_POINT, F15_SB_PRP_BD).
Proof. repeat split; vm_compute; reflexivity. Qed.
Print Assumptions C117_lat_long_refuted.

(** A message of each sort. *)
Example C117_example :
  says ($"ABC UL613 DEF") = Some ($"ABC", 1%Z) /\ says ($"N0450F350 ABC UL613 UM728 DEF") = Some ($"UM728", 53%Z) /\
  says ($"N0450F350 UL613 DEF") = Some ($"UL613", 24%Z) /\ says ($"N0450F350 ABC DCT T DEF") = Some ($"DEF", 19%Z) /\
  says ($"N0450F350 ABC STAY1/0100 0200") = Some ($"0200", 39%Z) /\ says ($"N0450F350 ABC C/DEF/") = Some ($"DEF", 28%Z) /\
  says ($"N0450F352 ABC") = Some ($"N0450F352", 40%Z) /\ says ($"N0450F350 99N000E") = Some ($"99N000E", 42%Z) /\
  told 1 (Some (mkToken ($"N0450F350") 0 9 F15_SPEED_ALTITUDE F15_SB_SPEED_ALTITUDE_NF)) (mkToken ($"UL613") 10 15 F15_ROUTE F15_SB_UNKNOWN) None 24 /\
  ~ told 2 None (mkToken ($"UL613") 10 15 F15_ROUTE F15_SB_UNKNOWN) None 24.
Proof.
  repeat match goal with |- _ /\ _ => split end; try (vm_compute; reflexivity).
  - split; [reflexivity|now left].
  - intros [H _]. discriminate.
Qed.
