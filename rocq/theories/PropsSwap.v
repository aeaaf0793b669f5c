(** * PropsSwap: OAT ... GAT and IFPSTOP ... IFPSTART (C90). *)
From Coq Require Import ZArith NArith List Bool String.
From Verif Require Import PyBase Enums ErrorTable Tokenizer Ers Utils Parser SpecParser SpecViable SpecRename SpecSwap Swap PropsParser.
Import List ListNotations.
Local Open Scope list_scope.
Local Open Scope nat_scope.

(** C90. OAT exchanged with IFPSTOP and GAT with IFPSTART, everywhere: the records and errors are the same ones with OAT and
    IFPSTOP, GAT and IFPSTART exchanged, whether the field is accepted or not. *)
Theorem C90_exchanged : forall (G : geodesic) (depth : nat) (f g : pstr),
  swapped_field f g -> field_tokens f <> [] -> 3 * n_tokens f <= depth + 1 ->
  match parse_field15 G depth f, parse_field15 G depth g with
  | Ok a s, Ok b z =>
      a = b /\ Forall2 (other_record (opposite f g)) (e_recs (s_ers s)) (e_recs (s_ers z)) /\
      Forall2 (other_report (opposite f g)) (e_errs (s_ers s)) (e_errs (s_ers z)) /\ e_rules (s_ers s) = e_rules (s_ers z)
  | Exn x _, Exn y _ => x = y
  | _, _ => False
  end.
Proof. exact swapped. Qed.
Print Assumptions C90_exchanged.

Definition in_oat : pstr := $"N0450F350 ABC UL9 DEF OAT low IFPSTART GAT GHI IFPSTOP x GAT IFPSTART JKL GAT MNO".
Definition in_ifps : pstr := $"N0450F350 ABC UL9 DEF IFPSTOP low GAT IFPSTART GHI OAT x IFPSTART GAT JKL IFPSTART MNO".
Example C90_example : swapped_field in_oat in_ifps /\ field_tokens in_oat <> [] /\ 3 * n_tokens in_oat <= 60 + 1 /\
  match parse_field15 flat 60 in_oat, parse_field15 flat 60 in_ifps with
  | Ok a s, Ok b z =>
      a = false /\ b = false /\
      map (fun r => (r_name r, r_rules r)) (e_recs (s_ers s)) =
        [($"ADEP", $"IFR"); ($"ABC", $"IFR"); ($"UL9", $"IFR"); ($"DEF", $"IFR"); ($"OAT", $"OAT"); ($"GHI", $"IFR"); ($"IFPSTOP", $"IFPS"); ($"JKL", $"IFR"); ($"MNO", $"IFR"); ($"ADES", $"IFR")] /\
      map (fun r => (r_name r, r_rules r)) (e_recs (s_ers z)) =
        [($"ADEP", $"IFR"); ($"ABC", $"IFR"); ($"UL9", $"IFR"); ($"DEF", $"IFR"); ($"IFPSTOP", $"IFPS"); ($"GHI", $"IFR"); ($"OAT", $"OAT"); ($"JKL", $"IFR"); ($"MNO", $"IFR"); ($"ADES", $"IFR")] /\
      map (fun r => (r_name r, r_err r)) (e_errs (s_ers s)) = [($"GAT", $"No OAT section preceding this 'GAT' rule change indicator")] /\
      map (fun r => (r_name r, r_err r)) (e_errs (s_ers z)) = [($"IFPSTART", $"No IFPSTART preceding this 'IFPSTART' indicator")]
  | _, _ => False
  end.
Proof.
  split; [vm_compute; reflexivity|]. split; [vm_compute; discriminate|]. split; [apply Nat.leb_le; vm_compute; reflexivity|]. vm_compute. repeat split.
Qed.

(** VFR and IFR are not exchangeable with them: IFR ends a section only before a point with a speed and level, and a VFR
    section changes the flight rules of the field. *)
Theorem C90_not_vfr_refuted : exists (G : geodesic) (depth : nat) (f g : pstr),
  element_texts g = map (fun x => if pstr_eqb x ($"OAT") then $"VFR" else if pstr_eqb x ($"GAT") then $"IFR" else x) (element_texts f) /\
  match parse_field15 G depth f, parse_field15 G depth g with
  | Ok _ s, Ok _ z => List.length (e_recs (s_ers s)) <> List.length (e_recs (s_ers z)) /\ e_rules (s_ers s) <> e_rules (s_ers z)
  | _, _ => False
  end.
Proof.
  exists flat, 40, ($"N0450F350 ABC OAT low GAT DEF DCT GHI"), ($"N0450F350 ABC VFR low IFR DEF DCT GHI"). split; [vm_compute; reflexivity|]. vm_compute. split; discriminate.
Qed.
Print Assumptions C90_not_vfr_refuted.
