(** * PropsRefile: C80, C81 — the records of an accepted field can be written as a field again. *)
From Coq Require Import ZArith NArith List Bool String.
From Coq Require Import Floats.SpecFloat.
From Verif Require Import PyBase PyFloat Enums ErrorTable Tokenizer Ers Utils Parser SpecNum SpecParser SpecGrammar SpecAccept SpecLayout SpecViable SpecLegs SpecRemoval SpecRefile Refile PropsParser PropsLegs PropsRemoval.
Import List ListNotations.
Local Open Scope list_scope.
Local Open Scope nat_scope.

(** C80. The records of an accepted field, written as a field by [refile] (SpecRefile), are accepted and give the same
    sequence: same records with the same speeds, levels, rules, stays, texts, positions and legs. *)
Theorem C80_refiled : forall (G : geodesic) (depth depth' : nat) (f : pstr) (s : st),
  parse_field15 G depth f = Ok true s -> 3 * n_tokens (refile (e_recs (s_ers s))) <= depth' + 1 ->
  exists s', parse_field15 G depth' (refile (e_recs (s_ers s))) = Ok true s' /\ same_sequence (s_ers s) (s_ers s').
Proof. exact refiled. Qed.
Print Assumptions C80_refiled.
(** Writing the result once more gives the same text. *)
Theorem C80_stable : forall (G : geodesic) (depth depth' : nat) (f : pstr) (s s' : st),
  parse_field15 G depth f = Ok true s -> parse_field15 G depth' (refile (e_recs (s_ers s))) = Ok true s' ->
  refile (e_recs (s_ers s')) = refile (e_recs (s_ers s)).
Proof. exact refiled_stable. Qed.
Print Assumptions C80_stable.
Definition again (f : pstr) : pstr := refile (recs_of f).
Example C80_example :
  let f := $"N0450F350  DCT PNT/M084F370 VFR ABC IFR XYZ/N0430F330/N0430F330 UL613 MNO 48N005E/N0430F330 C/DEF/M080F350F370/N0450F100 STAY3/0130 GHI/N0400VFR OAT x IFPSTOP y z IFPSTART ABC/N0400F200 STAR" in
  says_ok f /\ again f = $"N0450F350 DCT PNT / M084F370 VFR ABC IFR XYZ / N0430F330 UL613 MNO 48N005E C / DEF / M000F000F370 / N0450F100 STAY1 / 0130 GHI / N0400VFR OAT x IFPSTOP y z IFPSTART ABC / N0400F200 STAR" /\
  again (again f) = again f.
Proof. cbv zeta. split; [eexists; vm_compute; reflexivity|]. split; vm_compute; reflexivity. Qed.
(** Some that are not what one would write first. *)
Example C80_examples :
  again ($"K0450VFR") = $"K0450VFR" /\ again ($"N0450F350 T") = $"N0450F350 T" /\ again ($"N0450F350 ABC T") = $"N0450F350 ABC" /\
  again ($"N0450F350 ABC VFR x IFR 48N005E/N0450F350/N0400VFR y") = $"N0450F350 ABC VFR x IFR 48N005E / N0400F050 / N0400VFR y" /\
  again ($"N0450F350 ABC VFR x IFR DEF/N0450F350/N0400VFR y") = $"N0450F350 ABC VFR x IFR DEF / N0400VFR y" /\
  again ($"N0450F350 DEF180010 STAY2/0000 UL613 ABC") = $"N0450F350 DEF180010 STAY1 / 0000 UL613 ABC".
Proof. repeat split; vm_compute; reflexivity. Qed.

(** C81. Two accepted fields say the same if and only if their records are written alike: [refile] is a normal form. *)
Theorem C81_normal_form : forall (G : geodesic) (depth depth' : nat) (f g : pstr) (s s' : st),
  parse_field15 G depth f = Ok true s -> parse_field15 G depth' g = Ok true s' ->
  (refile (e_recs (s_ers s)) = refile (e_recs (s_ers s')) <-> same_sequence (s_ers s) (s_ers s')).
Proof. exact normal_form. Qed.
Print Assumptions C81_normal_form.
Example C81_example :
  let f := $"N0450F350 ABC/N0450F350 DEF T" in let g := $"N0450F350 ABC	DEF" in let h := $"N0450F350 ABC DCT DEF" in
  says_ok f /\ says_ok g /\ says_ok h /\ again f = again g /\ again f <> again h.
Proof. cbv zeta. do 3 (split; [eexists; vm_compute; reflexivity|]). split; [vm_compute; reflexivity|]. intro E. vm_compute in E. discriminate E. Qed.
