(** * PropsRename: fields that differ in names (C82). *)
From Coq Require Import ZArith NArith List Bool String.
From Verif Require Import PyBase Enums Tokenizer Ers Utils Parser SpecParser SpecRename Rename PropsParser.
Import List ListNotations.
Local Open Scope list_scope.
Local Open Scope nat_scope.

(** C82. Two fields whose elements have the same types, and the same texts except for names, give the same result up to
    these names and the positions, whether they are accepted or not. *)
Theorem C82_names_only : forall (G : geodesic) (depth : nat) (f g : pstr),
  same_form f g -> field_tokens f <> [] -> 3 * n_tokens f <= depth + 1 ->
  match parse_field15 G depth f, parse_field15 G depth g with
  | Ok a s, Ok b z =>
      a = b /\ Forall2 (renamed (opposite f g)) (e_recs (s_ers s)) (e_recs (s_ers z)) /\
      Forall2 (same_report (opposite f g)) (e_errs (s_ers s)) (e_errs (s_ers z)) /\ e_rules (s_ers s) = e_rules (s_ers z)
  | Exn x _, Exn y _ => x = y
  | _, _ => False
  end.
Proof. exact names_only. Qed.
Print Assumptions C82_names_only.

(** Points, routes, an unrecognised element and the words of a section have other names. *)
Definition one_name : pstr := $"N0450F350 ABC UL9 EF 01N002E STAY1/0030 ?! DEF UM14 XYZ OAT low GAT KLM BCN1A".
Definition other_name : pstr := $"N0450F350 PQR UN7 GH 01N002E STAY4/0030 [x] W  UP99 TU OAT high GAT MN TNT2B".
Example C82_example : same_form one_name other_name /\ field_tokens one_name <> [] /\ 3 * n_tokens one_name <= 60 + 1 /\
  match parse_field15 flat 60 one_name, parse_field15 flat 60 other_name with
  | Ok a s, Ok b z =>
      a = false /\ b = false /\
      map r_name (e_recs (s_ers s)) = [$"ADEP"; $"ABC"; $"UL9"; $"EF"; $"01N002E"; $"DEF"; $"UM14"; $"XYZ"; $"OAT"; $"KLM"; $"BCN1A"; $"ADES"] /\
      map r_name (e_recs (s_ers z)) = [$"ADEP"; $"PQR"; $"UN7"; $"GH"; $"01N002E"; $"W"; $"UP99"; $"TU"; $"OAT"; $"MN"; $"TNT2B"; $"ADES"] /\
      map r_name (e_errs (s_ers s)) = [$"?!"] /\ map r_name (e_errs (s_ers z)) = [$"[x]"]
  | _, _ => False
  end.
Proof.
  split; [apply same_form_test; vm_compute; reflexivity|].
  split; [vm_compute; discriminate|]. split; [apply Nat.leb_le; vm_compute; reflexivity|]. vm_compute. repeat split.
Qed.

(** Without the condition on bearings and coordinates this fails: the two fields have elements of the same types. *)
Theorem C82_not_the_bearing : exists (G : geodesic) (depth : nat) (f g : pstr),
  map (fun t => (t_base t, t_sub t)) (field_tokens f) = map (fun t => (t_base t, t_sub t)) (field_tokens g) /\
  match parse_field15 G depth f, parse_field15 G depth g with Ok a _, Ok b _ => a <> b | _, _ => False end.
Proof. exists flat, 40, ($"N0450F350 ABC180020"), ($"N0450F350 ABC380020"). split; vm_compute; [reflexivity|discriminate]. Qed.
Print Assumptions C82_not_the_bearing.
