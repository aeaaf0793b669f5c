(** * PropsFlow: which elements the values of the records come from (C84). *)
From Coq Require Import ZArith NArith List Bool String.
From Verif Require Import PyBase Enums Tokenizer Ers Utils Parser SpecParser SpecRename SpecFlow Flow PropsParser.
Import List ListNotations.
Local Open Scope list_scope.
Local Open Scope nat_scope.

(** C84. Two fields of the same structure give the same result up to names, positions and figures, whether they are accepted or
    not.  If also the speeds and levels are the same, so are all speeds, levels and climb targets; if they are the same in
    SI units, so are all values in SI units; if the coordinates are the same, in any
    notation, so are all coordinates, bearings and distances; if the times are the same, so are all stays. *)
Theorem C84_flow : forall (G : geodesic) (depth : nat) (f g : pstr),
  same_structure f g -> field_tokens f <> [] -> 3 * n_tokens f <= depth + 1 ->
  match parse_field15 G depth f, parse_field15 G depth g with
  | Ok a s, Ok b z =>
      a = b /\ Forall2 (same_shape (opposite f g)) (e_recs (s_ers s)) (e_recs (s_ers z)) /\
      Forall2 (same_report (opposite f g)) (e_errs (s_ers s)) (e_errs (s_ers z)) /\ e_rules (s_ers s) = e_rules (s_ers z) /\
      (agree_on is_speed f g -> Forall2 same_performance (e_recs (s_ers s)) (e_recs (s_ers z))) /\
      (agree_in_si f g -> Forall2 same_si (e_recs (s_ers s)) (e_recs (s_ers z))) /\
      (agree_on_coordinates G f g -> Forall2 same_places (e_recs (s_ers s)) (e_recs (s_ers z))) /\
      (agree_on is_stay f g -> Forall2 same_stay (e_recs (s_ers s)) (e_recs (s_ers z)))
  | Exn x _, Exn y _ => x = y
  | _, _ => False
  end.
Proof. exact flow_coordinates. Qed.
Print Assumptions C84_flow.

(** Other speeds, levels, coordinates and names; the stays agree. *)
Definition one_plan : pstr := $"N0450F350 ABC UL9 EF/M080A120 01N002E STAY1/0030 4830N00530W ?! DEF/K0800VFR low IFR XYZ/N0450F350 C/KLM/N0450F350F390 MNO".
Definition other_plan : pstr := $"M082S1200 AB UL9 EF/K0500F200 55S170W STAY1/0030 0100N00200E ?? DEF/M080VFR low IFR XY/N0400A100 C/KL/M080A100PLUS MN".
Definition third_plan : pstr := $"M082S1200 AB UL9 EF/K0500F200 55S170W STAY1/0030 0100N00200E ?? DEF/M080VFR low IFR XY/N0400A100 C/KL/M080A100A120 MN".
Example C84_example : same_structure one_plan third_plan /\ field_tokens one_plan <> [] /\ 3 * n_tokens one_plan <= 90 + 1 /\
  agree_on is_stay one_plan third_plan /\
  match parse_field15 flat 90 one_plan, parse_field15 flat 90 third_plan with
  | Ok a s, Ok b z => a = false /\ b = false /\ e_rules (s_ers s) = $"Y" /\ e_rules (s_ers z) = $"Y" /\
      map r_stay (e_recs (s_ers s)) = map r_stay (e_recs (s_ers z)) /\ nth_error (map r_stay (e_recs (s_ers s))) 4 = Some 30%Z /\
      map r_speed (e_recs (s_ers s)) <> map r_speed (e_recs (s_ers z)) /\ map r_rules (e_recs (s_ers s)) = map r_rules (e_recs (s_ers z))
  | _, _ => False
  end.
Proof.
  split; [apply same_structure_test; vm_compute; reflexivity|].
  split; [vm_compute; discriminate|]. split; [apply Nat.leb_le; vm_compute; reflexivity|].
  split. { intros t u (n & A & B) S. do 40 (destruct n as [|n]; [vm_compute in A, B; try (injection A as <-; injection B as <-); first [discriminate|discriminate S|reflexivity]|]). vm_compute in A. destruct n; discriminate A. }
  vm_compute. repeat split. discriminate.
Qed.
(** [other_plan] has another kind of climb, so it is not of this structure. *)
Example C84_other : ~ same_structure one_plan other_plan.
Proof.
  intro H. assert (E : map t_base (field_tokens one_plan) = map t_base (field_tokens other_plan)); [|vm_compute in E; discriminate E].
  unfold same_structure in H. induction H as [|t u l m (A & _) F IH]; [reflexivity|]. cbn [map]. now rewrite A, IH.
Qed.

(** The figures must be in order: a level that is no multiple of five is an error. *)
Theorem C84_not_any_figures : exists (G : geodesic) (depth : nat) (f g : pstr),
  map t_base (field_tokens f) = map t_base (field_tokens g) /\ map t_sub (field_tokens f) = map t_sub (field_tokens g) /\
  match parse_field15 G depth f, parse_field15 G depth g with Ok a _, Ok b _ => a <> b | _, _ => False end.
Proof. exists flat, 40, ($"N0450F350 ABC"), ($"N0450F352 ABC"). vm_compute. repeat split. discriminate. Qed.
Print Assumptions C84_not_any_figures.
