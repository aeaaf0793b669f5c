(** * PropsInstead: C111 — a point given by name, by coordinates or by bearing and distance. *)
From Coq Require Import ZArith NArith List Bool String.
From Coq Require Import Floats.SpecFloat.
From Verif Require Import PyBase PyFloat Enums ErrorTable Syntax Tokenizer Ers Utils Parser SpecTokenizer SpecNum SpecParser SpecGrammar SpecAccept SpecInstead Instead PropsParser PropsLegs.
Import List ListNotations.
Local Open Scope list_scope.
Local Open Scope nat_scope.

(** C111. Any points of an accepted field can be given in another way, provided that no route begins or ends at a point that is not given by its name: the field is
    accepted, and its records are the same but for the names, kinds and coordinates of these points, for positions and legs. *)
Theorem C111_other_points : forall (G : geodesic) (depth depth' : nat) (f : pstr) (s : st) (g : pstr),
  parse_field15 G depth f = Ok true s -> other_points f g -> routes_fit Else (field_roles g) = true -> 3 * n_tokens g <= depth' + 1 ->
  exists s', parse_field15 G depth' g = Ok true s' /\ Forall2 (recast (in_place_of f g)) (e_recs (s_ers s)) (e_recs (s_ers s')) /\
    e_errs (s_ers s) = [] /\ e_errs (s_ers s') = [] /\ e_rules (s_ers s) = e_rules (s_ers s').
Proof. exact points_instead. Qed.
Print Assumptions C111_other_points.
(** The condition on routes is not too strong: it holds in every accepted field. *)
Theorem C111_routes_fit : forall (G : geodesic) (depth : nat) (g : pstr) (s : st), parse_field15 G depth g = Ok true s -> routes_fit Else (field_roles g) = true.
Proof. exact routes_always_fit. Qed.
Print Assumptions C111_routes_fit.

(** The first field has three points by name; in the second one they are given by coordinates, by coordinates, bearing and distance, and by a name, bearing and distance. *)
Definition by_name : pstr := $"N0450F350 ABC DCT DEF/N0420F330 STAY1/0030 UL9 XYZ C/GHI/M080F350F390 KLM OAT ABC GAT PQR".
Definition by_place : pstr := $"N0450F350 4812N00530E DCT 48N005E180060/N0420F330 STAY1/0030 UL9 XYZ C/GHI090020/M080F350F390 01S002W OAT ABC GAT PQR".
Example C111_example : other_points by_name by_place /\ routes_fit Else (field_roles by_place) = true /\
  match parse_field15 flat 100 by_name, parse_field15 flat 100 by_place with
  | Ok a s, Ok b z =>
      a = true /\ b = true /\
      map r_name (e_recs (s_ers s)) = [$"ADEP"; $"ABC"; $"DCT"; $"DEF"; $"UL9"; $"XYZ"; $"GHI"; $"KLM"; $"OAT"; $"PQR"; $"ADES"] /\
      map r_name (e_recs (s_ers z)) = [$"ADEP"; $"4812N00530E"; $"DCT"; $"48N005E180060"; $"UL9"; $"XYZ"; $"GHI090020"; $"01S002W"; $"OAT"; $"PQR"; $"ADES"] /\
      map r_speed (e_recs (s_ers s)) = map r_speed (e_recs (s_ers z)) /\ map r_llv (e_recs (s_ers s)) <> map r_llv (e_recs (s_ers z))
  | _, _ => False
  end.
Proof.
  split; [|vm_compute; repeat split; discriminate]. unfold other_points. vm_compute.
  repeat (constructor; [first [left; reflexivity|right; split; [discriminate|]; split; [reflexivity|]; split; [reflexivity|]; repeat split; discriminate]|]). constructor.
Qed.
(** A field that violates the condition. *)
Theorem C111_beside_route_refuted : exists (G : geodesic) (depth : nat) (f g : pstr) (s s' : st),
  parse_field15 G depth f = Ok true s /\ other_points f g /\ 3 * n_tokens g <= depth + 1 /\ parse_field15 G depth g = Ok false s'.
Proof.
  exists flat, 100, ($"N0450F350 ABC/N0420F330 UL9 DEF"), ($"N0450F350 48N005E/N0420F330 UL9 DEF"). do 2 eexists. split; [vm_compute; reflexivity|]. split; [|split; [apply Nat.leb_le; vm_compute; reflexivity|vm_compute; reflexivity]].
  unfold other_points. vm_compute. repeat (constructor; [first [left; reflexivity|right; split; [discriminate|]; split; [reflexivity|]; split; [reflexivity|]; repeat split; discriminate]|]). constructor.
Qed.
Print Assumptions C111_beside_route_refuted.
