(** * PropsOrder: C98 — levels and speeds can be compared by their SI values. *)
From Coq Require Import ZArith NArith List Bool String Lia.
From Verif Require Import PyBase PyFloat Enums Tokenizer Ers Utils Parser SpecNum SpecParser SpecOrder Order PropsParser PropsRemoval.
Import List ListNotations.
Local Open Scope list_scope.
Local Open Scope Z_scope.

(** C98. A record that states a greater height never has a smaller level in metres, whatever the units and the fields ... *)
Theorem C98_levels : forall (G : geodesic) (r r' : rrec), occurs G r -> occurs G r' -> r_alt r <> [] -> r_alt r' <> [] ->
  height (r_alt r) <= height (r_alt r') -> level_si r <= level_si r'.
Proof. exact level_order. Qed.
Print Assumptions C98_levels.

(** ... and if both are in feet, or both metric, the order of the values is exactly that of the heights: no two levels coincide. *)
Theorem C98_levels_apart : forall (G : geodesic) (r r' : rrec), occurs G r -> occurs G r' -> r_alt r <> [] -> r_alt r' <> [] ->
  (in_feet (r_alt r) <-> in_feet (r_alt r')) -> (height (r_alt r) < height (r_alt r') <-> level_si r < level_si r').
Proof. exact level_strict. Qed.
Print Assumptions C98_levels_apart.

(** Knots and kilometres per hour. *)
Theorem C98_speeds : forall (G : geodesic) (r r' : rrec), occurs G r -> occurs G r' -> r_alt r <> [] -> r_alt r' <> [] ->
  ~ is_mach (r_speed r) -> ~ is_mach (r_speed r') -> velocity (r_speed r) <= velocity (r_speed r') -> speed_si r <= speed_si r'.
Proof. exact speed_order. Qed.
Print Assumptions C98_speeds.

(** A Mach number that is not smaller, at a height that is not greater, is not slower. *)
Theorem C98_machs : forall (G : geodesic) (r r' : rrec), occurs G r -> occurs G r' -> r_alt r <> [] -> r_alt r' <> [] ->
  is_mach (r_speed r) -> is_mach (r_speed r') -> mach (r_speed r) <= mach (r_speed r') -> height (r_alt r') <= height (r_alt r) -> speed_si r <= speed_si r'.
Proof. exact mach_order. Qed.
Print Assumptions C98_machs.

Definition recs (f : pstr) : list rrec := e_recs (s_ers (final (parse_field15 flat 100 f))).
Definition values (f : pstr) : list (pstr * Z * pstr * Z) := map (fun r => (r_alt r, level_si r, r_speed r, speed_si r)) (firstn 1 (recs f)).
Example C98_example :
  let a := $"N0450F350 ABC" in let b := $"K0834M1067 ABC" in let c := $"M082F351 ABC" in
  values a = [($"F350", 10668, $"N0450", 231)] /\ values b = [($"M1067", 10670, $"K0834", 232)] /\ values c = [($"F351", 10698, $"M082", 243)] /\
  height ($"F350") < height ($"M1067") < height ($"F351") /\ velocity ($"N0450") < velocity ($"K0834").
Proof. cbv zeta. split; [vm_compute; reflexivity|]. split; [vm_compute; reflexivity|]. split; [vm_compute; reflexivity|]. split; [split|]; vm_compute; reflexivity. Qed.
Definition first (f : pstr) : rrec := hd (dummy []) (recs f).
Definition has_first (o : out bool) : bool := match o with Ok _ s => match e_recs (s_ers s) with [] => false | _ => true end | Exn _ _ => false end.
Lemma first_occurs f : has_first (parse_field15 flat 100 f) = true -> occurs flat (first f).
Proof.
  unfold first, recs. intro H. destruct (parse_field15 flat 100 f) as [b s|e s] eqn:P; [|discriminate]. exists 100%nat, f, b, s. split; [exact P|].
  cbn [has_first final] in *. destruct (e_recs (s_ers s)) as [|r l]; [discriminate|]. now left.
Qed.
(** Different speeds may have the same value, and so may levels in different units. *)
Theorem C98_apart_refuted : exists (G : geodesic) (r r' q q' : rrec),
  occurs G r /\ occurs G r' /\ velocity (r_speed r) < velocity (r_speed r') /\ speed_si r = speed_si r' /\
  occurs G q /\ occurs G q' /\ height (r_alt q) < height (r_alt q') /\ level_si q = level_si q'.
Proof.
  exists flat, (first ($"N0449F350 ABC")), (first ($"N0450F350 ABC")), (first ($"N0450S0003 ABC")), (first ($"N0450F001 ABC")).
  split; [apply first_occurs; vm_compute; reflexivity|]. split; [apply first_occurs; vm_compute; reflexivity|].
  split; [vm_compute; reflexivity|]. split; [vm_compute; reflexivity|].
  split; [apply first_occurs; vm_compute; reflexivity|]. split; [apply first_occurs; vm_compute; reflexivity|].
  split; vm_compute; reflexivity.
Qed.
Print Assumptions C98_apart_refuted.
