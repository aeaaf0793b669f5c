(** * PropsLegs: C39, C53 — bearings, distances and coordinates of the records. *)
From Coq Require Import ZArith NArith List Bool String.
From Coq Require Import Floats.SpecFloat.
From Verif Require Import PyBase PyFloat Enums ErrorTable Tokenizer Ers Utils Parser SpecNum SpecParser SpecLegs LegFacts PropsParser.
Import List ListNotations.
Local Open Scope list_scope.
Local Open Scope nat_scope.

(** A library whose bearing and distance are the coordinates of the second point. *)
Definition second : geodesic := {| geo_inverse := fun _ _ la lo => (la, lo); geo_direct := fun a b _ _ => (a, b) |}.
Definition recs_of (field : pstr) : list rrec := e_recs (s_ers (final (parse_field15 second 100 field))).
Definition rec_at (field : pstr) (i : nat) : rrec := nth i (recs_of field) (dummy []).

(** C39: in every run, a record with coordinates is joined to the next record or the next
    but one, whichever first has coordinates, and has no leg if neither has; a record
    without coordinates has no leg.  Missing against C39: the next record may be a point without
    coordinates, and the next point with coordinates may be further away. *)
Theorem C39_legs_partial : forall (G : geodesic) (depth : nat) (field : pstr) b s l r rest,
  parse_field15 G depth field = Ok b s -> e_recs (s_ers s) = l ++ r :: rest ->
  (r_llv r = false -> no_leg r) /\
  (r_llv r = true ->
     (forall p m, rest = p :: m -> r_llv p = true -> joined G r p) /\
     (forall p q m, rest = p :: q :: m -> r_llv p = false -> r_llv q = true -> joined G r q) /\
     ((forall p, In p (firstn 2 rest) -> r_llv p = false) -> no_leg r)).
Proof. exact legs_all. Qed.
Print Assumptions C39_legs_partial.
(** C39 is false: the next point has no coordinates, yet there is a leg (to the point after it) ... *)
Theorem C39_bearing_distance_refuted : exists (G : geodesic) (depth : nat) (field : pstr) s a r p q z,
  parse_field15 G depth field = Ok true s /\ e_recs (s_ers s) = [a; r; p; q; z] /\
  r_base p = F15_POINT /\ r_llv r = true /\ r_llv p = false /\ ~ no_leg r.
Proof.
  set (f := $"N0450F350 00N000E ABC 48N005E").
  exists second, 100, f. eexists. exists (rec_at f 0), (rec_at f 1), (rec_at f 2), (rec_at f 3), (rec_at f 4).
  split; [vm_compute; reflexivity|]. split; [vm_compute; reflexivity|]. split; [vm_compute; reflexivity|]. split; [vm_compute; reflexivity|].
  split; [vm_compute; reflexivity|]. intros [H _]. vm_compute in H. discriminate H.
Qed.
Print Assumptions C39_bearing_distance_refuted.
(** ... and the next point has coordinates, yet there is no leg. *)
Theorem C39_no_leg_refuted : exists (G : geodesic) (depth : nat) (field : pstr) s a r c d q z,
  parse_field15 G depth field = Ok true s /\ e_recs (s_ers s) = [a; r; c; d; q; z] /\
  r_base c = F15_C /\ r_base d = F15_DCT /\ r_base q = F15_POINT /\ r_llv r = true /\ r_llv q = true /\ ~ joined G r q /\ no_leg r.
Proof.
  set (f := $"N0450F350 00N000E C DCT 48N005E").
  exists second, 100, f. eexists. exists (rec_at f 0), (rec_at f 1), (rec_at f 2), (rec_at f 3), (rec_at f 4), (rec_at f 5).
  do 7 (split; [vm_compute; reflexivity|]). split; [intro H; vm_compute in H; discriminate H|split; vm_compute; reflexivity].
Qed.
Print Assumptions C39_no_leg_refuted.
Example C39_example : map (fun r => (r_llv r, r_brg r, r_dist r)) (recs_of ($"N0450F350 00N000E DCT 48N005E 01N000E XYZ")) =
  [(false, zero_f, zero_f); (true, f_of_Z 48, f_of_Z 5); (false, zero_f, zero_f); (true, f_of_Z 1, f_of_Z 0); (true, zero_f, zero_f);
   (false, zero_f, zero_f); (false, zero_f, zero_f)].
Proof. vm_compute. reflexivity. Qed.

(** C53: in every run the coordinates of a record are those its text stands for, or it has none.
    Missing against C53: a latitude/longitude may have none. *)
Theorem C53_coordinates_partial : forall (G : geodesic) (depth : nat) (field : pstr) b s r,
  parse_field15 G depth field = Ok b s -> In r (e_recs (s_ers s)) ->
  no_coords r \/ (r_llv r = true /\ coords_of G (r_name r) (r_lat r) (r_lon r)).
Proof. exact coords_all. Qed.
Print Assumptions C53_coordinates_partial.
(** C53 is false: a latitude/longitude between IFR and a speed/VFR gets no coordinates. *)
Theorem C53_coordinates_refuted : exists (G : geodesic) (depth : nat) (field : pstr) s r,
  parse_field15 G depth field = Ok true s /\ In r (e_recs (s_ers s)) /\ r_sub r = F15_SB_LL_DEG /\ r_name r = $"48N005E" /\ no_coords r.
Proof.
  set (f := $"N0450VFR IFR 48N005E/N0450VFR"). exists second, 100, f. eexists. exists (rec_at f 2).
  split; [vm_compute; reflexivity|]. split; [right; right; left; vm_compute; reflexivity|]. do 2 (split; [vm_compute; reflexivity|]). vm_compute. auto.
Qed.
Print Assumptions C53_coordinates_refuted.
Example C53_example : map (fun r => (r_llv r, r_lat r, r_lon r)) (recs_of ($"N0450F350 48S005W 01N002E090010")) =
  [(false, zero_f, zero_f); (true, SFopp (f_of_Z 48), SFopp (f_of_Z 5)); (true, f_of_Z 1, f_of_Z 2); (false, zero_f, zero_f)].
Proof. vm_compute. reflexivity. Qed.
