(** * SpecCross: two routes through the same point. *)
From Coq Require Import ZArith NArith List Bool String.
From Verif Require Import PyBase PyFloat Enums Tokenizer Ers SpecParser SpecGrammar SpecAccept SpecLayout SpecRemoval SpecChange.
Import List ListNotations.
Local Open Scope list_scope.
Local Open Scope nat_scope.

(** All values but the place, the leg, the speed and the level. *)
Definition same_track (r r' : rrec) : Prop :=
  r_name r = r_name r' /\ r_base r = r_base r' /\ r_sub r = r_sub r' /\ r_break r = r_break r' /\ r_rules r = r_rules r' /\ r_err r = r_err r' /\
  r_stay r = r_stay r' /\ r_cto r = r_cto r' /\ r_cto_si r = r_cto_si r' /\ r_lat r = r_lat r' /\ r_lon r = r_lon r' /\ r_llv r = r_llv r'.
(** The number of records before that of the last of the elements [w], a point: ADEP and those of the other elements. *)
Definition n_before (w : list (token * role)) : nat := length (recorded_at 0 w).
(** [x1] are the records of a field that begins with the elements [w], up to a point, [x2] those of a field that begins with [w'], up to the same
    point, and goes on with [rest'], and [x3] those of the field that consists of [w] and [rest']. *)
Definition crossed (w w' rest' : list (token * role)) (x1 x2 x3 : list rrec) : Prop :=
  exists A1 X1 A2 M2 V2 A3 M3 V3, x1 = A1 ++ X1 /\ x2 = A2 ++ M2 ++ V2 /\ x3 = A3 ++ M3 ++ V3 /\
    length A1 = n_before w /\ length A2 = n_before w' /\ length M2 = reach 1 rest' /\
    Forall2 same_but_leg A1 A3 /\ Forall2 same_track M2 M3 /\ Forall2 same_but_leg V2 V3 /\ Forall (fun r => in_force w = Some (r_speed r, r_alt r)) M3.
(** [x1] are the records of a field with the elements [w] up to a point, [mid] up to another and others after it, [x2] those of a field with the
    elements [w'] up to the first point, [mid'] up to the other and others after it, and [x3] those of the first with [mid'] in place of [mid]. *)
Definition detoured (w mid w' mid' : list (token * role)) (x1 x2 x3 : list rrec) : Prop :=
  exists A1 B1 C1 A2 B2 C2 A3 B3 C3, x1 = A1 ++ B1 ++ C1 /\ x2 = A2 ++ B2 ++ C2 /\ x3 = A3 ++ B3 ++ C3 /\
    length A1 = n_before w /\ length (A1 ++ B1) = n_before (w ++ mid) /\ length A2 = n_before w' /\ length (A2 ++ B2) = n_before (w' ++ mid') /\
    Forall2 same_but_leg A1 A3 /\ Forall2 same_track B2 B3 /\ Forall2 same_track C1 C3 /\
    (in_force (w ++ mid') = in_force (w ++ mid) -> Forall2 same_but_leg C1 C3).
