(** * SpecLocal: two fields that have the same elements from some point on. *)
From Coq Require Import ZArith NArith List Bool String.
From Coq Require Import Floats.SpecFloat.
From Verif Require Import PyBase PyFloat Enums Tokenizer Ers SpecParser SpecGrammar.
Import List ListNotations.
Local Open Scope list_scope.
Local Open Scope Z_scope.

(** Point [p] right after element [x] is read for itself: it is not the second half of [x "/" p], it does not decide what IFR
    means, and if it follows a route it is not computed. *)
Definition stands_alone (x p : token) : Prop :=
  t_base p = F15_POINT /\ t_base x <> F15_SLASH /\ t_sub x <> F15_SB_IFR /\ (t_base x = F15_ROUTE -> computed_point (t_sub p) = false).
Definition ends_a_section (t : token) : Prop := t_base t = F15_BREAK_END.
Definition too_long (t : token) : Prop := t_base t = F15_TOO_LONG.

(** The records and errors of the field from position [a] on, the errors after position [a]. *)
Definition from_on (a : Z) (l : list rrec) : list rrec := filter (fun r => a <=? r_start r) l.
Definition after (a : Z) (l : list rrec) : list rrec := filter (fun r => a <? r_start r) l.

(** The same record, apart from its place, its speed, its level and the leg to the next one. *)
Definition same_element (r q : rrec) : Prop :=
  r_name r = r_name q /\ r_base r = r_base q /\ r_sub r = r_sub q /\ r_break r = r_break q /\ r_rules r = r_rules q /\ r_err r = r_err q /\
  r_stay r = r_stay q /\ r_cto r = r_cto q /\ r_cto_si r = r_cto_si q /\ r_lat r = r_lat q /\ r_lon r = r_lon q /\ r_llv r = r_llv q.
Definition same_flight (r q : rrec) : Prop :=
  r_speed r = r_speed q /\ r_alt r = r_alt q /\ r_speed_si r = r_speed_si q /\ r_alt_si r = r_alt_si q.
Definition other_flight (r q : rrec) : Prop := r_speed r <> r_speed q \/ r_alt r <> r_alt q.
(** The same records; at first the speed or the level may be another one, and from the first record on with the same speed and
    level it is the same. *)
Definition same_from_there (l m : list rrec) : Prop :=
  Forall2 same_element l m /\
  exists l1 l2 m1 m2, l = l1 ++ l2 /\ m = m1 ++ m2 /\ Forall2 other_flight l1 m1 /\ Forall2 same_flight l2 m2.
(** The same error, apart from its place. *)
Definition same_error (r q : rrec) : Prop :=
  r_name r = r_name q /\ r_base r = r_base q /\ r_sub r = r_sub q /\ r_err r = r_err q.
