(** * SpecFlow: which elements the values of the records come from.

    Two fields have the same structure when they have the same number of elements and the elements at the same place are of the
    same kind: names may differ, and so may the figures of speeds, levels, coordinates, bearings, distances and stays, as long as they
    are in order.  Nothing here refers to the parser. *)
From Coq Require Import ZArith NArith List Bool String.
From Verif Require Import PyBase PyFloat Enums Tokenizer Ers Utils SpecParser SpecGrammar SpecAccept SpecDiagnosis SpecReader SpecComplete SpecRename.
Import List ListNotations.
Local Open Scope list_scope.
Local Open Scope Z_scope.

Definition is_speed (t : token) : Prop := In (t_base t) [F15_SPEED_VFR; F15_SPEED_ALTITUDE; F15_SPEED_ALTITUDE_ALTITUDE; F15_SPEED_ALTITUDE_PLUS].
Definition is_coordinate (t : token) : Prop := In (t_sub t) [F15_SB_LL_DEG; F15_SB_LL_MIN; F15_SB_LLBD_DEG; F15_SB_LLBD_MIN].
Definition is_stay (t : token) : Prop := t_base t = F15_STAY_TIME.

(** The figures give no error by themselves. *)
Definition figures_in_order (t : token) : Prop :=
  match t_base t with
  | F15_POINT => angle_faults t = []
  | F15_SPEED_ALTITUDE | F15_SPEED_ALTITUDE_ALTITUDE | F15_SPEED_ALTITUDE_PLUS => level_faults t = [] /\ unconvertible t = false
  | F15_SPEED_VFR | F15_STAY_TIME => True
  | _ => False
  end.
(** The units of a speed and level are part of its sub type; the notation of coordinates is, too. *)
Definition counterpart (t u : token) : Prop :=
  t_base t = t_base u /\ (t_sub t = t_sub u \/ is_speed t \/ is_coordinate t /\ is_coordinate u) /\
  (t_text t = t_text u \/ freely_named (t_base t) (t_sub t) = true \/ figures_in_order t /\ figures_in_order u).
Definition same_structure (f g : pstr) : Prop := Forall2 counterpart (field_tokens f) (field_tokens g).
(** The elements of one kind are the same in both. *)
Definition agree_on (kind : token -> Prop) (f g : pstr) : Prop :=
  forall t u, opposite f g t u -> kind t -> t_text t = t_text u.

(** The coordinates are the same in both, however they are written. *)
Definition agree_on_coordinates (G : geodesic) (f g : pstr) : Prop :=
  forall t u, opposite f g t u -> is_coordinate t -> coordinates G (t_text t) = coordinates G (t_text u).

(** The speeds and levels are the same in SI units, whatever units they are given in. *)
Definition stated_level (t : token) : pstr := match t_base t with F15_SPEED_VFR => $"F050" | _ => first_level (t_text t) end.
Definition si_level (t : token) : pynum := value_or_zero (stated_level t) (level_of (stated_level t)).
Definition si_speed (t : token) : pynum := value_or_zero (speed_part (t_text t)) (speed_of (speed_part (t_text t)) (level_of (stated_level t))).
Definition same_in_si (t u : token) : Prop :=
  si_level t = si_level u /\ si_speed t = si_speed u /\
  (t_base t = F15_SPEED_ALTITUDE_ALTITUDE -> level_value (stored_target (t_text t)) = level_value (stored_target (t_text u))).
Definition agree_in_si (f g : pstr) : Prop := forall t u, opposite f g t u -> is_speed t -> same_in_si t u.

(** What two records have in common. *)
Definition same_shape (P : token -> token -> Prop) (r q : rrec) : Prop :=
  r_base r = r_base q /\
  (r_sub r = r_sub q \/ In (r_base r) [F15_SPEED_VFR; F15_SPEED_ALTITUDE; F15_SPEED_ALTITUDE_ALTITUDE; F15_SPEED_ALTITUDE_PLUS] \/
   In (r_sub r) [F15_SB_LL_DEG; F15_SB_LL_MIN; F15_SB_LLBD_DEG; F15_SB_LLBD_MIN] /\ In (r_sub q) [F15_SB_LL_DEG; F15_SB_LL_MIN; F15_SB_LLBD_DEG; F15_SB_LLBD_MIN]) /\
  r_rules r = r_rules q /\ r_err r = r_err q /\ r_llv r = r_llv q /\ same_origin P r q /\ same_words P r q.
Definition same_performance (r q : rrec) : Prop :=
  r_alt r = r_alt q /\ r_alt_si r = r_alt_si q /\ r_speed r = r_speed q /\ r_speed_si r = r_speed_si q /\ r_cto r = r_cto q /\ r_cto_si r = r_cto_si q /\
  (r_base r <> F15_POINT -> r_sub r = r_sub q).
Definition same_places (r q : rrec) : Prop := r_lat r = r_lat q /\ r_lon r = r_lon q /\ r_brg r = r_brg q /\ r_dist r = r_dist q.
Definition same_stay (r q : rrec) : Prop := r_stay r = r_stay q.
Definition same_si (r q : rrec) : Prop := r_alt_si r = r_alt_si q /\ r_speed_si r = r_speed_si q /\ r_cto_si r = r_cto_si q.
