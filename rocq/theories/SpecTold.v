(** * SpecTold: what the messages say about the element they are reported for. *)
From Coq Require Import ZArith NArith List Bool String.
From Verif Require Import PyBase Enums Tokenizer SpecGrammar SpecDiagnosis.
Import List ListNotations.
Local Open Scope list_scope.
Local Open Scope Z_scope.

Definition follows (bs : list base_type) (before : option token) : Prop := exists x, before = Some x /\ In (t_base x) bs.
Definition is_a (bs : list base_type) (t : token) : Prop := In (t_base t) bs.
(** What message [m] says about the element [t], which has number [i] from 0 and follows [before] in a field
    that ends with [last].  ErrorMessageDefinitions.py:4-61. *)
Definition told (i : nat) (before : option token) (t : token) (last : option token) (m : Z) : Prop :=
  match m with
  | 1 => i = 0%nat /\ ~ is_a [F15_SPEED_ALTITUDE; F15_SPEED_VFR] t          (* the first element must be a speed/level and not t *)
  | 3 => is_a [F15_UNKNOWN] t                                               (* t is unrecognised *)
  | 4 => is_a [F15_TOO_LONG] t                                              (* t is too long *)
  | 5 => is_a [F15_SPEED_ALTITUDE; F15_SPEED_VFR] t /\ ~ follows [F15_SLASH] before   (* expecting a slash before t *)
  | 6 => t_sub t = F15_SB_IFR
  | 7 => t_sub t = F15_SB_GAT
  | 8 => is_a [F15_BREAK_END] t
  | 9 => is_a [F15_SPEED_ALTITUDE_ALTITUDE; F15_SPEED_ALTITUDE_PLUS] t /\ ~ follows [F15_SLASH] before   (* expecting C/POINT/ before t *)
  | 10 => is_a [F15_STAY_TIME] t /\ ~ follows [F15_SLASH] before            (* expecting STAY before t *)
  | 12 => is_a [F15_SLASH] t /\ follows [F15_ROUTE] before                  (* a PRP after a route, not t *)
  | 13 => is_a [F15_BREAK_START; F15_SPEED_VFR] t /\ follows [F15_ROUTE] before   (* rule change after a route *)
  | 14 => is_a [F15_DCT] t /\ follows [F15_ROUTE] before                    (* direct from a route *)
  | 15 => is_a [F15_STAY] t /\ follows [F15_ROUTE] before                   (* must be preceded by a point *)
  | 16 => is_a [F15_SLASH] t /\ follows [F15_SLASH] before                  (* t cannot follow a slash *)
  | 19 => follows [F15_TRUNCATE] before                                     (* the field ends after T *)
  | 20 => is_a [F15_SLASH] t /\ last = Some t                               (* more expected after the final t *)
  | 21 => ~ is_a [F15_POINT] t /\ follows [F15_DCT] before                  (* DCT must be followed by a point *)
  | 22 => is_a [F15_POINT] t
  | 23 => i = 1%nat                                                         (* the first speed/level cannot be followed by t *)
  | 24 => i = 1%nat /\ is_a [F15_ROUTE] t
  | 26 => ~ is_a [F15_SLASH] t                                              (* expecting a slash instead of t *)
  | 27 => last = Some t
  | 28 => exists x, last = Some x /\ is_a [F15_SLASH] x
  | 29 => ~ is_a [F15_SPEED_ALTITUDE_ALTITUDE; F15_SPEED_ALTITUDE_PLUS] t /\ follows [F15_SLASH] before
  | 30 => is_a [F15_SID] t /\ i <> 1%nat                                    (* a SID must follow the first speed/level *)
  | 31 => ~ is_a [F15_POINT; F15_STAR; F15_SID_STAR] t /\ follows [F15_SID; F15_SID_STAR] before   (* a SID must be followed by a point or STAR *)
  | 32 => is_a [F15_SID] t /\ follows [F15_SID; F15_SID_STAR] before        (* a SID cannot be followed by another *)
  | 34 => follows [F15_STAR; F15_SID_STAR] before                           (* a STAR must be the last element *)
  | 35 => is_a [F15_STAY] t /\ last = Some t                                (* expecting a time after t *)
  | 36 => ~ is_a [F15_SLASH] t /\ follows [F15_STAY] before                 (* expecting a slash after STAY *)
  | 37 => is_a [F15_SLASH] t /\ last = Some t                               (* a time is missing after t *)
  | 38 => ~ is_a [F15_STAY_TIME] t /\ follows [F15_SLASH] before            (* a time must follow STAYn/ *)
  | 39 => follows [F15_STAY_TIME] before                                    (* t cannot follow STAYn/HHMM *)
  | 40 => level_fault t = true                                              (* the flight level must end in zero or five *)
  | 42 | 43 | 44 | 45 | 46 => angle_fault t = Some m                        (* latitude, longitude or bearing out of range *)
  | 47 => is_a [F15_ROUTE] t
  | 48 => computed_point (t_sub t) = true /\ is_a [F15_POINT] t /\ follows [F15_ROUTE] before
  | 49 => i = 0%nat /\ last = Some t                                        (* no route description *)
  | 50 => ~ is_a [F15_SPEED_ALTITUDE; F15_SPEED_VFR] t /\ follows [F15_SLASH] before   (* expecting speed/level after a slash *)
  | 52 => is_a [F15_SLASH] t /\ last = Some t
  | 53 => is_a [F15_ROUTE] t /\ follows [F15_ROUTE] before                  (* crossing point between routes *)
  | 54 => is_a [F15_STAR; F15_SID_STAR] t /\ follows [F15_ROUTE] before     (* a point between route and STAR *)
  | 55 => is_a [F15_SPEED_ALTITUDE] t /\ follows [F15_ROUTE] before         (* speed/level cannot follow a route *)
  | _ => False                                                              (* no other message *)
  end.
