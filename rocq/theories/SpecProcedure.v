(** * SpecProcedure: results that differ in the record of one procedure (SID or STAR). *)
From Coq Require Import ZArith NArith List Bool String.
From Coq Require Import Floats.SpecFloat.
From Verif Require Import PyBase PyFloat Enums Tokenizer Ers SpecParser SpecGrammar SpecAccept SpecLayout.
Import List ListNotations.
Local Open Scope list_scope.
Local Open Scope nat_scope.

(** [x] is [x'] and one record more, that of the element [a] with type [b]. It has no coordinates, leg, text, stay or climb target,
    and its speed, level and rules are those of the record before it. *)
Definition one_more (a : pstr) (b : base_type) (x x' : ers) : Prop :=
  exists U q r V, e_recs x = U ++ q :: r :: V /\ Forall2 same_but_place (U ++ q :: V) (e_recs x') /\
    r_name r = a /\ r_base r = b /\
    r_llv r = false /\ r_brg r = S754_zero false /\ r_dist r = S754_zero false /\ r_break r = [] /\ r_stay r = 0%Z /\ r_cto r = [] /\
    r_speed r = r_speed q /\ r_alt r = r_alt q /\ r_speed_si r = r_speed_si q /\ r_alt_si r = r_alt_si q /\ r_rules r = r_rules q /\
    e_errs x = [] /\ e_errs x' = [] /\ e_rules x = e_rules x'.
(** A STAR may come after the elements [w]: the last one is a point, a change of speed and level, a stay, a C or the SID. *)
Definition before_star (w : list (token * role)) : Prop :=
  exists pre x, w = pre ++ [(x, ROut)] /\
    (In (t_base x) [F15_POINT; F15_SPEED_ALTITUDE; F15_SPEED_ALTITUDE_ALTITUDE; F15_SPEED_ALTITUDE_PLUS; F15_STAY_TIME; F15_C; F15_SID] \/
     t_base x = F15_SID_STAR /\ length pre = 1).
