(** * SpecWaypoint: results that differ in the record of one point.  Of the parser only the classification of a word ([classify]) is used. *)
From Coq Require Import ZArith NArith List Bool String.
From Verif Require Import PyBase PyFloat Enums Syntax Tokenizer Ers Parser SpecParser SpecGrammar SpecAccept SpecRemoval.
Import List ListNotations.
Local Open Scope list_scope.
Local Open Scope nat_scope.

(** A word that is a point with possible coordinates and a possible bearing. *)
Definition good_point (w : pstr) : Prop := fst (classify w) = F15_POINT /\ angles_ok (mkToken w 0 0 (fst (classify w)) (snd (classify w))).
(** [x] is [x'] and one record more, but for places and legs: that of the point [w].  It is neither the first one nor among the last two.
    Its speed and level are those of the record before it. *)
Definition one_point (w : pstr) (x x' : ers) : Prop :=
  exists U q r V, e_recs x = U ++ q :: r :: V /\ Forall2 same_but_leg (U ++ q :: V) (e_recs x') /\ 2 <= length V /\
    r_name r = w /\ (r_base r, r_sub r) = classify w /\ r_rules r = $"IFR" /\ r_break r = [] /\ r_stay r = 0%Z /\ r_cto r = [] /\
    r_speed r = r_speed q /\ r_alt r = r_alt q /\ r_speed_si r = r_speed_si q /\ r_alt_si r = r_alt_si q /\
    e_errs x = [] /\ e_errs x' = [] /\ e_rules x = e_rules x'.
(** An element of the route; after a designator a point must not be computed. *)
Definition may_precede (x : token * role) (computed : bool) : Prop := snd x = ROut /\ (t_base (fst x) = F15_ROUTE -> computed = false).
