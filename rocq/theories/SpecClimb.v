(** * SpecClimb: results that differ in the target of one cruise climb. *)
From Coq Require Import ZArith NArith List Bool String.
From Verif Require Import PyBase PyFloat Enums Tokenizer Ers SpecParser SpecGrammar SpecAccept SpecLayout.
Import List ListNotations.
Local Open Scope list_scope.
Local Open Scope nat_scope.

(** The elements [pre] end with a route designator. *)
Definition after_route (pre : list (token * role)) : Prop := exists pre0 x, pre = pre0 ++ [(x, ROut)] /\ t_base x = F15_ROUTE.
(** A C may come after the elements [pre]: they are more than the first element, and end neither with the text of a section nor
    with a SID. *)
Definition before_c (pre : list (token * role)) : Prop :=
  exists pre0 x, pre = pre0 ++ [x] /\ pre0 <> [] /\ snd x <> RText /\ t_base (fst x) <> F15_SID /\ t_base (fst x) <> F15_SID_STAR.
(** The target that the element [t] of a climb names, and its value in metres: none for PLUS. *)
Definition target_of (t : token) : pstr := or_else (target_text (t, ROut)) [].
Definition target_value (t : token) : pynum := or_else (target_num (t, ROut)) PyZeroFloat.
Definition is_climb (t : token) : Prop := t_base t = F15_SPEED_ALTITUDE_ALTITUDE \/ t_base t = F15_SPEED_ALTITUDE_PLUS.
(** All values but the place and the climb target. *)
Definition same_but_target (r r' : rrec) : Prop :=
  r_name r = r_name r' /\ r_base r = r_base r' /\ r_sub r = r_sub r' /\ r_alt r = r_alt r' /\ r_alt_si r = r_alt_si r' /\
  r_speed r = r_speed r' /\ r_speed_si r = r_speed_si r' /\ r_break r = r_break r' /\ r_rules r = r_rules r' /\ r_err r = r_err r' /\
  r_stay r = r_stay r' /\ r_lat r = r_lat r' /\ r_lon r = r_lon r' /\ r_brg r = r_brg r' /\ r_dist r = r_dist r' /\ r_llv r = r_llv r'.
(** [x] is the result with a climb to [tg], converted to [tv], at the point [e], [x'] that without it. *)
Definition one_target (e tg : pstr) (tv : pynum) (x x' : ers) : Prop :=
  exists U r V U' r' V', e_recs x = U ++ r :: V /\ e_recs x' = U' ++ r' :: V' /\
    Forall2 same_but_place U U' /\ Forall2 same_but_place V V' /\ same_but_target r r' /\
    r_name r = e /\ r_cto r = tg /\ r_cto_si r = tv /\ r_cto r' = [] /\ r_cto_si r' = PyZeroFloat /\
    e_errs x = [] /\ e_errs x' = [] /\ e_rules x = e_rules x'.
