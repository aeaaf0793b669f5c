(** * SpecConnector: how two results are compared when a route designator takes the place of a DCT. *)
From Coq Require Import ZArith NArith List Bool String.
From Verif Require Import PyBase PyFloat Enums Tokenizer Ers SpecParser SpecGrammar SpecAccept SpecLayout.
Import List ListNotations.
Local Open Scope list_scope.
Local Open Scope nat_scope.

(** Two records of different elements with the same values. *)
Definition same_but_element (r r' : rrec) : Prop :=
  r_alt r = r_alt r' /\ r_alt_si r = r_alt_si r' /\ r_speed r = r_speed r' /\ r_speed_si r = r_speed_si r' /\ r_break r = r_break r' /\
  r_rules r = r_rules r' /\ r_err r = r_err r' /\ r_stay r = r_stay r' /\ r_cto r = r_cto r' /\ r_cto_si r = r_cto_si r' /\ r_lat r = r_lat r' /\
  r_lon r = r_lon r' /\ r_brg r = r_brg r' /\ r_dist r = r_dist r' /\ r_llv r = r_llv r'.
(** The results are the same but for one record, which is that of an element [a] of type [b] in one and [a'] of type [b'] in the other. *)
Definition one_replaced (a : pstr) (b : base_type) (a' : pstr) (b' : base_type) (x x' : ers) : Prop :=
  exists U r V U' r' V', e_recs x = U ++ r :: V /\ e_recs x' = U' ++ r' :: V' /\
    Forall2 same_but_place U U' /\ Forall2 same_but_place V V' /\ same_but_element r r' /\
    r_name r = a /\ r_base r = b /\ r_name r' = a' /\ r_base r' = b' /\
    e_errs x = [] /\ e_errs x' = [] /\ e_rules x = e_rules x'.
(** The elements before this place end with a SID. *)
Definition after_sid (pre : list (token * role)) : Prop :=
  exists pre0 x, pre = pre0 ++ [x] /\ In (t_base (fst x)) [F15_SID; F15_SID_STAR].
(** They end with a point given by coordinates or by bearing and distance, and its changes of speed and level. *)
Definition after_computed (pre : list (token * role)) : Prop :=
  exists pre0 x mods, pre = pre0 ++ x :: mods /\ changes mods /\ is_computed x.
Definition before_computed (rest : list (token * role)) : Prop :=
  exists t rest0, rest = (t, ROut) :: rest0 /\ t_base t = F15_POINT /\ computed_point (t_sub t) = true.
