(** * SpecStay: the place of a stay, and results that differ in one stay. *)
From Coq Require Import ZArith NArith List Bool String.
From Verif Require Import PyBase PyFloat Enums Tokenizer Ers SpecParser SpecGrammar SpecAccept SpecLayout.
Import List ListNotations.
Local Open Scope list_scope.
Local Open Scope nat_scope.

(** The elements [pre] end with the point [x] and its changes of speed and level, or with a C. *)
Definition stands (pre : list (token * role)) (x : token * role) : Prop :=
  exists pre0 mods, pre = pre0 ++ x :: mods /\ changes mods /\
    (snd x = RClimb \/ (snd x = ROut /\ (t_base (fst x) = F15_POINT \/ (t_base (fst x) = F15_C /\ mods = [])))).
Definition begins_with (b : base_type) (rest : list (token * role)) : Prop := exists t r, rest = (t, ROut) :: r /\ t_base t = b.
(** All values but the place and the stay. *)
Definition same_but_stay (r r' : rrec) : Prop :=
  r_name r = r_name r' /\ r_base r = r_base r' /\ r_sub r = r_sub r' /\ r_alt r = r_alt r' /\ r_alt_si r = r_alt_si r' /\
  r_speed r = r_speed r' /\ r_speed_si r = r_speed_si r' /\ r_break r = r_break r' /\ r_rules r = r_rules r' /\ r_err r = r_err r' /\
  r_cto r = r_cto r' /\ r_cto_si r = r_cto_si r' /\ r_lat r = r_lat r' /\ r_lon r = r_lon r' /\
  r_brg r = r_brg r' /\ r_dist r = r_dist r' /\ r_llv r = r_llv r'.
(** [x] is the result with a stay of [m] minutes at the element [e], [x'] that without it. *)
Definition one_stay (e : pstr) (m : Z) (x x' : ers) : Prop :=
  exists U r V U' r' V', e_recs x = U ++ r :: V /\ e_recs x' = U' ++ r' :: V' /\
    Forall2 same_but_place U U' /\ Forall2 same_but_place V V' /\ same_but_stay r r' /\
    r_name r = e /\ r_stay r = m /\ r_stay r' = 0%Z /\
    e_errs x = [] /\ e_errs x' = [] /\ e_rules x = e_rules x'.
