(** * SpecSections: results that differ in the record of one section.  Nothing here refers to the parser. *)
From Coq Require Import ZArith NArith List Bool String.
From Verif Require Import PyBase PyFloat Enums Tokenizer Ers SpecParser SpecGrammar SpecAccept SpecRemoval.
Import List ListNotations.
Local Open Scope list_scope.
Local Open Scope nat_scope.

(** The words that begin and end a section. *)
Definition keywords (k : kind) : pstr * pstr :=
  match k with KVfr => ($"VFR", $"IFR") | KOat => ($"OAT", $"GAT") | KIfpstop => ($"IFPSTOP", $"IFPSTART") end.
Definition rules_within (k : kind) : pstr := match k with KVfr => $"VFR" | KOat => $"OAT" | KIfpstop => $"IFPS" end.
(** [x] is [x'] and one record more, but for places and legs: that of a section of kind [k] that begins with [b] and has the words [ws].
    It comes after the first record and before the last but one. Its speed and level are those of the record before it. *)
Definition one_section (k : kind) (b : pstr) (ws : list pstr) (x x' : ers) : Prop :=
  exists U q r V, e_recs x = U ++ q :: r :: V /\ Forall2 same_but_leg (U ++ q :: V) (e_recs x') /\ 2 <= length V /\
    r_name r = b /\ r_base r = F15_BREAK_START /\ r_rules r = rules_within k /\ r_break r = joined ws /\ r_llv r = false /\ r_stay r = 0%Z /\ r_cto r = [] /\
    r_speed r = r_speed q /\ r_alt r = r_alt q /\ r_speed_si r = r_speed_si q /\ r_alt_si r = r_alt_si q /\
    e_errs x = [] /\ e_errs x' = [] /\ (k <> KVfr -> e_rules x = e_rules x').
(** The next element but one is a speed with VFR. *)
Definition then_vfr (rest : list (token * role)) : Prop := exists sl t ro r, rest = sl :: (t, ro) :: r /\ t_base t = F15_SPEED_VFR.
(** A change of speed and level comes next. *)
Definition then_level (rest : list (token * role)) : Prop := exists sl t r, rest = (sl, ROut) :: (t, ROut) :: r /\ t_base sl = F15_SLASH /\ t_base t = F15_SPEED_ALTITUDE.
(** An element that a section can come after, if it is not the first one. *)
Definition before_section (x : token * role) : Prop :=
  snd x = ROut /\ match t_base (fst x) with F15_ROUTE | F15_DCT | F15_SID | F15_SID_STAR => False | _ => True end.
