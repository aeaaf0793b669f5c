(** * SpecUnits: levels that differ only in what they are measured from.

    F350 is a flight level and A350 an altitude, both in hundreds of feet; S1130 is a metric level and M1130 a metric altitude, both in
    tens of metres. *)
From Coq Require Import ZArith NArith List Bool String.
From Verif Require Import PyBase Enums Tokenizer Ers SpecNum SpecParser SpecGrammar SpecRename SpecFlow.
Import List ListNotations.
Local Open Scope list_scope.
Local Open Scope Z_scope.

Definition same_unit (c d : N) : Prop := In (c, d) [(70, 65); (65, 70); (83, 77); (77, 83)]%N.
(** [t] and [u] are speeds with a level (maybe with PLUS), and differ in the letter of the level; a flight level is a multiple of five. *)
Definition other_letter (t u : token) : Prop :=
  In (t_base t) [F15_SPEED_ALTITUDE; F15_SPEED_ALTITUDE_PLUS] /\
  exists c d rest, same_unit c d /\ (c = 70%N \/ d = 70%N -> decimal (firstn 3 rest) mod 5 = 0) /\
    t_text t = speed_part (t_text t) ++ c :: rest /\ t_text u = speed_part (t_text t) ++ d :: rest.
Definition same_but_letters (f g : pstr) : Prop := Forall2 (fun t u => t_text t = t_text u \/ other_letter t u) (field_tokens f) (field_tokens g).

(** All values; the level as text may differ in its letter. *)
Definition same_figures (l m : pstr) : Prop := l = m \/ exists c d ds, same_unit c d /\ l = c :: ds /\ m = d :: ds.
Definition measured_otherwise (P : token -> token -> Prop) (r q : rrec) : Prop :=
  same_shape P r q /\ same_figures (r_alt r) (r_alt q) /\ r_speed r = r_speed q /\ r_cto r = r_cto q /\ same_si r q /\ same_places r q /\ same_stay r q.
