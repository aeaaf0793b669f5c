(** * SpecBack: the same route flown the other way.  Nothing here refers to the parser. *)
From Coq Require Import ZArith NArith List Bool String.
From Verif Require Import PyBase PyFloat Enums Tokenizer Ers Utils SpecParser SpecLocal.
Import List ListNotations.
Local Open Scope list_scope.
Local Open Scope Z_scope.

(** A way from point to point: points, routes and DCT only. *)
Definition on_the_way (t : token) : Prop := t_base t = F15_POINT \/ t_base t = F15_ROUTE \/ t_base t = F15_DCT.
(** The elements of [f] are a speed/level and a way, those of [g] the same speed/level and the way in the opposite order. *)
Definition way_back (f g : pstr) : Prop :=
  exists sp w, field_tokens f = sp :: w /\ t_base sp = F15_SPEED_ALTITUDE /\ Forall on_the_way w /\
    map t_text (field_tokens g) = t_text sp :: rev (map t_text w).
Definition ends_with_a_route (f : pstr) : Prop := exists ts t, field_tokens f = ts ++ [t] /\ t_base t = F15_ROUTE.

(** The same record, apart from its place and from the leg to the next one. *)
Definition same_apart (r q : rrec) : Prop := same_element r q /\ same_flight r q.
(** The lengths of the legs: of the records with coordinates for which one of the next two records has coordinates too. *)
Definition followed (rest : list rrec) : bool :=
  match rest with p :: m => r_llv p || match m with q :: _ => r_llv q | [] => false end | [] => false end.
Fixpoint lengths (l : list rrec) : list f64 :=
  match l with r :: rest => (if r_llv r && followed rest then [r_dist r] else []) ++ lengths rest | [] => [] end.
(** It is as far from here to there as from there to here. *)
Definition as_far_back (G : geodesic) : Prop :=
  forall a b c d, snd (geo_inverse G a b c d) = snd (geo_inverse G c d a b).
