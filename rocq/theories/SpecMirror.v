(** * SpecMirror: a field and its mirror image at the equator or at the zero meridian.  Nothing here refers to the parser. *)
From Coq Require Import ZArith NArith List Bool.
From Verif Require Import PyBase PyFloat Enums Tokenizer Ers Utils SpecParser SpecBearings.
Import List ListNotations.
Local Open Scope list_scope.
Local Open Scope Z_scope.

Inductive line := Equator | Meridian.
Definition swap (a b c : N) : N := if N.eqb c a then b else if N.eqb c b then a else c.
(** N for S and S for N, or E for W and W for E. *)
Definition mirror (x : line) (s : pstr) : pstr := map (match x with Equator => swap 78 83 | Meridian => swap 69 87 end) s.
(** A latitude and longitude without bearing and distance. *)
Definition given_position (t : token) : bool := match t_sub t with F15_SB_LL_DEG | F15_SB_LL_MIN => true | _ => false end.
Definition image (x : line) (t u : token) : Prop := t_text u = if given_position t then mirror x (t_text t) else t_text t.
(** The elements of [g] are those of [f], but the positions are the ones on the other side of the line. *)
Definition mirrored (x : line) (f g : pstr) : Prop := Forall2 (image x) (field_tokens f) (field_tokens g).
(** No position is given by bearing and distance from a latitude and longitude. *)
Definition no_offsets (f : pstr) : Prop := forall t, In t (field_tokens f) -> t_sub t <> F15_SB_LLBD_DEG /\ t_sub t <> F15_SB_LLBD_MIN.

(** The place on the other side of the line. *)
Definition across (x : line) (p q : f64 * f64) : Prop :=
  match x with
  | Equator => value (fst q) = - value (fst p) /\ value (snd q) = value (snd p)
  | Meridian => value (fst q) = value (fst p) /\ value (snd q) = - value (snd p)
  end.
Definition place (r : rrec) : f64 * f64 := (r_lat r, r_lon r).
(** Distances computed by the library do not depend on the side, as on any ellipsoid of revolution. *)
Definition symmetric (x : line) (G : geodesic) : Prop :=
  forall p p' q q', across x p p' -> across x q q' ->
    snd (geo_inverse G (fst p) (snd p) (fst q) (snd q)) = snd (geo_inverse G (fst p') (snd p') (fst q') (snd q')).
