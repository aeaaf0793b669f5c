(** * SpecInstead: points given in another way.

    A point can be given by its name, by its coordinates or by a bearing and a distance from either.  Nothing here refers to the parser. *)
From Coq Require Import ZArith NArith List Bool String.
From Verif Require Import PyBase PyFloat Enums Tokenizer Ers SpecTokenizer SpecParser SpecGrammar SpecAccept.
Import List ListNotations.
Local Open Scope list_scope.
Local Open Scope nat_scope.

(** Element [u] of a field in the place of element [x] of another one: the same text or, outside the text of sections, a point for a point. *)
Definition instead (x : token * role) (u : token) : Prop :=
  t_text (fst x) = t_text u \/ (snd x <> RText /\ t_base (fst x) = F15_POINT /\ t_base u = F15_POINT /\ angles_ok u).
Definition other_points (f g : pstr) : Prop := Forall2 instead (field_roles f) (field_tokens g).
(** No route begins or ends at a computed point.  A speed and level between the point and the route does not count. *)
Inductive passed := Designator | Computed | Else.
Definition point_passed (t : token) : passed := if computed_point (t_sub t) then Computed else Else.
Fixpoint routes_fit (p : passed) (l : list (token * role)) : bool :=
  match l with
  | [] => true
  | (_, RText) :: r => routes_fit Else r
  | (t, RClimb) :: r => routes_fit (point_passed t) r
  | (t, ROut) :: r =>
      match t_base t with
      | F15_POINT => match p, point_passed t with Designator, Computed => false | _, q => routes_fit q r end
      | F15_ROUTE => match p with Computed => false | _ => routes_fit Designator r end
      | F15_SLASH | F15_SPEED_ALTITUDE | F15_SPEED_ALTITUDE_ALTITUDE | F15_SPEED_ALTITUDE_PLUS => routes_fit p r
      | _ => routes_fit Else r
      end
  end.
(** The elements of the two fields at the same place. *)
Definition in_place_of (f g : pstr) (t u : token) : Prop := exists n, nth_error (field_tokens f) n = Some t /\ nth_error (field_tokens g) n = Some u.
(** The same record, but for its position, its coordinates and leg and, if it is a point, its name and its kind. *)
Definition recast (P : token -> token -> Prop) (r q : rrec) : Prop :=
  r_base r = r_base q /\ r_alt r = r_alt q /\ r_alt_si r = r_alt_si q /\ r_speed r = r_speed q /\ r_speed_si r = r_speed_si q /\ r_break r = r_break q /\
  r_rules r = r_rules q /\ r_err r = r_err q /\ r_stay r = r_stay q /\ r_cto r = r_cto q /\ r_cto_si r = r_cto_si q /\
  ((r_name r = r_name q /\ r_sub r = r_sub q) \/
   exists t u, P t u /\ r_base r = F15_POINT /\ r_name r = t_text t /\ r_sub r = t_sub t /\ r_name q = t_text u /\ r_sub q = t_sub u).
