(** * SpecUnknown: an unrecognised element in an otherwise correct field.

    Where such an element can be put in so that it is the only thing wrong, and the message for it.  Nothing here refers to
    the parser. *)
From Coq Require Import ZArith NArith List Bool String.
From Verif Require Import PyBase Enums Tokenizer Ers SpecParser SpecGrammar SpecAccept.
Import List ListNotations.
Local Open Scope list_scope.
Local Open Scope Z_scope.

(** The element [x], with [pre] before it, completes something: it is not a /, C, STAYn or a keyword. *)
Definition completes (pre : list (token * role)) (x : token) : Prop :=
  In (t_base x) [F15_DCT; F15_ROUTE; F15_POINT; F15_SID; F15_SPEED_ALTITUDE; F15_SPEED_ALTITUDE_ALTITUDE; F15_SPEED_ALTITUDE_PLUS; F15_STAY_TIME] \/
  (t_base x = F15_SID_STAR /\ length pre = 1%nat).
(** The point at which an IFR section goes on is read together with what follows it. *)
Definition after_ifr (pre : list (token * role)) : Prop := exists pre0 w, pre = pre0 ++ [(w, RText)] /\ t_sub w = F15_SB_IFR.
(** The message for an element that is not recognised (base type [b]) after [x]: after DCT a point is expected, after a SID a
    point or a route; else it is unrecognised or too long. *)
Definition unrecognised (b : base_type) : Prop := b = F15_UNKNOWN \/ b = F15_TOO_LONG.
Definition message_after (x : token) (b : base_type) : Z :=
  match t_base x, b with
  | F15_DCT, _ => 21
  | (F15_SID | F15_SID_STAR), F15_UNKNOWN => 31
  | _, F15_UNKNOWN => 3
  | _, _ => 4
  end.
(** The errors [es] are one for each of the unrecognised elements [ts] after [x], in order. *)
Definition usual_message (b : base_type) : Z := match b with F15_UNKNOWN => 3 | _ => 4 end.
Definition one_for_each (x : token) (ts : list token) (es : list rrec) : Prop :=
  match ts, es with
  | t :: ts', e :: es' => reports t (message_after x (t_base t)) e /\ Forall2 (fun t e => reports t (usual_message (t_base t)) e) ts' es'
  | _, _ => False
  end.
