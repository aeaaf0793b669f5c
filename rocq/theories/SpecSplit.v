(** * SpecSplit: cutting a field in two. *)
From Coq Require Import ZArith NArith List Bool String.
From Verif Require Import PyBase PyFloat Enums Tokenizer Ers SpecParser SpecGrammar SpecAccept SpecRemoval.
Import List ListNotations.
Local Open Scope list_scope.
Local Open Scope nat_scope.

(** An element of the route that begins something new (the others go on with what is before them). *)
Definition begins_anew (t : token) : Prop :=
  In (t_base t) [F15_DCT; F15_ROUTE; F15_POINT; F15_BREAK_START; F15_C; F15_SID; F15_STAR; F15_SID_STAR; F15_TRUNCATE].
(** [recs] are [A], [B] and [ades]; the records of [A] start before place [z], those of [B] do not. *)
Definition divided (z : Z) (recs A B : list rrec) (ades : rrec) : Prop :=
  recs = A ++ B ++ [ades] /\ aerodrome ($"ADES") ades /\
    Forall (fun r => (r_start r < z)%Z) A /\ Forall (fun r => (z <= r_start r)%Z) B.
(** A field whose last element is [x], with [pre] before it, can go on with a point. *)
Definition goes_on (pre : list (token * role)) (x : token) : Prop :=
  In (t_base x) [F15_DCT; F15_ROUTE; F15_POINT; F15_C; F15_SID; F15_SPEED_ALTITUDE; F15_SPEED_ALTITUDE_ALTITUDE; F15_SPEED_ALTITUDE_PLUS; F15_STAY_TIME] \/
  (t_base x = F15_SID_STAR /\ length pre = 1).
