(** * SpecOrder: the exact height and speed that a level or a speed element states. *)
From Coq Require Import ZArith NArith List Bool.
From Verif Require Import PyBase PyFloat Enums Tokenizer Ers Utils Parser SpecNum.
Import List ListNotations.
Local Open Scope list_scope.
Local Open Scope Z_scope.

(** A record of the result of some field. *)
Definition occurs (G : geodesic) (r : rrec) : Prop :=
  exists depth field b s, parse_field15 G depth field = Ok b s /\ In r (e_recs (s_ers s)).
(** The height in units of 0.1 mm: F and A in hundreds of feet of 0.3048 m, S and M in tens of metres. *)
Definition height (l : pstr) : Z := match l with [] => 0 | c :: ds => if is_feet c then decimal ds * 100 * 3048 else decimal ds * 10 * 10000 end.
Definition in_feet (l : pstr) : Prop := match l with [] => False | c :: _ => is_feet c = true end.
(** The speed in units of 10^-7 m/s with the factors that the program documents; Mach numbers have none. *)
Definition is_mach (v : pstr) : Prop := match v with [] => False | c :: _ => c = 77%N end.
Definition velocity (v : pstr) : Z := match v with [] => 0 | c :: ds => if N.eqb c 75 then decimal ds * 2777778 else decimal ds * 5144440 end.
Definition mach (v : pstr) : Z := match v with [] => 0 | _ :: ds => decimal ds end.
Definition level_si (r : rrec) : Z := num_z (r_alt_si r).
Definition speed_si (r : rrec) : Z := num_z (r_speed_si r).
