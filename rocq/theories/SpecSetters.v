(** * SpecSetters: what the calls of setters say about each attribute by itself. *)
From Coq Require Import ZArith NArith List Bool String.
From Coq Require Import Floats.SpecFloat.
From Verif Require Import PyBase PyFloat Enums Tokenizer Ers Setters SpecAccept SpecNum.
Import ListNotations.
Open Scope Z_scope.

(** The last value given for an attribute, else the one that was there. *)
Definition latest {A C} (given : C -> option A) (cs : list C) (old : A) : A := or_else (last_some given cs) old.
Definition given_Name (c : rcall) : option pstr := match c with SetName v => Some v | _ => None end.
Definition given_Start (c : rcall) : option Z := match c with SetStart v => Some v | _ => None end.
Definition given_End (c : rcall) : option Z := match c with SetEnd v => Some v | _ => None end.
Definition given_Base (c : rcall) : option base_type := match c with SetBase v => Some v | _ => None end.
Definition given_Sub (c : rcall) : option sub_type := match c with SetSub v => Some v | _ => None end.
Definition given_Altitude (c : rcall) : option pstr := match c with SetAltitude v => Some v | _ => None end.
Definition given_AltitudeSi (c : rcall) : option pynum := match c with SetAltitudeSi v => Some v | _ => None end.
Definition given_Speed (c : rcall) : option pstr := match c with SetSpeed v => Some v | _ => None end.
Definition given_SpeedSi (c : rcall) : option pynum := match c with SetSpeedSi v => Some v | _ => None end.
Definition given_Rules (c : rcall) : option pstr := match c with SetRules v => Some v | _ => None end.
Definition given_CruiseTo (c : rcall) : option pstr := match c with SetCruiseTo v => Some v | _ => None end.
Definition given_CruiseToSi (c : rcall) : option pynum := match c with SetCruiseToSi v => Some v | _ => None end.
Definition given_Latitude (c : rcall) : option f64 := match c with SetLatitude v => Some v | _ => None end.
Definition given_Longitude (c : rcall) : option f64 := match c with SetLongitude v => Some v | _ => None end.
Definition given_Bearing (c : rcall) : option f64 := match c with SetBearing v => Some v | _ => None end.
Definition given_Distance (c : rcall) : option f64 := match c with SetDistance v => Some v | _ => None end.
Definition given_LatLongValid (c : rcall) : option bool := match c with SetLatLongValid v => Some v | _ => None end.
(** A stay is given by a text of which the first two characters and the rest are numbers: hours and minutes. *)
Definition given_Stay (c : rcall) : option Z :=
  match c with
  | SetStay v => match py_int (slice v (Some 0) (Some 2)), py_int (slice v (Some 2) None) with Some h, Some m => Some (h * 60 + m) | _, _ => None end
  | _ => None
  end.
(** A text that is set and appended to. *)
Inductive said := Replaced (v : pstr) | Added (v : pstr) | Nothing.
Definition said_break (c : rcall) : said := match c with SetBreak v => Replaced v | AppendBreak v => Added v | _ => Nothing end.
Definition said_error (c : rcall) : said := match c with SetError v => Replaced v | AppendError v => Added v | _ => Nothing end.
Definition heard (old : pstr) (x : said) : pstr :=
  match x, old with
  | Replaced v, _ | Added v, [] => v
  | Added v, _ => old ++ 32%N :: v
  | Nothing, _ => old
  end.
Definition spoken (f : rcall -> said) (cs : list rcall) (old : pstr) : pstr := fold_left heard (map f cs) old.
Definition given_Text (c : tcall) : option pstr := match c with SetText v => Some v | _ => None end.
Definition given_TStart (c : tcall) : option Z := match c with SetTStart v => Some v | _ => None end.
Definition given_TEnd (c : tcall) : option Z := match c with SetTEnd v => Some v | _ => None end.
Definition given_TBase (c : tcall) : option base_type := match c with SetTBase v => Some v | _ => None end.
Definition given_TSub (c : tcall) : option sub_type := match c with SetTSub v => Some v | _ => None end.
(** What a call adds to the records and to the errors of a sequence, and the derived rules it sets. *)
Definition recorded (c : scall) : list rrec :=
  match c with
  | AppendElement r => [r]
  | CreateAppend text s e b sb => [new_rec text s e b sb]
  | AddAdes => [new_rec ($"ADES") 0 0 F15_POINT F15_SB_PRP_AERO]
  | _ => []
  end.
Definition reported (c : scall) : list rrec :=
  match c with AddError text s e b sb msg => [set_r_err (flat_map (fun x => if N.eqb x 33 then text else [x]) msg) (new_rec text s e b sb)] | _ => [] end.
Definition given_Derived (c : scall) : option pstr := match c with SetDerived v => Some v | _ => None end.

(** The numbers that int() reads, in ASCII: white space around, a sign, digits with single underscores between them. *)
Definition digit_char (c : N) : Prop := (48 <= c <= 57)%N.
Inductive digits_text : pstr -> pstr -> Prop :=        (* a text and the digits of it *)
| digits_last c : digit_char c -> digits_text [c] [c]
| digits_more c s d : digit_char c -> digits_text s d -> digits_text (c :: s) (c :: d)
| digits_under c s d : digit_char c -> digits_text s d -> digits_text (c :: 95%N :: s) (c :: d).
Definition space_char (c : N) : Prop := (9 <= c <= 13)%N \/ (28 <= c <= 32)%N.
Definition int_text (s : pstr) (z : Z) : Prop :=
  exists a sign u b d, s = a ++ sign ++ u ++ b /\ Forall space_char a /\ Forall space_char b /\ digits_text u d /\
    ((sign = [] \/ sign = [43%N]) /\ z = decimal d \/ sign = [45%N] /\ z = - decimal d).
Definition stay_text (v : pstr) (z : Z) : Prop :=
  exists h m, int_text (firstn 2 v) h /\ int_text (skipn 2 v) m /\ z = h * 60 + m.
