(** * SpecBearings: where a latitude and longitude lies, in whole minutes north and east. *)
From Coq Require Import ZArith NArith List Bool.
From Coq Require Import Floats.SpecFloat.
From Verif Require Import PyBase PyFloat Enums Tokenizer Ers SpecNum SpecGrammar SpecComplete.
Import List ListNotations.
Local Open Scope list_scope.
Local Open Scope Z_scope.

(** ddNdddE or ddmmNdddmmE: 7 or 11 characters. *)
Definition short (s : pstr) : bool := Nat.eqb (List.length s) 7.
Definition plain_point (s : pstr) : Prop := List.length s = 7%nat \/ List.length s = 11%nat.
Definition lat_degrees (s : pstr) : Z := decimal (sub_str s 0 2).
Definition lat_minutes (s : pstr) : Z := if short s then 0 else decimal (sub_str s 2 2).
Definition lon_degrees (s : pstr) : Z := decimal (sub_str s (if short s then 3 else 5) 3).
Definition lon_minutes (s : pstr) : Z := if short s then 0 else decimal (sub_str s 8 2).
Definition southern (s : pstr) : bool := letter_at s (if short s then 2 else 4) 83.
Definition western (s : pstr) : bool := letter_at s (if short s then 6 else 10) 87.
Definition minus_if (b : bool) (n : Z) : Z := if b then - n else n.
Definition north (s : pstr) : Z := minus_if (southern s) (60 * lat_degrees s + lat_minutes s).
Definition east (s : pstr) : Z := minus_if (western s) (60 * lon_degrees s + lon_minutes s).
(** Minutes below 60. *)
Definition orderly (s : pstr) : Prop := lat_minutes s < 60 /\ lon_minutes s < 60.

(** 2^3000 times the value of a double. *)
Definition value (f : f64) : Z := match f with S754_finite b m e => minus_if b (Zpos m * 2 ^ (e + 3000)) | _ => 0 end.
