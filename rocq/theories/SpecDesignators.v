(** * SpecDesignators: the designators of routes and procedures. *)
From Coq Require Import ZArith NArith List Bool String.
From Verif Require Import PyBase Enums Regex SpecRegex.
Import List ListNotations.
Local Open Scope list_scope.
Local Open Scope nat_scope.

Definition some_letters (lo hi : nat) : re := RRep letter lo hi.
Definition some_digits (lo hi : nat) : re := RRep digit lo hi.
Definition perhaps (r : re) : re := RRep r 0 1.
(** ATS route: one or two letters, one to three digits, possibly a letter. *)
Definition ats_route : re := some_letters 1 2 +++ some_digits 1 3 +++ perhaps letter.
(** North Atlantic track, Polar track. *)
Definition nat_track : re := lit "NAT" +++ letter +++ perhaps digit.
Definition polar_track : re := lit "PTS" +++ any_of [digit; letter].
(** Other national designators. *)
Definition turkish_route : re := letters 3 +++ digits 3.
Definition old_route : re := letters 3 +++ some_digits 1 2.
Definition russian_route : re := letters 4 +++ some_digits 1 2.
(** SID or STAR: three letters, one or two digits, letter; four to six letters, digit, letter; five letters, one or two digits, possibly a letter. *)
Definition procedure : re :=
  any_of [letters 3 +++ some_digits 1 2 +++ letter; some_letters 4 6 +++ digit +++ letter; letters 5 +++ some_digits 1 2 +++ perhaps letter].
(** All that is recognised. *)
Definition keyword : re :=
  any_of [lit "/"; lit "IFPSTOP"; lit "IFPSTART"; lit "STAY" +++ digit].
Definition climb : re :=
  any_of [speed +++ level +++ level; lit "N" +++ digits 4 +++ lit "A" +++ digits 4 +++ lit "S" +++ digits 4; lit "N" +++ digits 4 +++ lit "A" +++ digits 4 +++ lit "M" +++ digits 4].
Definition unclimb : re :=
  any_of [lit "N" +++ digits 4 +++ lit "A" +++ digits 3 +++ lit "S" +++ digits 4; lit "N" +++ digits 4 +++ lit "A" +++ digits 3 +++ lit "M" +++ digits 4].
Definition recognised : re :=
  any_of [keyword; some_letters 1 5; point_bearing_distance; lat_long_degrees +++ perhaps bearing_distance; lat_long_minutes +++ perhaps bearing_distance;
    hours +++ minutes; ats_route; nat_track; polar_track; turkish_route; old_route; russian_route; procedure;
    speed +++ lit "VFR"; speed +++ level +++ perhaps (lit "PLUS"); climb].
