(** * SpecMessages: which of the numbered messages an error record states.

    Nothing here refers to the parser. *)
From Coq Require Import ZArith NArith List Bool String.
From Verif Require Import PyBase ErrorTable Ers SpecParser.
Import List ListNotations.
Local Open Scope list_scope.
Local Open Scope Z_scope.

(** The record states message [m] about its element. *)
Definition says (m : Z) (x : rrec) : Prop := exists text, error_message m = Some text /\ r_err x = fill (r_name x) text.
(** The messages that occur; of the table 0, 2, 17, 18, 33 and 56 are missing. *)
Definition in_use : list Z :=
  [1; 3; 4; 5; 6; 7; 8; 9; 10; 11; 12; 13; 14; 15; 16; 19; 20; 21; 22; 23; 24; 25; 26; 27; 28; 29; 30; 31; 32; 34; 35; 36; 37; 38; 39; 40; 41;
   42; 43; 44; 45; 46; 47; 48; 49; 50; 52; 53; 54; 55].
