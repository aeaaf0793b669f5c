(** * SpecLibrary: what the geodesic library can change in a record. *)
From Coq Require Import ZArith NArith List Bool.
From Verif Require Import PyBase PyFloat Enums Tokenizer Ers.
Import List ListNotations.
Local Open Scope list_scope.

(** Every attribute but bearing and distance is the same; so are latitude and longitude, unless the name is a latitude and
    longitude followed by bearing and distance, 13 or 17 characters. *)
Definition same_but_geodesy (r q : rrec) : Prop :=
  r_name r = r_name q /\ r_start r = r_start q /\ r_end r = r_end q /\ r_base r = r_base q /\ r_sub r = r_sub q /\
  r_alt r = r_alt q /\ r_alt_si r = r_alt_si q /\ r_speed r = r_speed q /\ r_speed_si r = r_speed_si q /\
  r_break r = r_break q /\ r_rules r = r_rules q /\ r_err r = r_err q /\ r_stay r = r_stay q /\
  r_cto r = r_cto q /\ r_cto_si r = r_cto_si q /\ r_llv r = r_llv q /\
  (~ (r_llv r = true /\ In (length (r_name r)) [13; 17]%nat) -> r_lat r = r_lat q /\ r_lon r = r_lon q).
(** A record without coordinates has none of the library's values at all. *)
Definition untouched (r q : rrec) : Prop := r_llv r = false -> r = q.
