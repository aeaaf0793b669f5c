(** * SpecXmlUnique: what the XML output says about a record. *)
From Coq Require Import ZArith NArith List Bool String.
From Verif Require Import PyBase PyFloat Enums Ers Xml SpecText.
Import List ListNotations.
Local Open Scope list_scope.

(** Two records ([error]: error records) agree in everything that is written: all texts, numbers and types; the angles and
    distances as far as two decimals show them. *)
Definition agree (error : bool) (r r' : rrec) : Prop :=
  r_name r = r_name r' /\ r_start r = r_start r' /\ r_end r = r_end r' /\ r_base r = r_base r' /\ r_sub r = r_sub r' /\
  r_speed r = r_speed r' /\ num_z (r_speed_si r) = num_z (r_speed_si r') /\
  r_alt r = r_alt r' /\ num_z (r_alt_si r) = num_z (r_alt_si r') /\
  fmt_2f (r_brg r) = fmt_2f (r_brg r') /\ fmt_2f (r_dist r) = fmt_2f (r_dist r') /\
  r_rules r = r_rules r' /\ r_stay r = r_stay r' /\
  r_cto r = r_cto r' /\ num_z (r_cto_si r) = num_z (r_cto_si r') /\
  fmt_2f (r_lat r) = fmt_2f (r_lat r') /\ fmt_2f (r_lon r) = fmt_2f (r_lon r') /\
  (if error then r_err r = r_err r' else r_break r = r_break r').
