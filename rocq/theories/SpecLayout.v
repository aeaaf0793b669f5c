(** * SpecLayout: results that agree except for positions. *)
From Coq Require Import ZArith NArith List Bool.
From Verif Require Import PyBase PyFloat Enums Tokenizer Ers Parser.
Import List ListNotations.
Local Open Scope list_scope.

(** Every observable of a record except its start and end index (no code: a specification;
    the observables are the getters of ExtractedRouteRecord.py). *)
Definition same_but_place (r r' : rrec) : Prop :=
  r_name r = r_name r' /\ r_base r = r_base r' /\ r_sub r = r_sub r' /\ r_alt r = r_alt r' /\ r_alt_si r = r_alt_si r' /\
  r_speed r = r_speed r' /\ r_speed_si r = r_speed_si r' /\ r_break r = r_break r' /\ r_rules r = r_rules r' /\ r_err r = r_err r' /\
  r_stay r = r_stay r' /\ r_cto r = r_cto r' /\ r_cto_si r = r_cto_si r' /\ r_lat r = r_lat r' /\ r_lon r = r_lon r' /\
  r_brg r = r_brg r' /\ r_dist r = r_dist r' /\ r_llv r = r_llv r'.

(** Record by record, error by error, and the derived flight rules. *)
Definition same_sequence (x y : ers) : Prop :=
  Forall2 same_but_place (e_recs x) (e_recs y) /\ Forall2 same_but_place (e_errs x) (e_errs y) /\ e_rules x = e_rules y.

(** The same verdict, or the same exception, and the same sequence. *)
Definition same_outcome (o o' : out bool) : Prop :=
  match o, o' with
  | Ok v s, Ok v' s' => v = v' /\ same_sequence (s_ers s) (s_ers s')
  | Exn e s, Exn e' s' => e = e' /\ same_sequence (s_ers s) (s_ers s')
  | _, _ => False
  end.
