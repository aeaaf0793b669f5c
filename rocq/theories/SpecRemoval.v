(** * SpecRemoval: how two results are compared when one field leaves out an element of the other. *)
From Coq Require Import ZArith NArith List Bool String.
From Verif Require Import PyBase PyFloat Enums Tokenizer Ers SpecParser SpecGrammar SpecAccept.
Import List ListNotations.
Local Open Scope list_scope.
Local Open Scope nat_scope.

(** The same record but for its place in the field and for the leg to the next located point. *)
Definition same_but_leg (r r' : rrec) : Prop :=
  r_name r = r_name r' /\ r_base r = r_base r' /\ r_sub r = r_sub r' /\ r_alt r = r_alt r' /\ r_alt_si r = r_alt_si r' /\
  r_speed r = r_speed r' /\ r_speed_si r = r_speed_si r' /\ r_break r = r_break r' /\ r_rules r = r_rules r' /\ r_err r = r_err r' /\
  r_stay r = r_stay r' /\ r_cto r = r_cto r' /\ r_cto_si r = r_cto_si r' /\ r_lat r = r_lat r' /\ r_lon r = r_lon r' /\ r_llv r = r_llv r'.

(** The texts of a list of tokens with roles. *)
Definition wordsof (w : list (token * role)) : list pstr := map (fun x => t_text (fst x)) w.
(** The speed and level in force after some elements. *)
Definition in_force (w : list (token * role)) : option (pstr * pstr) := last_some modifier w.
(** The last element is a point right after the IFR that ends a VFR section. *)
Definition just_resumed (w : list (token * role)) : Prop := exists w0 x p, w = w0 ++ [(x, RText); (p, ROut)] /\ t_sub x = F15_SB_IFR.
(** An element that a DCT can come after. *)
Definition before_dct (x : token * role) : Prop :=
  snd x = ROut /\ match t_base (fst x) with F15_ROUTE | F15_DCT | F15_SID | F15_SID_STAR => False | _ => True end.
