(** * SpecSwap: OAT ... GAT and IFPSTOP ... IFPSTART are treated alike.

    The second field has IFPSTOP where the first one has OAT and conversely, and IFPSTART where the first one has GAT and
    conversely; all other elements have the same text.  Nothing here refers to the parser. *)
From Coq Require Import ZArith NArith List Bool String.
From Verif Require Import PyBase Enums Tokenizer Ers SpecTokenizer SpecParser SpecGrammar SpecViable SpecRename.
Import List ListNotations.
Local Open Scope list_scope.
Local Open Scope Z_scope.

(** The text, the sub type, the flight rules of a record and the message in the other system. *)
Definition other_word (x : pstr) : pstr :=
  if pstr_eqb x ($"OAT") then $"IFPSTOP" else if pstr_eqb x ($"IFPSTOP") then $"OAT"
  else if pstr_eqb x ($"GAT") then $"IFPSTART" else if pstr_eqb x ($"IFPSTART") then $"GAT" else x.
Definition other_sub (sb : sub_type) : sub_type :=
  match sb with
  | F15_SB_OAT => F15_SB_IFPSTOP | F15_SB_IFPSTOP => F15_SB_OAT
  | F15_SB_GAT => F15_SB_IFPSTART | F15_SB_IFPSTART => F15_SB_GAT
  | _ => sb
  end.
Definition other_rules (r : pstr) : pstr :=
  if pstr_eqb r ($"OAT") then $"IFPS" else if pstr_eqb r ($"IFPS") then $"OAT" else r.
(** 7: GAT without OAT.  8: IFPSTART without IFPSTOP. *)
Definition other_message (m : Z) : Z := if m =? 7 then 8 else if m =? 8 then 7 else m.

Definition swapped_field (f g : pstr) : Prop := element_texts g = map other_word (element_texts f).

(** Record [r] of the first field and record [q] of the second one. *)
Definition other_values (r q : rrec) : Prop :=
  r_base q = r_base r /\ r_sub q = other_sub (r_sub r) /\ r_alt q = r_alt r /\ r_alt_si q = r_alt_si r /\ r_speed q = r_speed r /\ r_speed_si q = r_speed_si r /\
  r_rules q = other_rules (r_rules r) /\ r_err q = r_err r /\ r_stay q = r_stay r /\ r_cto q = r_cto r /\ r_cto_si q = r_cto_si r /\
  r_lat q = r_lat r /\ r_lon q = r_lon r /\ r_brg q = r_brg r /\ r_dist q = r_dist r /\ r_llv q = r_llv r.
Definition other_record (P : token -> token -> Prop) (r q : rrec) : Prop :=
  other_values r q /\ same_origin P r q /\ r_name q = other_word (r_name r) /\ same_words P r q.
Definition other_report (P : token -> token -> Prop) (x y : rrec) : Prop :=
  exists m t u, P t u /\ t_text u = other_word (t_text t) /\ reports t m x /\ reports u (other_message m) y.
