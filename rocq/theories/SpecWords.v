(** * SpecWords: the words of a section that mean nothing, and results that differ in one text.  Nothing here refers to the parser. *)
From Coq Require Import ZArith NArith List Bool String.
From Verif Require Import PyBase PyFloat Enums Tokenizer Ers SpecParser SpecGrammar SpecAccept SpecLayout.
Import List ListNotations.
Local Open Scope list_scope.
Local Open Scope nat_scope.

(** A word that cannot end a section or take part in the end of one, and is not too long. *)
Definition idle (c : base_type * sub_type) : Prop :=
  ~ In (fst c) [F15_POINT; F15_SLASH; F15_SPEED_ALTITUDE; F15_SPEED_VFR; F15_TOO_LONG] /\ ~ In (snd c) [F15_SB_IFR; F15_SB_GAT; F15_SB_IFPSTART].
(** All values but the place and the text. *)
Definition same_but_text (r r' : rrec) : Prop :=
  r_name r = r_name r' /\ r_base r = r_base r' /\ r_sub r = r_sub r' /\ r_alt r = r_alt r' /\ r_alt_si r = r_alt_si r' /\
  r_speed r = r_speed r' /\ r_speed_si r = r_speed_si r' /\ r_rules r = r_rules r' /\ r_err r = r_err r' /\ r_stay r = r_stay r' /\
  r_cto r = r_cto r' /\ r_cto_si r = r_cto_si r' /\ r_lat r = r_lat r' /\ r_lon r = r_lon r' /\
  r_brg r = r_brg r' /\ r_dist r = r_dist r' /\ r_llv r = r_llv r'.
(** The two results differ in the text of one record: there [x] has the words [v] where [x'] has [w]. *)
Definition one_text (v w : list pstr) (x x' : ers) : Prop :=
  exists U r V U' r' V' a b, e_recs x = U ++ r :: V /\ e_recs x' = U' ++ r' :: V' /\
    Forall2 same_but_place U U' /\ Forall2 same_but_place V V' /\ same_but_text r r' /\
    r_break r = joined (a ++ v ++ b) /\ r_break r' = joined (a ++ w ++ b) /\ In (r_rules r) [$"VFR"; $"OAT"; $"IFPS"] /\
    e_errs x = [] /\ e_errs x' = [] /\ e_rules x = e_rules x'.
