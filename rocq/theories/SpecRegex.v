(** * SpecRegex: the language denoted by a regular expression (textbook semantics). *)
From Coq Require Import ZArith NArith List Bool String.
From Verif Require Import PyBase Enums Regex SyntaxTable.
Import ListNotations.
Local Open Scope list_scope.
Local Open Scope nat_scope.

Inductive re_in : re -> pstr -> Prop :=
| lang_eps : re_in REps []
| lang_class rs a b c : In (a, b) rs -> (a <= c)%N -> (c <= b)%N -> re_in (RClass rs) [c]
| lang_seq r1 r2 s1 s2 : re_in r1 s1 -> re_in r2 s2 -> re_in (RSeq r1 r2) (s1 ++ s2)
| lang_alt_l r1 r2 s : re_in r1 s -> re_in (RAlt r1 r2) s
| lang_alt_r r1 r2 s : re_in r2 s -> re_in (RAlt r1 r2) s
| lang_rep r lo hi (l : list pstr) :
    (lo <= List.length l) /\ (List.length l <= hi) -> (forall s, In s l -> re_in r s) -> re_in (RRep r lo hi) (List.concat l).

(** ** Vocabulary for the token syntax *)
Definition digit : re := RClass [(48, 57)%N].
Definition letter : re := RClass [(65, 90)%N].
Definition digits (k : nat) : re := RRep digit k k.
Definition letters (k : nat) : re := RRep letter k k.
Definition lit1 (c : N) : re := RClass [(c, c)].
Fixpoint lits (s : pstr) : re :=
  match s with [] => REps | [c] => lit1 c | c :: r => RSeq (lit1 c) (lits r) end.
Notation "'lit' s" := (lits (of_str s%string)) (at level 9).
(** One character out of a list. *)
Definition one_of' (s : pstr) : re := RClass (List.map (fun c => (c, c)) s).
Notation "'one_of' s" := (one_of' (of_str s%string)) (at level 9).
(** A digit from 0 to [d]. *)
Definition up_to (d : N) : re := RClass [(48, 48 + d)%N].
Fixpoint any_of (l : list re) : re :=
  match l with [] => RClass [] | [r] => r | r :: l' => RAlt r (any_of l') end.
Infix "+++" := RSeq (at level 60, right associativity).

(** ** The elements of field 15 *)
(** Points *)
Definition lat_long_degrees : re := digits 2 +++ one_of "NS" +++ digits 3 +++ one_of "EW".
Definition lat_long_minutes : re := digits 4 +++ one_of "NS" +++ digits 5 +++ one_of "EW".
Definition bearing_distance : re := digits 3 +++ digits 3.
Definition point_bearing_distance : re := RRep letter 1 5 +++ bearing_distance.
Definition aerodrome : re := letters 4.
Definition published_point : re := any_of [RRep letter 1 3; letters 5].
(** Words with another meaning. *)
Definition reserved_points : re :=
  any_of [lit "VFR"; lit "IFR"; lit "DCT"; lit "OAT"; lit "GAT"; lit "T"; lit "C"; lit "SID"].
Definition reserved_aerodromes : re := any_of [lit "STAR"; lit "NAT" +++ letter; lit "PTS" +++ letter].
(** Speeds and levels *)
Definition speed_with (c : N) : re := lit1 c +++ digits (if N.eqb c 77 (* M *) then 3 else 4).
Definition level_with (c : N) : re := lit1 c +++ digits (if orb (N.eqb c 70 (* F *)) (N.eqb c 65 (* A *)) then 3 else 4).
Definition speed : re := any_of [speed_with 75; speed_with 78; speed_with 77].
Definition level : re := any_of [level_with 70; level_with 65; level_with 83; level_with 77].
(** Stay time: HHMM *)
Definition hours : re := any_of [one_of "01" +++ digit; lit "2" +++ up_to 3].
Definition minutes : re := up_to 5 +++ digit.

(** ** First row of a table whose pattern denotes a language containing [s] *)
Definition row_matches (row : string * base_type * sub_type) (s : pstr) : Prop :=
  exists r, parse_regex (of_str (fst (fst row))) = Some r /\ re_in r s.
Definition row_types (row : string * base_type * sub_type) : base_type * sub_type :=
  (snd (fst row), snd row).
Definition first_row (i : nat) (s : pstr) : Prop :=
  exists row, nth_error f15_configuration i = Some row /\ row_matches row s /\
  forall j row', j < i -> nth_error f15_configuration j = Some row' -> ~ row_matches row' s.
