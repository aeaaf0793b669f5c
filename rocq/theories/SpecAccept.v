(** * SpecAccept: what the records of an accepted field are, in terms of the tokens of the field. *)
From Coq Require Import ZArith NArith List Bool String.
From Verif Require Import PyBase PyFloat Enums Tokenizer Ers SpecNum SpecParser SpecGrammar.
Import List ListNotations.
Local Open Scope list_scope.
Local Open Scope nat_scope.

(** ** Roles of tokens *)
(** An element of the route, text of a break section, or the element after "C/". *)
Inductive role := ROut | RText | RClimb.
(** The section opened by a token of the route. *)
Definition opens (t : token) : option kind :=
  match t_base t with F15_SPEED_VFR => Some KVfr | F15_BREAK_START => begins (t_sub t) | _ => None end.
Definition closes (k : kind) (t : token) (rest : list token) : bool :=
  ends k (t_sub t) && match resume k rest with Resumes => true | _ => false end.
(** The roles by a scan from left to right; [o] is the section the scan is in. *)
Fixpoint roled (o : option kind) (ts : list token) : list (token * role) :=
  match ts with
  | [] => []
  | t :: r =>
      match o with
      | Some k => (t, RText) :: roled (if closes k t r then None else Some k) r
      | None =>
          match t_base t, r with
          | F15_C, sl :: p :: r3 =>
              if base_eqb (t_base sl) F15_SLASH then (t, ROut) :: (sl, ROut) :: (p, RClimb) :: roled None r3
              else (t, ROut) :: roled None r
          | _, _ => (t, ROut) :: roled (opens t) r
          end
      end
  end.
Definition roles (ts : list token) : list (token * role) := roled None ts.

(** ** Which tokens get a record *)
Definition is_slash (o : option (token * role)) : bool := match o with Some x => base_eqb (t_base (fst x)) F15_SLASH | None => false end.
Definition recorded (x : token * role) (rest : list (token * role)) : bool :=
  match snd x with
  | RText => false
  | RClimb => true
  | ROut =>
      match t_base (fst x) with
      | F15_DCT | F15_POINT | F15_ROUTE | F15_SID | F15_STAR | F15_SID_STAR | F15_BREAK_START | F15_SPEED_VFR => true
      | F15_C => negb (is_slash (hd_error rest))
      | _ => false
      end
  end.
(** Indices of the recorded tokens. *)
Fixpoint recorded_at (i : nat) (w : list (token * role)) : list nat :=
  match w with
  | [] => []
  | x :: r => if recorded x r then i :: recorded_at (S i) r else recorded_at (S i) r
  end.

(** The part of the field that belongs to a record: from its token to the token of the next record.
    The part of ADEP ([None]) begins with the field. *)
Fixpoint parts (lo : option nat) (js : list nat) (n : nat) : list (option nat * nat) :=
  match js with
  | [] => [(lo, n)]
  | j :: r => (lo, j) :: parts (Some j) r n
  end.
Definition from (lo : option nat) : nat := match lo with Some j => j | None => 0 end.
Definition cut {A} (w : list A) (lo hi : nat) : list A := firstn (hi - lo) (skipn lo w).

(** ** The values of a record *)
Fixpoint joined (l : list pstr) : pstr :=
  match l with
  | [] => []
  | [s] => s
  | s :: r => s ++ 32%N :: joined r
  end.
Fixpoint texts_of (w : list (token * role)) : list pstr :=
  match w with
  | [] => []
  | (t, RText) :: r => t_text t :: texts_of r
  | _ :: r => texts_of r
  end.
(** The last value of [f] in a list. *)
Fixpoint last_some {A B} (f : A -> option B) (l : list A) : option B :=
  match l with
  | [] => None
  | x :: r => match last_some f r with Some b => Some b | None => f x end
  end.
Definition in_route (x : token * role) (b : base_type) : bool :=
  match snd x with ROut => base_eqb (t_base (fst x)) b | _ => false end.
(** HHMM in minutes. *)
Definition minutes (s : pstr) : Z := (decimal (firstn 2 s) * 60 + decimal (skipn 2 s))%Z.
Definition stay_value (x : token * role) : option Z :=
  if in_route x F15_STAY_TIME then Some (minutes (t_text (fst x))) else None.
(** Speed and level of a modifier; F050 stands for the level of a VFR flight. *)
Definition modifier (x : token * role) : option (pstr * pstr) :=
  match snd x with
  | ROut =>
      match t_base (fst x) with
      | F15_SPEED_ALTITUDE | F15_SPEED_ALTITUDE_PLUS | F15_SPEED_ALTITUDE_ALTITUDE =>
          Some (speed_part (t_text (fst x)), first_level (t_text (fst x)))
      | F15_SPEED_VFR => Some (speed_part (t_text (fst x)), $"F050")
      | _ => None
      end
  | _ => None
  end.
(** The target level of a cruise climb. The parser keeps the second level of the element
    if the speed is in K or N and the first level in F or A; otherwise it loses the letter. *)
Definition full_target (s : pstr) : bool :=
  match s, after_speed s with c :: _, d :: _ => negb (N.eqb c 77) && is_feet d | _, _ => false end.
Definition stored_target (s : pstr) : pstr := if full_target s then second_level s else skipn 1 (second_level s).
Definition level_value (s : pstr) : Z := match s with c :: ds => level_metres c (decimal ds) | [] => 0%Z end.
Definition target_text (x : token * role) : option pstr :=
  match snd x, t_base (fst x) with
  | ROut, F15_SPEED_ALTITUDE_ALTITUDE => Some (stored_target (t_text (fst x)))
  | ROut, F15_SPEED_ALTITUDE_PLUS => Some (second_level (t_text (fst x)))
  | _, _ => None
  end.
Definition target_num (x : token * role) : option pynum :=
  match snd x, t_base (fst x) with
  | ROut, F15_SPEED_ALTITUDE_ALTITUDE => Some (PyInt (level_value (stored_target (t_text (fst x)))))
  | _, _ => None
  end.
(** A speed/VFR element is recorded but also applies to the record before it. *)
Definition upto (w : list (token * role)) (hi : nat) : nat :=
  match nth_error w hi with Some x => if in_route x F15_SPEED_VFR then S hi else hi | None => hi end.

Definition kind_rules (k : kind) : pstr := match k with KVfr => $"VFR" | KOat => $"OAT" | KIfpstop => $"IFPS" end.
Definition rules_of (x : token * role) : pstr :=
  match snd x, opens (fst x) with ROut, Some k => kind_rules k | _, _ => $"IFR" end.
Definition name_of (x : token * role) : pstr := if in_route x F15_SPEED_VFR then $"VFR" else t_text (fst x).
(** An element that may be a SID or a STAR is a SID right after the first speed/level. *)
Definition types_at (j : nat) (x : token * role) : base_type * sub_type :=
  let t := fst x in
  let sid := (F15_SID, if pstr_eqb (t_text t) ($"SID") then F15_SB_SID_LITERAL else F15_SB_SID) in
  let star := (F15_STAR, if pstr_eqb (t_text t) ($"STAR") then F15_SB_STAR_LITERAL else F15_SB_STAR) in
  match snd x, t_base t with
  | ROut, F15_SID => sid
  | ROut, F15_STAR => star
  | ROut, F15_SID_STAR => if j =? 1 then sid else star
  | _, _ => (t_base t, t_sub t)
  end.

(** Record [r] is that of the part from [lo] to [hi] of the field with tokens [w]. *)
Definition identity (w : list (token * role)) (r : rrec) (lo : option nat) : Prop :=
  match lo with
  | None => aerodrome ($"ADEP") r
  | Some j => exists x, nth_error w j = Some x /\ r_name r = name_of x /\ r_start r = t_start (fst x) /\ r_end r = t_end (fst x) /\
      (r_base r, r_sub r) = types_at j x
  end.
Definition rules_right (w : list (token * role)) (r : rrec) (lo : option nat) : Prop :=
  match lo with
  | None => r_rules r = match w with x :: _ => rules_of x | [] => [] end
  | Some j => exists x, nth_error w j = Some x /\ r_rules r = rules_of x
  end.
Definition text_right (w : list (token * role)) (r : rrec) (lo : option nat) (hi : nat) : Prop :=
  r_break r = joined (texts_of (cut w (from lo) hi)).
Definition stay_right (w : list (token * role)) (r : rrec) (lo : option nat) (hi : nat) : Prop :=
  r_stay r = match last_some stay_value (cut w (from lo) hi) with Some m => m | None => 0%Z end.
Definition or_else {A} (o : option A) (d : A) : A := match o with Some a => a | None => d end.
Definition target_right (w : list (token * role)) (r : rrec) (lo : option nat) (hi : nat) : Prop :=
  r_cto r = or_else (last_some target_text (cut w (from lo) hi)) [] /\
  r_cto_si r = or_else (last_some target_num (cut w (from lo) hi)) PyZeroFloat.
Definition performance_right (w : list (token * role)) (r : rrec) (hi : nat) : Prop :=
  last_some modifier (firstn (upto w hi) w) = Some (r_speed r, r_alt r).
Definition describes (w : list (token * role)) (r : rrec) (part : option nat * nat) : Prop :=
  identity w r (fst part) /\ rules_right w r (fst part) /\ text_right w r (fst part) (snd part) /\
  stay_right w r (fst part) (snd part) /\ target_right w r (fst part) (snd part) /\ performance_right w r (snd part).

(** ** Whole fields *)
Definition field_roles (field : pstr) : list (token * role) := roles (field_tokens field).
Definition field_parts (field : pstr) : list (option nat * nat) :=
  parts None (recorded_at 0 (field_roles field)) (length (field_roles field)).
(** The records but ADES are, in order, those of the parts of the field; [z] is ADES. *)
Definition each_part (field : pstr) (recs : list rrec) (P : rrec -> option nat -> nat -> Prop) (Q : list rrec -> rrec -> Prop) : Prop :=
  exists rs z, recs = rs ++ [z] /\ Forall2 (fun r part => P r (fst part) (snd part)) rs (field_parts field) /\ aerodrome ($"ADES") z /\ Q rs z.
(** The token of a part is one that opens a break section. *)
Definition opens_section (w : list (token * role)) (lo : option nat) : Prop :=
  exists j t, lo = Some j /\ nth_error w j = Some (t, ROut) /\ opens t <> None.
(** Element [t] of the route is directly followed by [rest]. *)
Definition followed_by (rest : list (token * role)) (f : token -> bool) : Prop :=
  match rest with [] => True | (n, ro) :: _ => ro = ROut /\ f n = true end.
Definition after_dct (n : token) : bool := match t_base n with F15_POINT | F15_C | F15_TRUNCATE => true | _ => false end.
Definition after_route (n : token) : bool :=
  match t_base n with F15_POINT => negb (computed_point (t_sub n)) | F15_C | F15_TRUNCATE => true | _ => false end.
(** Changes of speed and level: / speed/level, any number of times. *)
Inductive changes : list (token * role) -> Prop :=
| ch_nil : changes []
| ch_cons l sl t : changes l -> t_base sl = F15_SLASH -> In (t_base t) [F15_SPEED_ALTITUDE; F15_SPEED_ALTITUDE_ALTITUDE; F15_SPEED_ALTITUDE_PLUS] ->
    changes (l ++ [(sl, ROut); (t, ROut)]).
Definition is_computed (x : token * role) : Prop :=
  (snd x = RClimb \/ (snd x = ROut /\ t_base (fst x) = F15_POINT)) /\ computed_point (t_sub (fst x)) = true.
(** A point whose values are not checked: it follows a break section and precedes a speed/VFR. *)
Definition unchecked_point (pre rest : list (token * role)) : Prop :=
  (exists pre0 u, pre = pre0 ++ [(u, RText)]) /\ exists sl sv rest0, rest = (sl, ROut) :: (sv, ROut) :: rest0 /\ t_base sl = F15_SLASH /\ t_base sv = F15_SPEED_VFR.
Definition recognised (b : base_type) : bool := match b with F15_UNKNOWN | F15_TOO_LONG | F15_BREAK_END => false | _ => true end.
(** A token that has no record of its own and is not text: a modifier or a piece of a construct. *)
Definition is_piece (t : token) : bool :=
  match t_base t with
  | F15_SLASH | F15_SPEED_ALTITUDE | F15_SPEED_ALTITUDE_ALTITUDE | F15_SPEED_ALTITUDE_PLUS | F15_STAY | F15_STAY_TIME | F15_TRUNCATE | F15_C => true
  | _ => false
  end.
(** The token of a part is the element after "C/". *)
Definition is_climb (w : list (token * role)) (lo : option nat) : Prop := exists j t, lo = Some j /\ nth_error w j = Some (t, RClimb).
(** A cruise climb whose target is kept in full. *)
Definition full_climb (x : token * role) : Prop :=
  match t_base (fst x) with F15_SPEED_ALTITUDE_ALTITUDE => full_target (t_text (fst x)) = true | _ => True end.
(** The target of a cruise climb and its value in metres. *)
Definition climb_target (x : token * role) : option (pstr * pynum) :=
  match snd x, t_base (fst x) with
  | ROut, F15_SPEED_ALTITUDE_ALTITUDE => let l := second_level (t_text (fst x)) in Some (l, PyInt (level_value l))
  | ROut, F15_SPEED_ALTITUDE_PLUS => Some ($"PLUS", PyZeroFloat)
  | _, _ => None
  end.
