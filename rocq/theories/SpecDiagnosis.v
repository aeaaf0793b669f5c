(** * SpecDiagnosis: the first error of a field.

    A finite automaton reads the typed tokens from left to right.  It says which token is the first
    one that is wrong and which of the numbered messages of error_messages (F15Parse.py:52 ff.,
    ErrorTable.v) describes the situation.  Nothing here refers to the parser. *)
From Coq Require Import ZArith NArith List Bool String.
From Verif Require Import PyBase Enums Tokenizer SpecNum SpecParser SpecGrammar.
Import List ListNotations.
Local Open Scope list_scope.
Local Open Scope Z_scope.

Inductive verdict :=
| Fine                                (* nothing is wrong *)
| Report (t : token) (m : Z)          (* message [m] for token [t] *)
| Fails.                              (* a cruise-climb element that cannot be converted *)

(** ** Faulty values *)
(** 40: a flight level that is no multiple of five. *)
Definition bad_level (l : pstr) : bool :=
  match l with c :: ds => N.eqb c 70 && negb (decimal ds mod 5 =? 0) | [] => false end.
Definition target_seen (s : pstr) : bool :=
  match s, after_speed s with c :: _, d :: _ => negb (N.eqb c 77) && is_feet d | _, _ => false end.
Definition level_fault (t : token) : bool :=
  match t_base t with
  | F15_SPEED_ALTITUDE | F15_SPEED_ALTITUDE_PLUS => bad_level (first_level (t_text t))
  | F15_SPEED_ALTITUDE_ALTITUDE =>
      bad_level (first_level (t_text t)) || (target_seen (t_text t) && bad_level (second_level (t_text t)))
  | _ => false
  end.
(** 42, 44: degrees; 43, 45: degrees and minutes; 46: bearing. *)
Definition over (s : pstr) (mx : Z) : bool := mx <? decimal s.
Definition over_min (d m : pstr) (mx : Z) : bool := (60 <=? decimal m) || (mx * 60 <? decimal d * 60 + decimal m).
Definition deg_fault (s : pstr) : option Z :=
  if over (sub_str s 0 2) 90 then Some 42 else if over (sub_str s 3 3) 180 then Some 44 else None.
Definition min_fault (s : pstr) : option Z :=
  if over_min (sub_str s 0 2) (sub_str s 2 2) 90 then Some 43
  else if over_min (sub_str s 5 3) (sub_str s 8 2) 180 then Some 45 else None.
Definition brg_fault (s : pstr) : option Z := if over (bearing_part s) 360 then Some 46 else None.
Definition or_else (a b : option Z) : option Z := match a with Some _ => a | None => b end.
Definition angle_fault (t : token) : option Z :=
  let s := t_text t in
  match t_sub t with
  | F15_SB_PRP_BD => brg_fault s
  | F15_SB_LL_DEG => deg_fault s
  | F15_SB_LL_MIN => min_fault s
  | F15_SB_LLBD_DEG => or_else (deg_fault s) (brg_fault s)
  | F15_SB_LLBD_MIN => or_else (min_fault s) (brg_fault s)
  | _ => None
  end.
(** The cruise climbs N dddd A dddd S dddd and N dddd A dddd M dddd. *)
Definition unconvertible (t : token) : bool :=
  match t_base t, t_sub t with
  | F15_SPEED_ALTITUDE_ALTITUDE, (F15_SB_SPEED_ALTITUDE_NAS | F15_SB_SPEED_ALTITUDE_NAM) => true
  | _, _ => false
  end.
Definition angles (t : token) : verdict := match angle_fault t with Some m => Report t m | None => Fine end.
Definition levels (t : token) : verdict := if unconvertible t then Fails else if level_fault t then Report t 40 else Fine.
(** [v], unless there is a fault before. *)
Definition then_ (f v : verdict) : verdict := match f with Fine => v | _ => f end.

(** ** Places in the field *)
Inductive place :=
| PAdep                               (* after the first speed/level *)
| PDct | PRoute | PSid | PStay
| PPoint (computed : bool)            (* after a point and its speed/level *)
| PC                                  (* after C *)
| PSlash (sl : token) (computed : bool)  (* after point / *)
| PClimb (sl : token)                 (* after C / *)
| PClimbPt (p : token)                (* after C / point *)
| PClimbSl (p : token)                (* after C / point / *)
| PStayTok (s : token)                (* after STAYn *)
| PStaySl (sl : token)                (* after STAYn / *)
| PText (k : kind)                    (* in a break section *)
| PJoin (k : kind)                    (* after the keyword that ends it *)
| PLast (m : Z).                      (* nothing may follow *)

(** An end keyword outside of a section. *)
Definition stray_end (t : token) : Z :=
  match t_sub t with F15_SB_IFR => 6 | F15_SB_GAT => 7 | _ => 8 end.
(** The message for a token that cannot follow. *)
Definition misplaced (p : place) (t : token) : Z :=
  match p, t_base t with
  | PAdep, (F15_SLASH | F15_BREAK_START | F15_SPEED_VFR | F15_SPEED_ALTITUDE | F15_BREAK_END | F15_STAY | F15_C) => 23
  | PAdep, F15_ROUTE => 24
  | PDct, _ => 21
  | PRoute, F15_SLASH => 12
  | PRoute, (F15_BREAK_START | F15_SPEED_VFR) => 13
  | PRoute, F15_DCT => 14
  | PRoute, F15_STAY => 15
  | PRoute, F15_SPEED_ALTITUDE => 55
  | PRoute, F15_ROUTE => 53
  | PRoute, (F15_SID_STAR | F15_STAR) => 54
  | PRoute, F15_POINT => 48
  | PSid, F15_SID => 32
  | PSid, F15_TOO_LONG => 4
  | PSid, _ => 31
  | PPoint _, F15_ROUTE => 47
  | PStay, (F15_SLASH | F15_SPEED_VFR | F15_SPEED_ALTITUDE | F15_STAY | F15_SPEED_ALTITUDE_ALTITUDE | F15_SPEED_ALTITUDE_PLUS | F15_STAY_TIME) => 39
  | PSlash _ _, F15_SLASH => 16
  | PSlash _ _, (F15_UNKNOWN | F15_TOO_LONG) => if base_eqb (t_base t) F15_UNKNOWN then 3 else 4
  | PSlash _ _, _ => 50
  | PClimbPt _, _ => 26
  | PClimbSl _, _ => 29
  | PStayTok _, _ => 36
  | PStaySl _, _ => 38
  | PLast m, _ => m
  | _, F15_UNKNOWN => 3
  | _, F15_TOO_LONG => 4
  | _, (F15_SPEED_VFR | F15_SPEED_ALTITUDE) => 5
  | _, F15_BREAK_END => stray_end t
  | _, (F15_SPEED_ALTITUDE_ALTITUDE | F15_SPEED_ALTITUDE_PLUS) => 9
  | _, F15_STAY_TIME => 10
  | _, _ => 30
  end.
(** The message at the end of the field. *)
Definition stop (p : place) : verdict :=
  match p with
  | PSlash sl _ => Report sl 20
  | PClimb sl => Report sl 52
  | PClimbPt t => Report t 27
  | PClimbSl t => Report t 28
  | PStayTok t => Report t 35
  | PStaySl sl => Report sl 37
  | _ => Fine
  end.
(** May an element of this type follow? *)
Definition fits (p : place) (t : token) : bool :=
  match p, t_base t with
  | PAdep, (F15_DCT | F15_POINT | F15_SID | F15_SID_STAR | F15_STAR | F15_TRUNCATE) => true
  | PDct, (F15_POINT | F15_C | F15_TRUNCATE) => true
  | PRoute, F15_POINT => negb (computed_point (t_sub t))
  | PRoute, (F15_C | F15_TRUNCATE) => true
  | PSid, (F15_POINT | F15_ROUTE | F15_SID_STAR | F15_STAR | F15_TRUNCATE) => true
  | PStay, (F15_BREAK_START | F15_DCT | F15_C | F15_POINT | F15_ROUTE | F15_SID_STAR | F15_STAR | F15_TRUNCATE) => true
  | PPoint b, F15_ROUTE => negb b
  | PPoint _, (F15_SLASH | F15_BREAK_START | F15_DCT | F15_STAY | F15_C | F15_POINT | F15_SID_STAR | F15_STAR | F15_TRUNCATE) => true
  | PC, F15_SLASH => true
  | PC, (F15_BREAK_START | F15_DCT | F15_STAY | F15_C | F15_POINT | F15_ROUTE | F15_SID_STAR | F15_STAR | F15_TRUNCATE) => true
  | PSlash _ _, (F15_SPEED_ALTITUDE | F15_SPEED_VFR) => true
  | PClimb _, _ => true
  | PClimbPt _, F15_SLASH => true
  | PClimbSl _, (F15_SPEED_ALTITUDE_ALTITUDE | F15_SPEED_ALTITUDE_PLUS) => true
  | PStayTok _, F15_SLASH => true
  | PStaySl _, F15_STAY_TIME => true
  | PJoin _, _ => true
  | _, _ => false
  end.
(** Where a token that fits leads. *)
Definition place_after (p : place) (t : token) : place :=
  match p with
  | PSlash _ b => match t_base t with F15_SPEED_VFR => PText KVfr | _ => PPoint b end
  | PClimb _ => PClimbPt t
  | PClimbPt q => PClimbSl q
  | PClimbSl q => PPoint (computed_point (t_sub q))
  | PStayTok _ => PStaySl t
  | PStaySl _ => PStay
  | PJoin _ => PPoint (computed_point (t_sub t))
  | _ =>
      match t_base t with
      | F15_DCT => PDct
      | F15_ROUTE => PRoute
      | F15_POINT => PPoint (computed_point (t_sub t))
      | F15_C => PC
      | F15_SLASH => match p with PC => PClimb t | PPoint b => PSlash t b | _ => PSlash t false end
      | F15_STAY => PStayTok t
      | F15_BREAK_START => PText (match begins (t_sub t) with Some k => k | None => KVfr end)
      | F15_SID => PSid
      | F15_SID_STAR => match p with PAdep => PSid | _ => PLast 34 end
      | F15_STAR => PLast 34
      | _ => PLast 19
      end
  end.
(** The value of a token that fits: coordinates of points (not checked between IFR and a speed/VFR), levels. *)
Definition value_fault (p : place) (t : token) (rest : list token) : verdict :=
  match p with
  | PClimb _ => angles t
  | PJoin KVfr => match rest with _ :: sp :: _ => if base_eqb (t_base sp) F15_SPEED_VFR then Fine else angles t | _ => angles t end
  | PJoin _ => angles t
  | PSlash _ _ | PClimbSl _ => levels t
  | _ => match t_base t with F15_POINT => angles t | _ => Fine end
  end.

(** ** Reading the field *)
Fixpoint diag (p : place) (ts : list token) : verdict :=
  match ts with
  | [] => stop p
  | t :: rest =>
      match p with
      | PText k =>
          if base_eqb (t_base t) F15_TOO_LONG then Report t 4
          else if ends k (t_sub t) then
            match resume k rest with
            | Inside => diag p rest
            | Resumes => diag (PJoin k) rest
            | Wrong => match rest with q :: _ => Report q 22 | [] => Fine end
            end
          else diag p rest
      | _ =>
          if fits p t then then_ (value_fault p t rest) (diag (place_after p t) rest)
          else Report t (misplaced p t)
      end
  end.
Definition diagnose (ts : list token) : verdict :=
  match ts with
  | [] => Fine
  | t :: rest =>
      match t_base t with
      | F15_SPEED_VFR => diag (PText KVfr) rest
      | F15_SPEED_ALTITUDE =>
          then_ (levels t) (match rest with [] => Report t 49 | _ => diag PAdep rest end)
      | _ => Report t 1
      end
  end.
