(** * SpecReader: everything the parser makes of a field, in particular after an error.

    A machine with a stack reads the typed tokens of a field from left to right.  The stack says what is
    expected: the top is what comes next, the entries below are resumed when the reading above them stops.
    The machine keeps the records and the reports made so far.  Nothing here refers to the parser. *)
From Coq Require Import ZArith NArith List Bool String.
From Verif Require Import PyBase PyFloat Enums Tokenizer Ers SpecNum SpecParser SpecGrammar SpecAccept SpecDiagnosis.
Import List ListNotations.
Local Open Scope list_scope.
Local Open Scope Z_scope.

(** ** Records *)
(** The texts, types and values of a record: [i_target_si] is the climb target in metres, [i_located] says that
    the record has coordinates. *)
Record item := mkItem {
  i_name : pstr; i_start : Z; i_end : Z; i_base : base_type; i_sub : sub_type;
  i_rules : pstr; i_text : pstr; i_stay : Z; i_speed : pstr; i_level : pstr; i_target : pstr; i_target_si : pynum; i_located : bool }.
(** The records before the last one, the last one, the reports. *)
Record notes := mkNotes { n_before : list item; n_last : item; n_reports : list (token * Z) }.

Definition with_last (f : item -> item) (s : notes) : notes := mkNotes (n_before s) (f (n_last s)) (n_reports s).
(** A new record has the rules, the speed and the level of the last one. *)
Definition new_item (name : pstr) (t : token) (i : item) : item :=
  mkItem name (t_start t) (t_end t) (t_base t) (t_sub t) (i_rules i) [] 0 (i_speed i) (i_level i) [] PyZeroFloat false.
Definition add_as (name : pstr) (t : token) (s : notes) : notes :=
  mkNotes (n_before s ++ [n_last s]) (new_item name t (n_last s)) (n_reports s).
Definition add (t : token) (s : notes) : notes := add_as (t_text t) t s.
Definition report (t : token) (ms : list Z) (s : notes) : notes :=
  mkNotes (n_before s) (n_last s) (n_reports s ++ map (fun m => (t, m)) ms).
Definition rules (r : pstr) : notes -> notes := with_last (fun i =>
  mkItem (i_name i) (i_start i) (i_end i) (i_base i) (i_sub i) r (i_text i) (i_stay i) (i_speed i) (i_level i) (i_target i) (i_target_si i) (i_located i)).
Definition types (b : base_type) (sb : sub_type) : notes -> notes := with_last (fun i =>
  mkItem (i_name i) (i_start i) (i_end i) b sb (i_rules i) (i_text i) (i_stay i) (i_speed i) (i_level i) (i_target i) (i_target_si i) (i_located i)).
Definition stays (m : Z) : notes -> notes := with_last (fun i =>
  mkItem (i_name i) (i_start i) (i_end i) (i_base i) (i_sub i) (i_rules i) (i_text i) m (i_speed i) (i_level i) (i_target i) (i_target_si i) (i_located i)).
Definition texts (x : pstr) : notes -> notes := with_last (fun i =>
  mkItem (i_name i) (i_start i) (i_end i) (i_base i) (i_sub i) (i_rules i)
    (match i_text i with [] => x | y => y ++ 32%N :: x end) (i_stay i) (i_speed i) (i_level i) (i_target i) (i_target_si i) (i_located i)).
Definition flies (sp lv : pstr) (i : item) : item :=
  mkItem (i_name i) (i_start i) (i_end i) (i_base i) (i_sub i) (i_rules i) (i_text i) (i_stay i) sp lv (i_target i) (i_target_si i) (i_located i).
Definition climbs (tg : pstr) (v : pynum) (i : item) : item :=
  mkItem (i_name i) (i_start i) (i_end i) (i_base i) (i_sub i) (i_rules i) (i_text i) (i_stay i) (i_speed i) (i_level i) tg v (i_located i).
(** A latitude and longitude, with or without bearing and distance, has coordinates. *)
Definition has_coordinates (sb : sub_type) : bool :=
  match sb with F15_SB_LL_DEG | F15_SB_LL_MIN | F15_SB_LLBD_DEG | F15_SB_LLBD_MIN => true | _ => false end.
Definition locates (t : token) : notes -> notes := with_last (fun i =>
  mkItem (i_name i) (i_start i) (i_end i) (i_base i) (i_sub i) (i_rules i) (i_text i) (i_stay i) (i_speed i) (i_level i) (i_target i) (i_target_si i)
    (has_coordinates (t_sub t) || i_located i)).

(** The section the last record has opened. *)
Definition in_section (s : notes) : option kind :=
  let r := i_rules (n_last s) in
  if pstr_eqb r ($"VFR") then Some KVfr else if pstr_eqb r ($"OAT") then Some KOat else if pstr_eqb r ($"IFPS") then Some KIfpstop else None.
Definition only_adep (s : notes) : bool := match n_before s with [] => true | _ => false end.

(** ** Faulty values: all of them *)
Definition deg_faults (s : pstr) : list Z :=
  (if over (sub_str s 0 2) 90 then [42] else []) ++ (if over (sub_str s 3 3) 180 then [44] else []).
Definition min_faults (s : pstr) : list Z :=
  (if over_min (sub_str s 0 2) (sub_str s 2 2) 90 then [43] else []) ++ (if over_min (sub_str s 5 3) (sub_str s 8 2) 180 then [45] else []).
Definition brg_faults (s : pstr) : list Z := if over (bearing_part s) 360 then [46] else [].
Definition angle_faults (t : token) : list Z :=
  let s := t_text t in
  match t_sub t with
  | F15_SB_PRP_BD => brg_faults s
  | F15_SB_LL_DEG => deg_faults s
  | F15_SB_LL_MIN => min_faults s
  | F15_SB_LLBD_DEG => deg_faults s ++ brg_faults s
  | F15_SB_LLBD_MIN => min_faults s ++ brg_faults s
  | _ => []
  end.
Definition level_faults (t : token) : list Z :=
  (if bad_level (first_level (t_text t)) then [40] else []) ++
  (if base_eqb (t_base t) F15_SPEED_ALTITUDE_ALTITUDE && target_seen (t_text t) && bad_level (second_level (t_text t)) then [40] else []).

(** ** What is expected *)
Inductive job :=
| JAdep | JDct | JRoute | JSid | JStay | JPoint
| JC (c : token)                      (* after C *)
| JSlash (sl : token)                 (* after point / *)
| JClimb (c sl : token)               (* after C / *)
| JClimbPt (p : token)                (* after C / point *)
| JClimbSl (p : token)                (* after C / point / *)
| JStayTok (s : token) | JStaySl (sl : token)
| JText                               (* text of a section *)
| JBegin                              (* the first word of it, after VFR, OAT, IFPSTOP *)
| JWord (t : token)                   (* [t] is text of the last record *)
| JJoin                               (* point / speed after IFR *)
| JTruncate                           (* nothing *)
| JSync                               (* anything, after an error *)
| JSyncSl (sl : token)                (* after such a / *)
| JAsPoint                            (* any token, which is a point whatever it looks like *)
| JTake (t : token).                  (* nothing: [t] is such a point *)

(** The place in the sense of SpecDiagnosis. *)
Definition spot (j : job) (s : notes) : place :=
  let b := computed_point (i_sub (n_last s)) in
  match j with
  | JAdep => PAdep | JDct => PDct | JRoute => PRoute | JSid => PSid | JStay => PStay | JPoint => PPoint b
  | JC _ => PC | JSlash sl => PSlash sl b | JClimb _ sl => PClimb sl | JClimbPt p => PClimbPt p | JClimbSl p => PClimbSl p
  | JStayTok t => PStayTok t | JStaySl t => PStaySl t | _ => PLast 19
  end.
(** A SID is always recorded; it is wrong unless it is the first record. *)
Definition suits (j : job) (t : token) (s : notes) : bool :=
  fits (spot j s) t || match j with JStay | JPoint | JC _ => base_eqb (t_base t) F15_SID | _ => false end.
Definition at_end (j : job) (s : notes) : notes :=
  match j with
  | JC c => add c s
  | JSlash sl => report sl [20] s
  | JClimb c sl => report sl [52] (add c s)
  | JClimbPt p => report p [27] s
  | JClimbSl p => report p [28] s
  | JStayTok t => report t [35] s
  | JStaySl sl => report sl [37] s
  | JSyncSl sl => report sl [25] s
  | _ => s
  end.

(** ** Reading *)
Inductive result := Goes (k : list job) (s : notes) (ts : list token) | Breaks (s : notes).

Definition sid_sub (t : token) : sub_type := if pstr_eqb (t_text t) ($"SID") then F15_SB_SID_LITERAL else F15_SB_SID.
Definition star_sub (t : token) : sub_type := if pstr_eqb (t_text t) ($"STAR") then F15_SB_STAR_LITERAL else F15_SB_STAR.
Definition point (t : token) (s : notes) : notes := report t (angle_faults t) (locates t (rules ($"IFR") (add t s))).
Definition vfr (t : token) (s : notes) : notes :=
  let sp := speed_part (t_text t) in
  let f := flies sp ($"F050") in
  rules ($"VFR") (with_last f (add_as ($"VFR") t (with_last f s))).
Definition speeds (t : token) (s : notes) : notes :=
  let f i := match t_base t with
             | F15_SPEED_ALTITUDE_PLUS => climbs (second_level (t_text t)) (i_target_si i) i
             | F15_SPEED_ALTITUDE_ALTITUDE => climbs (stored_target (t_text t)) (PyInt (level_value (stored_target (t_text t)))) i
             | _ => i
             end in
  report t (level_faults t) (rules ($"IFR") (with_last (fun i => f (flies (speed_part (t_text t)) (first_level (t_text t)) i)) s)).
Definition the_last (t : token) (k : list job) (s : notes) (ts : list token) : result :=
  match ts with
  | [] => Goes k (types F15_STAR (star_sub t) s) []
  | x :: _ => Goes (JSync :: k) (report x [34] s) ts
  end.
(** Element [t] begins. *)
Definition start (t : token) (k : list job) (s : notes) (ts : list token) : result :=
  match t_base t with
  | F15_DCT => Goes (JDct :: k) (add t s) ts
  | F15_ROUTE => Goes (JRoute :: k) (rules ($"IFR") (add t s)) ts
  | F15_POINT => Goes (JPoint :: k) (point t s) ts
  | F15_C => Goes (JC t :: k) s ts
  | F15_STAY => Goes (JStayTok t :: k) s ts
  | F15_BREAK_START =>
      Goes (JBegin :: k) (match begins (t_sub t) with Some b => rules (kind_rules b) (add t s) | None => add t s end) ts
  | F15_SID =>
      if only_adep s then Goes (JSid :: k) (types F15_SID (sid_sub t) (add t s)) ts
      else Goes (JSync :: k) (report t [30] (add t s)) ts
  | F15_SID_STAR =>
      if only_adep s then Goes (JSid :: k) (types F15_SID (sid_sub t) (add t s)) ts
      else the_last t k (add t s) ts
  | F15_STAR => the_last t k (add t s) ts
  | F15_SPEED_VFR => Goes (JText :: k) (vfr t s) ts
  | F15_SPEED_ALTITUDE => Goes ((if only_adep s then JAdep else JPoint) :: k) (speeds t s) ts
  | F15_SPEED_ALTITUDE_ALTITUDE | F15_SPEED_ALTITUDE_PLUS =>
      if unconvertible t then Breaks s else Goes (JPoint :: k) (speeds t s) ts
  | _ => Goes (JTruncate :: k) s ts
  end.
(** A keyword that may end a section of kind [b]; [k] is what comes if it does not. *)
Definition leave (b : kind) (k : list job) (s : notes) (ts : list token) : result :=
  match resume b ts with
  | Inside => Goes k s ts
  | Resumes => Goes ((match b with KVfr => [JJoin; JAsPoint] | _ => [JAsPoint] end) ++ k) s ts
  | Wrong => match ts with p :: _ => Goes (JSync :: k) (report p [22] s) ts | [] => Goes k s ts end
  end.
Definition end_kind (t : token) : kind := match t_sub t with F15_SB_IFR => KVfr | F15_SB_GAT => KOat | _ => KIfpstop end.
Definition ends_here (s : notes) (t : token) : option kind :=
  match in_section s with Some b => if ends b (t_sub t) then Some b else None | None => None end.

(** Token [t] is read while [j] is expected. *)
Definition wrong (j : job) (t : token) (k : list job) (s : notes) (ts : list token) : result :=
  Goes (JSync :: k) (report t [misplaced (spot j s) t] s) ts.
Definition read (j : job) (t : token) (k : list job) (s : notes) (ts : list token) : result :=
  match j with
  | JAsPoint => Goes (JPoint :: k) (point t s) ts
  | JBegin | JText =>
      if base_eqb (t_base t) F15_TOO_LONG then
        Goes (JSync :: match j with JText => [JWord t; JText] | _ => [] end ++ k) (report t [4] s) ts
      else
        let s' := texts (t_text t) s in
        match ends_here s' t with Some b => leave b (JText :: k) s' ts | None => Goes (JText :: k) s' ts end
  | JJoin =>
      match ts with
      | sl :: sp :: ts' =>
          if base_eqb (t_base sp) F15_SPEED_VFR then Goes (JText :: k) (vfr sp (rules ($"IFR") (add t s))) ts'
          else Goes (JPoint :: k) (speeds sp (point t s)) ts'
      | _ => Goes k s ts
      end
  | JSync =>
      match t_base t with
      | F15_SLASH => Goes (JSyncSl t :: k) s ts
      | F15_BREAK_END => leave (end_kind t) k s ts
      | F15_UNKNOWN => Goes (JSync :: k) (report t [3] s) ts
      | F15_TOO_LONG => Goes (JSync :: k) (report t [4] s) ts
      | F15_STAY_TIME => Goes (JSync :: k) (report t [10] s) ts
      | _ => start t k s ts
      end
  | JSyncSl _ =>
      match t_base t with
      | F15_POINT | F15_SPEED_VFR | F15_SPEED_ALTITUDE | F15_SPEED_ALTITUDE_ALTITUDE | F15_SPEED_ALTITUDE_PLUS => start t k s ts
      | _ => Goes (JSync :: k) (report t [11] s) ts
      end
  | JTruncate => wrong j t k s ts
  | _ =>
      if suits j t s then
        match j with
        | JClimb _ _ => Goes (JClimbPt t :: k) (report t (angle_faults t) (locates t (add t s))) ts
        | JClimbPt p => Goes (JClimbSl p :: k) s ts
        | JClimbSl _ => start t (JAsPoint :: k) s ts
        | JStayTok _ => Goes (JStaySl t :: k) s ts
        | JStaySl _ => Goes (JStay :: k) (stays (minutes (t_text t)) s) ts
        | JC c => if base_eqb (t_base t) F15_SLASH then Goes (JClimb c t :: k) s ts else start t k (add c s) ts
        | JPoint => if base_eqb (t_base t) F15_SLASH then Goes (JSlash t :: k) s ts else start t k s ts
        | _ => start t k s ts
        end
      else
        (* a few situations are resumed later *)
        match j, t_base t with
        | JRoute, F15_POINT => wrong j t (JTake t :: k) s ts
        | JClimbPt p, _ => wrong j t (JClimbSl p :: k) s ts
        | JClimbSl _, _ => wrong j t (JAsPoint :: k) s ts
        | _, _ => wrong j t k s ts
        end
  end.
(** One step. *)
Definition step1 (k : list job) (s : notes) (ts : list token) : result :=
  match k with
  | [] => Goes [] s ts
  | JTake p :: k' => Goes (JPoint :: k') (point p s) ts
  | JWord w :: k' => Goes k' (texts (t_text w) s) ts
  | j :: k' => match ts with [] => Goes k' (at_end j s) [] | t :: ts' => read j t k' s ts' end
  end.
(** Reading until nothing is expected. *)
Inductive ending := Done (s : notes) | Broken (s : notes) | Unfinished.
Fixpoint play (n : nat) (k : list job) (s : notes) (ts : list token) : ending :=
  match k with
  | [] => Done s
  | _ =>
      match n with
      | O => Unfinished
      | S n' => match step1 k s ts with Goes k' s' ts' => play n' k' s' ts' | Breaks s' => Broken s' end
      end
  end.

(** ** The field *)
Definition aero (name : pstr) : item := mkItem name 0 0 F15_POINT F15_SB_PRP_AERO [] [] 0 [] [] [] PyZeroFloat false.
Definition blank_notes : notes := mkNotes [] (aero ($"ADEP")) [].
Definition patience (ts : list token) : nat := (4 * List.length ts + 4)%nat.
Definition begin (ts : list token) : ending :=
  match ts with
  | [] => Done blank_notes
  | t :: r =>
      match t_base t with
      | F15_SPEED_VFR | F15_SPEED_ALTITUDE =>
          match start t [] blank_notes r with
          | Goes k s ts' => play (patience ts) k s ts'
          | Breaks s => Broken s
          end
      | _ => play (patience ts) [JSync] (report t [1] blank_notes) r
      end
  end.
(** The first record of a VFR flight gets its rules at the end; a speed/level alone is an error; ADES is last. *)
Definition conclude (ts : list token) (s : notes) : list item * list (token * Z) :=
  let l := n_before s ++ [n_last s] in
  let l' := match ts, l with
            | t :: _, i :: r => if base_eqb (t_base t) F15_SPEED_VFR then n_last (rules ($"VFR") (mkNotes [] i [])) :: r else l
            | _, _ => l
            end in
  let e := match ts with
           | [t] => if base_eqb (t_base t) F15_SPEED_ALTITUDE then n_reports (report t [49] s) else n_reports s
           | _ => n_reports s
           end in
  (l' ++ [n_last (rules (i_rules (last l' (aero []))) (mkNotes [] (aero ($"ADES")) []))], e).
Inductive outcome := Gives (l : list item) (e : list (token * Z)) | Raises.
Definition reading (ts : list token) : option outcome :=
  match begin ts with
  | Done s => let (l, e) := conclude ts s in Some (Gives l e)
  | Broken _ => Some Raises
  | Unfinished => None
  end.

(** ** Records of the parser *)
Definition item_of (r : rrec) : item :=
  mkItem (r_name r) (r_start r) (r_end r) (r_base r) (r_sub r) (r_rules r) (r_break r) (r_stay r) (r_speed r) (r_alt r) (r_cto r) (r_cto_si r) (r_llv r).
(** The flight rules of the field, from the rules of the records. *)
Definition letter (l : list item) : pstr :=
  let some r := existsb (fun i => pstr_eqb (i_rules i) r) l in
  match l with
  | i :: _ => if pstr_eqb (i_rules i) ($"VFR") then (if some ($"IFR") then $"Z" else $"V") else (if some ($"VFR") then $"Y" else $"I")
  | [] => $"I"
  end.
