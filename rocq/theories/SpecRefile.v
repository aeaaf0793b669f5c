(** * SpecRefile: writing the records of a route as a field again. *)
From Coq Require Import ZArith NArith List Bool String.
From Verif Require Import PyBase Enums Tokenizer Ers Parser SpecNum SpecGrammar SpecAccept.
Import List ListNotations.
Local Open Scope list_scope.
Local Open Scope nat_scope.

Definition nil_b (s : pstr) : bool := match s with [] => true | _ => false end.
(** A record of type [b] that is no cruise climb. *)
Definition of_base (b : base_type) (r : rrec) : bool := nil_b (r_cto r) && base_eqb (r_base r) b.
Definition next_of (b : base_type) (n : option rrec) : bool := match n with Some r => of_base b r | None => false end.
Definition in_vfr (r : rrec) : bool := pstr_eqb (r_rules r) ($"VFR").
Definition same_speed (p r : rrec) : bool := pstr_eqb (r_speed p) (r_speed r) && pstr_eqb (r_alt p) (r_alt r).
Definition speed_and_level (r : rrec) : pstr := r_speed r ++ r_alt r.

(** Minutes as HHMM. *)
Definition digit_of (z : Z) : N := (48 + Z.to_N z)%N.
Definition clock (m : Z) : pstr := [digit_of (m / 600); digit_of (m / 60 mod 10); digit_of (m mod 60 / 10); digit_of (m mod 10)]%Z.

(** The target level of a cruise climb; the parser may have lost its letter, then any will do. *)
Definition with_letter (cto : pstr) : pstr :=
  match cto with c :: _ => if is_digit c then (if length cto =? 3 then 70%N else 83%N) :: cto else cto | [] => [] end.
Definition climb_fits (w cto : pstr) : bool :=
  match fst (classify w) with
  | F15_SPEED_ALTITUDE_PLUS => pstr_eqb cto ($"PLUS")
  | F15_SPEED_ALTITUDE_ALTITUDE => pstr_eqb (stored_target w) cto
  | _ => false
  end.
(** Speed, level and target in one element; if there is no such element, any speed and level that go with the target
    and then the right ones. *)
Definition climb_words (r : rrec) : list pstr :=
  let w := speed_and_level r ++ with_letter (r_cto r) in
  if climb_fits w (r_cto r) then [w]
  else [(match r_cto r with c :: _ => if is_digit c then $"M000F000" else $"N0000F000" | [] => [] end) ++ with_letter (r_cto r); $"/"; speed_and_level r].
(** The words of record [r] after record [p] and before [n]. *)
Definition needs_speed (p r : rrec) (n : option rrec) : bool :=
  if next_of F15_SPEED_VFR n then in_vfr p && r_llv r else in_vfr p || negb (same_speed p r).
Definition lead (p r : rrec) (n : option rrec) : list pstr :=
  if nil_b (r_cto r) then
    match r_base r with
    | F15_SPEED_VFR => [$"/"; r_speed r ++ $"VFR"]
    | F15_POINT => r_name r :: if needs_speed p r n then [$"/"; speed_and_level r] else []
    | _ => [r_name r]
    end
  else [$"C"; $"/"; r_name r; $"/"] ++ climb_words r.
Definition stay_words (r : rrec) (n : option rrec) : list pstr :=
  if (r_stay r =? 0)%Z && negb (computed_point (r_sub r) && next_of F15_ROUTE n) then [] else [$"STAY1"; $"/"; clock (r_stay r)].
Definition item (p r : rrec) (n : option rrec) : list pstr := lead p r n ++ r_break r :: stay_words r n.
Fixpoint say (p : rrec) (rs : list rrec) : list pstr :=
  match rs with
  | [] => []
  | r :: rest => item p r (hd_error rest) ++ say r rest
  end.
(** The records between ADEP [a] and ADES. *)
Definition opening (a : rrec) (mid : list rrec) : list pstr :=
  if in_vfr a then
    match mid with v :: mid' => (r_speed a ++ $"VFR") :: r_break v :: say v mid' | [] => [] end
  else speed_and_level a :: match mid with [] => [$"T"] | _ => say a mid end.
(** The field. *)
Definition refile (rs : list rrec) : pstr :=
  match rs with
  | a :: rest => joined (filter (fun w => negb (nil_b w)) (opening a (removelast rest)))
  | [] => []
  end.
