(** * Parser: models F15_Parser/F15Parse.py (class ParseF15), method by method.

    Every method gets the pair (ers, tokens); both are mutable objects, so a method
    is a state transformer.  An exception keeps the state reached so far.  References
    to records are positions in the list of records. *)
From Coq Require Import ZArith NArith List Bool String.
From Coq Require Import Floats.SpecFloat.
From Verif Require Import PyBase PyFloat Enums ErrorTable SyntaxTable Syntax Tokenizer Ers Utils.
Import ListNotations.
Open Scope Z_scope.

(** [s_calls] is a ghost: the number of parser-method invocations so far (used by C51
    only; no definition below reads it). *)
Record st := mkSt { s_toks : tokens; s_ers : ers; s_calls : nat }.

Inductive out (A : Type) := Ok (a : A) (s : st) | Exn (e : exn) (s : st).
Arguments Ok {A}. Arguments Exn {A}.
Definition M (A : Type) := st -> out A.

Definition ret {A} (a : A) : M A := fun s => Ok a s.
Definition raise {A} (e : exn) : M A := fun s => Exn e s.
Definition bind {A B} (m : M A) (f : A -> M B) : M B :=
  fun s => match m s with Ok a s' => f a s' | Exn e s' => Exn e s' end.
Notation "x <- m ;; k" := (bind m (fun x => k)) (at level 61, m at next level, right associativity).
Notation "m ;;; k" := (bind m (fun _ => k)) (at level 61, right associativity).
Definition lift {A} (r : exn + A) : M A := match r with inl e => raise e | inr a => ret a end.
Definition opt_or {A} (e : exn) (o : option A) : M A :=
  match o with Some a => ret a | None => raise e end.

(** Attribute access on a value that may be None. *)
Definition deref {A} (o : option A) : M A := opt_or AttributeError o.

(** ** Tokens operations on the state *)
Definition tok_next : M (option token) := fun s =>
  let '(ts, t) := get_next_token (s_toks s) in Ok t (mkSt ts (s_ers s) (s_calls s)).
Definition tok_first : M (option token) := fun s =>
  let '(ts, t) := get_first_token (s_toks s) in Ok t (mkSt ts (s_ers s) (s_calls s)).
Definition tok_peek (k : Z) : M (option token) := fun s => Ok (peek_next_token (s_toks s) k) s.
Definition tok_count : M Z := fun s => Ok (get_number_of_tokens (s_toks s)) s.

(** ** ERS operations on the state *)
Definition ers_get {A} (f : ers -> exn + A) : M A := fun s => lift (f (s_ers s)) s.
Definition ers_mod (f : ers -> ers) : M unit := fun s => Ok tt (mkSt (s_toks s) (f (s_ers s)) (s_calls s)).
Definition last_elem : M (option nat) := ers_get get_last_element.
Definition prev_elem : M (option nat) := ers_get get_previous_to_last_element.
Definition first_elem : M (option nat) := ers_get get_first_element.
Definition elem_at (i : Z) : M (option nat) := ers_get (fun x => get_element_at x i).
Definition n_elems : M Z := fun s => Ok (get_number_of_elements (s_ers s)) s.
Definition n_errors : M Z := fun s => Ok (get_number_of_errors (s_ers s)) s.
(** Read / write a record through its position; a dangling position cannot arise in
    Python and is reported as [ModelStuck]. *)
Definition rd (i : nat) : M rrec := fun s =>
  match nth_error (e_recs (s_ers s)) i with Some r => Ok r s | None => Exn ModelStuck s end.
Definition upd (i : nat) (f : rrec -> rrec) : M unit := fun s =>
  match nth_error (e_recs (s_ers s)) i with
  | Some _ => Ok tt (mkSt (s_toks s)
        (mkErs (list_upd i f (e_recs (s_ers s))) (e_errs (s_ers s)) (e_rules (s_ers s))) (s_calls s))
  | None => Exn ModelStuck s
  end.
Definition append_rec (r : rrec) : M (option nat) :=
  ers_mod (append_element r) ;;; last_elem.

(** F15Parse.py:45-50 RULES *)
Definition RULE_I : pstr := $"IFR".
Definition RULE_V : pstr := $"VFR".
Definition RULE_O : pstr := $"OAT".
Definition RULE_S : pstr := $"IFPS".
(** [self.RULES[k]] for a computed key *)
Definition rules_lookup (k : pstr) : exn + pstr :=
  if pstr_eqb k ($"I") then inr RULE_I else
  if pstr_eqb k ($"V") then inr RULE_V else
  if pstr_eqb k ($"O") then inr RULE_O else
  if pstr_eqb k ($"S") then inr RULE_S else inl KeyError.
(** F15Parse.py:41 *)
Definition DEFAULT_ALTITUDE : pstr := $"F050".

(** F15Parse.py:147-164 add_error_no_re_sync *)
Definition add_error_no_re_sync (t : token) (n : Z) : M unit :=
  msg <- opt_or KeyError (error_message n) ;;
  ers_mod (add_error (t_text t) (t_start t) (t_end t) (t_base t) (t_sub t) msg).

(** F15Parse.py:870-887 carry_speed_altitude_rules_forward *)
Definition carry_speed_altitude_rules_forward : M unit :=
  oc <- last_elem ;; op <- prev_elem ;;
  c <- deref oc ;; p <- deref op ;;
  r <- rd p ;; upd c (set_r_alt (r_alt r)) ;;;
  r <- rd p ;; upd c (set_r_alt_si (r_alt_si r)) ;;;
  r <- rd p ;; upd c (set_r_speed (r_speed r)) ;;;
  r <- rd p ;; upd c (set_r_speed_si (r_speed_si r)) ;;;
  r <- rd p ;; upd c (set_r_rules (r_rules r)).

(** F15Parse.py:166-182 add_record *)
Definition add_record (t : token) : M (option nat) :=
  o <- append_rec (new_rec (t_text t) (t_start t) (t_end t) (t_base t) (t_sub t)) ;;
  carry_speed_altitude_rules_forward ;;;
  ret o.

(** One-character comparison of a slice with a letter. *)
Definition is_letter (s : pstr) (c : N) : bool := pstr_eqb s [c].

(** F15Parse.py:184-228 assign_altitude *)
Definition assign_altitude (t : token) (i : nat) (s : pstr) (cruise : bool) : M unit :=
  upd i (if cruise then set_r_cto s else set_r_alt s) ;;;           (* :204-207 *)
  a <- opt_or ValueError (py_int (slice s (Some 1) None)) ;;        (* :208 *)
  let ty := slice s (Some 0) (Some 1) in                            (* :209 *)
  v <- (if is_letter ty 65 (* A *) then ret (fmul (f_of_Z (a * 100)) FEET_TO_METERS)
        else if is_letter ty 70 (* F *) then
          (if negb (a mod 5 =? 0) then add_error_no_re_sync t 40 else ret tt) ;;;
          ret (fmul (f_of_Z (a * 100)) FEET_TO_METERS)
        else if is_letter ty 83 (* S *) || is_letter ty 77 (* M *) then ret (f_of_Z (a * 10))
        else ret (f_of_Z a)) ;;
  z <- lift (f_trunc (fadd v (flit 1 2))) ;;                        (* :225-228 *)
  upd i (if cruise then set_r_cto_si (PyInt z) else set_r_alt_si (PyInt z)).

(** F15Parse.py:416-452 assign_speed *)
Definition assign_speed (i : nat) (s : pstr) : M unit :=
  upd i (set_r_speed s) ;;;
  r <- rd i ;;
  sp <- opt_or ValueError (py_int (slice s (Some 1) None)) ;;
  let ty := slice s (Some 0) (Some 1) in
  v <- (if is_letter ty 75 (* K *) then ret (fmul (f_of_Z sp) KMH_TO_METERS_SECOND)
        else if is_letter ty 78 (* N *) then ret (fmul (f_of_Z sp) KNOTS_TO_METERS_SECOND)
        else if is_letter ty 77 (* M *) then lift (mach_to_ms_speed sp (num_z (r_alt_si r)))
        else ret (f_of_Z sp)) ;;
  z <- lift (f_trunc (fadd v (flit 1 2))) ;;
  upd i (set_r_speed_si (PyInt z)).

(** [float(s)] *)
Definition py_float_m (s : pstr) : M f64 := opt_or ValueError (py_float s).

(** F15Parse.py:263-283 assign_latitude *)
Definition assign_latitude (i : nat) (l : pstr) : M unit :=
  let n_or_s := slice l (Some (-1)) None in
  (if zlen l <? 4
   then d <- py_float_m (slice l (Some 0) (Some 2)) ;; upd i (set_r_lat d)
   else d <- py_float_m (slice l (Some 0) (Some 2)) ;;
        m <- py_float_m (slice l (Some 2) (Some 4)) ;;
        upd i (set_r_lat (fadd d (fdiv m (flit 60 1))))) ;;;
  if is_letter n_or_s 83 (* S *)
  then r <- rd i ;; upd i (set_r_lat (fmul (r_lat r) (SFopp (flit 1 1))))
  else ret tt.

(** F15Parse.py:394-414 assign_longitude *)
Definition assign_longitude (i : nat) (l : pstr) : M unit :=
  let e_or_w := slice l (Some (-1)) None in
  (if zlen l <? 5
   then d <- py_float_m (slice l (Some 0) (Some 3)) ;; upd i (set_r_lon d)
   else d <- py_float_m (slice l (Some 0) (Some 3)) ;;
        m <- py_float_m (slice l (Some 3) (Some 5)) ;;
        upd i (set_r_lon (fadd d (fdiv m (flit 60 1))))) ;;;
  if is_letter e_or_w 87 (* W *)
  then r <- rd i ;; upd i (set_r_lon (fmul (r_lon r) (SFopp (flit 1 1))))
  else ret tt.

(** The five sub types tested together at F15Parse.py:1158-1160 and :1380-1382. *)
Definition is_ll_or_bd (s : sub_type) : bool :=
  sub_eqb s F15_SB_PRP_BD || sub_eqb s F15_SB_LL_DEG || sub_eqb s F15_SB_LL_MIN
  || sub_eqb s F15_SB_LLBD_DEG || sub_eqb s F15_SB_LLBD_MIN.

Section WithGeo.
(** geographiclib: an arbitrary oracle. *)
Variable G : geodesic.

(** F15Parse.py:1400-1414 set_azimuth_and_distance *)
Definition set_azimuth_and_distance (p1 p2 : nat) : M unit :=
  a <- rd p1 ;; b <- rd p2 ;;
  let '(azi, dist) := geo_inverse G (r_lat a) (r_lon a) (r_lat b) (r_lon b) in
  upd p1 (set_r_brg azi) ;;; upd p1 (set_r_dist dist).

(** F15Parse.py:230-261 assign_azimuth_distance_between_points *)
Definition assign_azimuth_distance_between_points : M unit :=
  ol <- last_elem ;;
  match ol with
  | None => ret tt
  | Some l =>
      op <- prev_elem ;;
      match op with
      | None => ret tt
      | Some p =>
          lr <- rd l ;;
          if r_llv lr then
            pr <- rd p ;;
            if r_llv pr then set_azimuth_and_distance p l
            else
              n <- n_elems ;; oq <- elem_at (n - 3) ;;
              match oq with
              | None => ret tt
              | Some q => qr <- rd q ;; if r_llv qr then set_azimuth_and_distance q l else ret tt
              end
          else ret tt
      end
  end.

(** F15Parse.py:1243-1259 resolve_real_bd_point *)
Definition resolve_real_bd_point (i : nat) (bearing distance : f64) : M unit :=
  r <- rd i ;;
  let '(la, lo) := geo_direct G (r_lat r) (r_lon r) bearing (fmul distance (f_of_Z NM_TO_METERS)) in
  upd i (set_r_lat la) ;;; upd i (set_r_lon lo) ;;;
  assign_azimuth_distance_between_points.

(** F15Parse.py:337-363 assign_ll_deg *)
Definition assign_ll_deg (t : token) (i : nat) (s : pstr) : M unit :=
  assign_latitude i (slice s (Some 0) (Some 3)) ;;;
  assign_longitude i (slice s (Some 3) (Some 7)) ;;;
  b <- lift (is_degree_semantics (slice s (Some 0) (Some 2)) 90) ;;
  (if b : bool then ret tt else add_error_no_re_sync t 42) ;;;
  b <- lift (is_degree_semantics (slice s (Some 3) (Some 6)) 180) ;;
  (if b : bool then ret tt else add_error_no_re_sync t 44) ;;;
  upd i (set_r_llv true) ;;;
  assign_azimuth_distance_between_points.

(** F15Parse.py:365-392 assign_ll_deg_min *)
Definition assign_ll_deg_min (t : token) (i : nat) (s : pstr) : M unit :=
  assign_latitude i (slice s (Some 0) (Some 5)) ;;;
  assign_longitude i (slice s (Some 5) (Some 11)) ;;;
  b <- lift (is_degree_minute_semantics (slice s (Some 0) (Some 4)) 90 2) ;;
  (if b : bool then ret tt else add_error_no_re_sync t 43) ;;;
  b <- lift (is_degree_minute_semantics (slice s (Some 5) (Some 10)) 180 3) ;;
  (if b : bool then ret tt else add_error_no_re_sync t 45) ;;;
  upd i (set_r_llv true) ;;;
  assign_azimuth_distance_between_points.

(** The bearing check F15Parse.py:306-307, 321-322, 330-331 *)
Definition check_bearing (t : token) (s : pstr) : M unit :=
  b <- lift (is_degree_semantics (slice s (Some (-6)) (Some (-3))) 360) ;;
  if b : bool then ret tt else add_error_no_re_sync t 46.

(** The call F15Parse.py:325-326, 334-335 *)
Definition resolve_from_text (i : nat) (s : pstr) : M unit :=
  b <- py_float_m (slice s (Some (-6)) (Some (-3))) ;;
  d <- py_float_m (slice s (Some (-3)) None) ;;
  resolve_real_bd_point i b d.

(** F15Parse.py:285-335 assign_lat_long_bearing_distance *)
Definition assign_lat_long_bearing_distance (t : token) : M unit :=
  let s := t_text t in
  o <- last_elem ;;
  match t_sub t with
  | F15_SB_PRP_BD => check_bearing t s
  | F15_SB_LL_DEG => i <- deref o ;; assign_ll_deg t i s
  | F15_SB_LL_MIN => i <- deref o ;; assign_ll_deg_min t i s
  | F15_SB_LLBD_DEG =>
      i <- deref o ;; assign_ll_deg t i s ;;; check_bearing t s ;;; resolve_from_text i s
  | F15_SB_LLBD_MIN =>
      i <- deref o ;; assign_ll_deg_min t i s ;;; check_bearing t s ;;; resolve_from_text i s
  | _ => ret tt
  end.

(** ** The mutually recursive methods *)
Inductive call :=
| CErrSync (t : token) (n : Z)      (* add_error_and_re_sync *)
| CReSync                           (* re_sync_parser_after_error *)
| CSpdAlt (t : token)               (* assign_speed_altitude *)
| CSpdAltAlt (t : token)            (* assign_speed_altitude_altitude *)
| CSpdAltPlus (t : token)           (* assign_speed_altitude_plus *)
| CSpdVfr (t : token)               (* assign_speed_vfr *)
| CBreakEnd (t : token)             (* break_end *)
| CBreakEndError (t : token)        (* break_end_error *)
| CBreakStart (t : token)           (* break_start *)
| CBreakText (t : token)            (* break_text_save *)
| CCruiseC (t : token)              (* cruise_climb_c *)
| CCruisePoint (t : token)          (* cruise_climb_point *)
| CDct (t : token)                  (* dct *)
| CSlash (t : token)                (* forward_slash *)
| CPostAdep (t : token)             (* post_adep *)
| CPostPoint (t : token)            (* post_point *)
| CPostSid                          (* post_sid *)
| CPoint (t : token)                (* point *)
| CRoute (t : token)                (* route *)
| CSid (t : token)                  (* sid *)
| CSidStar (t : token)              (* sid_star *)
| CStar (t : token)                 (* star *)
| CStay (t : token)                 (* stay *)
| CStayTime (t : token)             (* stay_time *)
| CTruncate                         (* truncate *)
| CVtoI                             (* v_to_i_rule_change *)
| CVtoItoV.                         (* v_to_i_to_v_rule_change *)

Section Bodies.
(** The recursive invocation of another method. *)
Variable self : call -> M unit.

(** [next_token = tokens.get_next_token(); if next_token is None: return; k(next_token)] *)
Definition next_or_return (k : token -> M unit) : M unit :=
  o <- tok_next ;; match o with None => ret tt | Some t => k t end.

(** F15Parse.py:130-145 *)
Definition b_add_error_and_re_sync (t : token) (n : Z) : M unit :=
  add_error_no_re_sync t n ;;; self CReSync.

(** F15Parse.py:1261-1337 *)
Definition b_re_sync : M unit :=
  next_or_return (fun t =>
  match t_base t with
  | F15_UNKNOWN => self (CErrSync t 3)
  | F15_SLASH =>
      o <- tok_next ;;
      match o with
      | None => self (CErrSync t 25)
      | Some nt =>
          match t_base nt with
          | F15_SPEED_VFR => self (CSpdVfr nt)
          | F15_POINT => self (CPoint nt)
          | F15_SPEED_ALTITUDE => self (CSpdAlt nt)
          | F15_SPEED_ALTITUDE_ALTITUDE => self (CSpdAltAlt nt)
          | F15_SPEED_ALTITUDE_PLUS => self (CSpdAltPlus nt)
          | _ => self (CErrSync nt 11)
          end
      end
  | F15_BREAK_START => self (CBreakStart t)
  | F15_SPEED_VFR => self (CSpdVfr t)
  | F15_BREAK_END => self (CBreakEnd t)
  | F15_DCT => self (CDct t)
  | F15_STAY => self (CStay t)
  | F15_TRUNCATE => self CTruncate
  | F15_C => self (CCruiseC t)
  | F15_POINT => self (CPoint t)
  | F15_ROUTE => self (CRoute t)
  | F15_SID_STAR => self (CSidStar t)
  | F15_SPEED_ALTITUDE => self (CSpdAlt t)
  | F15_SPEED_ALTITUDE_ALTITUDE => self (CSpdAltAlt t)
  | F15_SPEED_ALTITUDE_PLUS => self (CSpdAltPlus t)
  | F15_TOO_LONG => self (CErrSync t 4)
  | F15_STAY_TIME => self (CErrSync t 10)
  | F15_SID => self (CSid t)
  | F15_STAR => self (CStar t)
  end).

(** F15Parse.py:454-508.  The [match] first assigns altitude and speed; the last case
    returns immediately. *)
Definition b_assign_speed_altitude (t : token) : M unit :=
  o <- last_elem ;;
  match o with
  | None => ret tt
  | Some i =>
      let s := t_text t in
      go <- match t_sub t with
            | F15_SB_SPEED_ALTITUDE_MF | F15_SB_SPEED_ALTITUDE_MS
            | F15_SB_SPEED_ALTITUDE_MA | F15_SB_SPEED_ALTITUDE_MM =>
                assign_altitude t i (slice s (Some 4) None) false ;;;
                assign_speed i (slice s (Some 0) (Some 4)) ;;; ret true
            | F15_SB_SPEED_ALTITUDE_KS | F15_SB_SPEED_ALTITUDE_KA
            | F15_SB_SPEED_ALTITUDE_KM | F15_SB_SPEED_ALTITUDE_NS
            | F15_SB_SPEED_ALTITUDE_NA | F15_SB_SPEED_ALTITUDE_NM
            | F15_SB_SPEED_ALTITUDE_KF | F15_SB_SPEED_ALTITUDE_NF =>
                assign_altitude t i (slice s (Some 5) None) false ;;;
                assign_speed i (slice s (Some 0) (Some 5)) ;;; ret true
            | _ =>
                assign_altitude t i ($"X000") false ;;;
                assign_speed i ($"X0000") ;;; ret false
            end ;;
      if go : bool then
        upd i (set_r_rules RULE_I) ;;;
        next_or_return (fun nt =>
          n <- n_elems ;;
          if n =? 1 then self (CPostAdep nt) else self (CPostPoint nt))
      else ret tt
  end.

(** F15Parse.py:510-579 *)
Definition b_assign_speed_altitude_altitude (t : token) : M unit :=
  o <- last_elem ;;
  match o with
  | None => ret tt
  | Some i =>
      let s := t_text t in
      go <- match t_sub t with
            | F15_SB_SPEED_ALTITUDE_KFF | F15_SB_SPEED_ALTITUDE_KFS
            | F15_SB_SPEED_ALTITUDE_KFA | F15_SB_SPEED_ALTITUDE_KFM
            | F15_SB_SPEED_ALTITUDE_KAF | F15_SB_SPEED_ALTITUDE_KAS
            | F15_SB_SPEED_ALTITUDE_KAA | F15_SB_SPEED_ALTITUDE_KAM
            | F15_SB_SPEED_ALTITUDE_NFF | F15_SB_SPEED_ALTITUDE_NFS
            | F15_SB_SPEED_ALTITUDE_NFA | F15_SB_SPEED_ALTITUDE_NFM
            | F15_SB_SPEED_ALTITUDE_NAF | F15_SB_SPEED_ALTITUDE_NAS
            | F15_SB_SPEED_ALTITUDE_NAA | F15_SB_SPEED_ALTITUDE_NAM =>
                assign_altitude t i (slice s (Some 5) (Some 9)) false ;;;
                assign_altitude t i (slice s (Some 9) None) true ;;;
                assign_speed i (slice s (Some 0) (Some 5)) ;;; ret true
            | F15_SB_SPEED_ALTITUDE_KSF | F15_SB_SPEED_ALTITUDE_KSS
            | F15_SB_SPEED_ALTITUDE_KSA | F15_SB_SPEED_ALTITUDE_KSM
            | F15_SB_SPEED_ALTITUDE_KMF | F15_SB_SPEED_ALTITUDE_KMS
            | F15_SB_SPEED_ALTITUDE_KMA | F15_SB_SPEED_ALTITUDE_KMM
            | F15_SB_SPEED_ALTITUDE_NSF | F15_SB_SPEED_ALTITUDE_NSS
            | F15_SB_SPEED_ALTITUDE_NSA | F15_SB_SPEED_ALTITUDE_NSM
            | F15_SB_SPEED_ALTITUDE_NMF | F15_SB_SPEED_ALTITUDE_NMS
            | F15_SB_SPEED_ALTITUDE_NMA | F15_SB_SPEED_ALTITUDE_NMM =>
                assign_altitude t i (slice s (Some 5) (Some 10)) false ;;;
                assign_altitude t i (slice s (Some 11) None) true ;;;
                assign_speed i (slice s (Some 0) (Some 5)) ;;; ret true
            | F15_SB_SPEED_ALTITUDE_MFF | F15_SB_SPEED_ALTITUDE_MFS
            | F15_SB_SPEED_ALTITUDE_MFA | F15_SB_SPEED_ALTITUDE_MFM
            | F15_SB_SPEED_ALTITUDE_MAF | F15_SB_SPEED_ALTITUDE_MAS
            | F15_SB_SPEED_ALTITUDE_MAA | F15_SB_SPEED_ALTITUDE_MAM =>
                assign_altitude t i (slice s (Some 4) (Some 8)) false ;;;
                assign_altitude t i (slice s (Some 9) None) true ;;;
                assign_speed i (slice s (Some 0) (Some 4)) ;;; ret true
            | F15_SB_SPEED_ALTITUDE_MSF | F15_SB_SPEED_ALTITUDE_MSS
            | F15_SB_SPEED_ALTITUDE_MSA | F15_SB_SPEED_ALTITUDE_MSM
            | F15_SB_SPEED_ALTITUDE_MMF | F15_SB_SPEED_ALTITUDE_MMS
            | F15_SB_SPEED_ALTITUDE_MMA | F15_SB_SPEED_ALTITUDE_MMM =>
                assign_altitude t i (slice s (Some 4) (Some 9)) false ;;;
                assign_altitude t i (slice s (Some 10) None) true ;;;
                assign_speed i (slice s (Some 0) (Some 4)) ;;; ret true
            | _ =>
                assign_altitude t i ($"X000") false ;;;
                assign_speed i ($"X000") ;;; ret false
            end ;;
      if go : bool then
        upd i (set_r_rules RULE_I) ;;;
        next_or_return (fun nt => self (CPostPoint nt))
      else ret tt
  end.

(** F15Parse.py:581-632 *)
Definition b_assign_speed_altitude_plus (t : token) : M unit :=
  o <- last_elem ;;
  match o with
  | None => ret tt
  | Some i =>
      let s := t_text t in
      go <- match t_sub t with
            | F15_SB_SPEED_ALTITUDE_KF_P | F15_SB_SPEED_ALTITUDE_KA_P
            | F15_SB_SPEED_ALTITUDE_NF_P | F15_SB_SPEED_ALTITUDE_NA_P =>
                assign_altitude t i (slice s (Some 5) (Some 9)) false ;;;
                upd i (set_r_cto (slice s (Some 9) None)) ;;;
                assign_speed i (slice s (Some 0) (Some 5)) ;;; ret true
            | F15_SB_SPEED_ALTITUDE_KS_P | F15_SB_SPEED_ALTITUDE_KM_P
            | F15_SB_SPEED_ALTITUDE_NS_P | F15_SB_SPEED_ALTITUDE_NM_P =>
                assign_altitude t i (slice s (Some 5) (Some 10)) false ;;;
                upd i (set_r_cto (slice s (Some 10) None)) ;;;
                assign_speed i (slice s (Some 0) (Some 5)) ;;; ret true
            | F15_SB_SPEED_ALTITUDE_MF_P | F15_SB_SPEED_ALTITUDE_MA_P =>
                assign_altitude t i (slice s (Some 4) (Some 8)) false ;;;
                upd i (set_r_cto (slice s (Some 8) None)) ;;;
                assign_speed i (slice s (Some 0) (Some 4)) ;;; ret true
            | F15_SB_SPEED_ALTITUDE_MS_P | F15_SB_SPEED_ALTITUDE_MM_P =>
                assign_altitude t i (slice s (Some 4) (Some 9)) false ;;;
                upd i (set_r_cto (slice s (Some 9) None)) ;;;
                assign_speed i (slice s (Some 0) (Some 4)) ;;; ret true
            | _ =>
                assign_altitude t i ($"X000") false ;;;
                assign_speed i ($"X000") ;;; ret false
            end ;;
      if go : bool then
        upd i (set_r_rules RULE_I) ;;;
        next_or_return (fun nt => self (CPostPoint nt))
      else ret tt
  end.

(** F15Parse.py:634-684.  The [match] compares a sub type with a base type; both are
    IntEnums, so the comparison is by value. *)
Definition b_assign_speed_vfr (t : token) : M unit :=
  o <- last_elem ;;
  match o with
  | None => ret tt
  | Some p =>
      oi <- add_record (set_token_string t ($"VFR")) ;;
      i <- deref oi ;;
      assign_altitude t i DEFAULT_ALTITUDE false ;;;
      let s := t_text t in
      let sb := t_sub t in
      let is_spd_vfr := sub_code sb =? base_code F15_SPEED_VFR in
      (if is_spd_vfr || sub_eqb sb F15_SB_SPEED_ALTITUDE_MV then
         assign_speed i (slice s (Some 0) (Some 4)) ;;;
         rl <- lift (rules_lookup (slice s (Some 4) (Some 5))) ;;
         upd i (set_r_rules rl)
       else if is_spd_vfr || sub_eqb sb F15_SB_SPEED_ALTITUDE_NV || sub_eqb sb F15_SB_SPEED_ALTITUDE_KV then
         assign_speed i (slice s (Some 0) (Some 5)) ;;;
         rl <- lift (rules_lookup (slice s (Some 5) (Some 6))) ;;
         upd i (set_r_rules rl)
       else
         assign_altitude t i ($"X000") false ;;;
         upd i (set_r_rules RULE_I)) ;;;
      r <- rd i ;; upd p (set_r_speed (r_speed r)) ;;;
      r <- rd i ;; upd p (set_r_speed_si (r_speed_si r)) ;;;
      r <- rd i ;; upd p (set_r_alt (r_alt r)) ;;;
      r <- rd i ;; upd p (set_r_alt_si (r_alt_si r)) ;;;
      next_or_return (fun nt => self (CBreakText nt))
  end.

(** F15Parse.py:686-757 *)
Definition b_break_end (t : token) : M unit :=
  let tail := next_or_return (fun nt => self (CPoint nt)) in          (* :754-757 *)
  orcp <- tok_peek 1 ;;
  match orcp with
  | None => ret tt
  | Some rcp =>
      if negb (base_eqb (t_base rcp) F15_POINT) then ret tt
      else if sub_eqb (t_sub t) F15_SB_IFR then
        osl <- tok_peek 2 ;;
        match osl with
        | None => self (CErrSync rcp 22)
        | Some sl =>
            if negb (base_eqb (t_base sl) F15_SLASH) then ret tt
            else
              osp <- tok_peek 3 ;;
              match osp with
              | None => self (CErrSync rcp 22)
              | Some sp =>
                  if negb (base_eqb (t_base sp) F15_SPEED_ALTITUDE)
                     && negb (base_eqb (t_base sp) F15_SPEED_VFR)
                  then self (CErrSync rcp 22)
                  else
                    (if base_eqb (t_base sp) F15_SPEED_ALTITUDE then self CVtoI
                     else if base_eqb (t_base sp) F15_SPEED_VFR then self CVtoItoV
                     else ret tt) ;;;
                    tail
              end
        end
      else tail
  end.

(** F15Parse.py:759-780 *)
Definition b_break_end_error (t : token) : M unit :=
  if sub_eqb (t_sub t) F15_SB_IFR then self (CErrSync t 6)
  else if sub_eqb (t_sub t) F15_SB_GAT then self (CErrSync t 7)
  else if sub_eqb (t_sub t) F15_SB_IFPSTART then self (CErrSync t 8)
  else ret tt.

(** F15Parse.py:782-819 *)
Definition b_break_start (t : token) : M unit :=
  add_record t ;;;
  o <- last_elem ;;
  match t_sub t with
  | F15_SB_OAT => i <- deref o ;; upd i (set_r_rules RULE_O)
  | F15_SB_VFR => i <- deref o ;; upd i (set_r_rules RULE_V)
  | F15_SB_IFPSTOP => i <- deref o ;; upd i (set_r_rules RULE_S)
  | _ => ret tt
  end ;;;
  next_or_return (fun nt =>
    if base_eqb (t_base nt) F15_TOO_LONG then self (CErrSync nt 4) else self (CBreakText nt)).

(** F15Parse.py:821-868.  [cur_break_type is self.RULES[k]] compares identities of
    interned strings that are only ever taken from RULES (or the default ""), which
    coincides with equality. *)
Definition b_break_text_save (t : token) : M unit :=
  (if base_eqb (t_base t) F15_TOO_LONG then self (CErrSync t 4) else ret tt) ;;;
  o <- last_elem ;; i <- deref o ;; upd i (append_break_text (t_text t)) ;;;
  o <- last_elem ;; i <- deref o ;; r <- rd i ;;
  let sb := t_sub t in
  let cur := r_rules r in
  (if sub_eqb sb F15_SB_IFR && pstr_eqb cur RULE_V then self (CBreakEnd t)
   else if sub_eqb sb F15_SB_GAT && pstr_eqb cur RULE_O then self (CBreakEnd t)
   else if sub_eqb sb F15_SB_IFPSTART && pstr_eqb cur RULE_S then self (CBreakEnd t)
   else ret tt) ;;;
  next_or_return (fun nt => self (CBreakText nt)).

(** F15Parse.py:889-965 *)
Definition b_cruise_climb_c (t : token) : M unit :=
  o <- tok_next ;;
  match o with
  | None => add_record t ;;; ret tt
  | Some nt =>
      match t_base nt with
      | F15_UNKNOWN => self (CErrSync nt 3)
      | F15_SLASH =>
          o2 <- tok_next ;;
          match o2 with
          | None => add_record t ;;; self (CErrSync nt 52)
          | Some nt2 => self (CCruisePoint nt2)
          end
      | F15_BREAK_START => add_record t ;;; self (CBreakStart nt)
      | F15_SPEED_VFR | F15_SPEED_ALTITUDE => self (CErrSync nt 5)
      | F15_BREAK_END => self (CBreakEndError nt)
      | F15_DCT => add_record t ;;; self (CDct nt)
      | F15_STAY => add_record t ;;; self (CStay nt)
      | F15_TRUNCATE => add_record t ;;; self CTruncate
      | F15_C => add_record t ;;; self (CCruiseC nt)
      | F15_POINT => add_record t ;;; self (CPoint nt)
      | F15_ROUTE => add_record t ;;; self (CRoute nt)
      | F15_SID_STAR => add_record t ;;; self (CSidStar nt)
      | F15_SPEED_ALTITUDE_ALTITUDE | F15_SPEED_ALTITUDE_PLUS => self (CErrSync nt 9)
      | F15_TOO_LONG => self (CErrSync nt 4)
      | F15_STAY_TIME => self (CErrSync nt 10)
      | F15_SID => add_record t ;;; self (CSid nt)
      | F15_STAR => add_record t ;;; self (CStar nt)
      end
  end.

(** F15Parse.py:967-1011 *)
Definition b_cruise_climb_point (t : token) : M unit :=
  add_record t ;;;
  assign_lat_long_bearing_distance t ;;;
  o <- tok_next ;;
  match o with
  | None => self (CErrSync t 27)
  | Some nt =>
      (if negb (base_eqb (t_base nt) F15_SLASH) then self (CErrSync nt 26) else ret tt) ;;;
      o2 <- tok_next ;;
      match o2 with
      | None => self (CErrSync t 28)
      | Some nt2 =>
          match t_base nt2 with
          | F15_SPEED_ALTITUDE_ALTITUDE => self (CSpdAltAlt nt2)
          | F15_SPEED_ALTITUDE_PLUS => self (CSpdAltPlus nt2)
          | _ => self (CErrSync nt2 29)
          end ;;;
          next_or_return (fun nt3 => self (CPoint nt3))
      end
  end.

(** F15Parse.py:1013-1037 *)
Definition b_dct (t : token) : M unit :=
  add_record t ;;;
  next_or_return (fun nt =>
    match t_base nt with
    | F15_TRUNCATE => self CTruncate
    | F15_POINT => self (CPoint nt)
    | F15_C => self (CCruiseC nt)
    | _ => self (CErrSync nt 21)
    end).

(** F15Parse.py:1039-1077 *)
Definition b_forward_slash (t : token) : M unit :=
  o <- tok_next ;;
  match o with
  | None => self (CErrSync t 20)
  | Some nt =>
      match t_base nt with
      | F15_UNKNOWN => self (CErrSync nt 3)
      | F15_SLASH => self (CErrSync nt 16)
      | F15_SPEED_VFR => self (CSpdVfr nt)
      | F15_SPEED_ALTITUDE => self (CSpdAlt nt)
      | F15_TOO_LONG => self (CErrSync nt 4)
      | _ => self (CErrSync nt 50)
      end
  end.

(** F15Parse.py:1079-1121 *)
Definition b_post_adep (t : token) : M unit :=
  match t_base t with
  | F15_UNKNOWN => self (CErrSync t 3)
  | F15_SLASH | F15_BREAK_START | F15_SPEED_VFR | F15_SPEED_ALTITUDE
  | F15_BREAK_END | F15_STAY | F15_C => self (CErrSync t 23)
  | F15_DCT => self (CDct t)
  | F15_TRUNCATE => self CTruncate
  | F15_POINT => self (CPoint t)
  | F15_ROUTE => self (CErrSync t 24)
  | F15_SID_STAR => self (CSidStar t)
  | F15_SPEED_ALTITUDE_ALTITUDE | F15_SPEED_ALTITUDE_PLUS => self (CErrSync t 9)
  | F15_TOO_LONG => self (CErrSync t 4)
  | F15_STAY_TIME => self (CErrSync t 10)
  | F15_SID => self (CSid t)
  | F15_STAR => self (CStar t)
  end.

(** F15Parse.py:1123-1177 *)
Definition b_post_point (t : token) : M unit :=
  match t_base t with
  | F15_UNKNOWN => self (CErrSync t 3)
  | F15_SLASH => self (CSlash t)
  | F15_BREAK_START => self (CBreakStart t)
  | F15_SPEED_VFR | F15_SPEED_ALTITUDE => self (CErrSync t 5)
  | F15_BREAK_END => self (CBreakEndError t)
  | F15_DCT => self (CDct t)
  | F15_STAY => self (CStay t)
  | F15_TRUNCATE => self CTruncate
  | F15_C => self (CCruiseC t)
  | F15_POINT => self (CPoint t)
  | F15_ROUTE =>
      o <- last_elem ;; i <- deref o ;; r <- rd i ;;
      if is_ll_or_bd (r_sub r) then self (CErrSync t 47) else self (CRoute t)
  | F15_SID_STAR => self (CSidStar t)
  | F15_SPEED_ALTITUDE_ALTITUDE | F15_SPEED_ALTITUDE_PLUS => self (CErrSync t 9)
  | F15_TOO_LONG => self (CErrSync t 4)
  | F15_STAY_TIME => self (CErrSync t 10)
  | F15_SID => self (CSid t)
  | F15_STAR => self (CStar t)
  end.

(** F15Parse.py:1179-1215 *)
Definition b_post_sid : M unit :=
  next_or_return (fun nt =>
    match t_base nt with
    | F15_TRUNCATE => self CTruncate
    | F15_POINT => self (CPoint nt)
    | F15_ROUTE => self (CRoute nt)
    | F15_SID_STAR => self (CSidStar nt)
    | F15_TOO_LONG => self (CErrSync nt 4)
    | F15_SID => self (CErrSync nt 32)
    | F15_STAR => self (CStar nt)
    | _ => self (CErrSync nt 31)
    end).

(** The guarded call F15Parse.py:1233-1235 and :1642-1644 *)
Definition check_point_semantics (t : token) : M unit :=
  if negb (sub_eqb (t_sub t) F15_SB_PRP) && negb (sub_eqb (t_sub t) F15_SB_PRP_AERO)
  then assign_lat_long_bearing_distance t else ret tt.

(** F15Parse.py:1217-1241 *)
Definition b_point (t : token) : M unit :=
  add_record t ;;;
  o <- last_elem ;; i <- deref o ;; upd i (set_r_rules RULE_I) ;;;
  check_point_semantics t ;;;
  next_or_return (fun nt => self (CPostPoint nt)).

(** F15Parse.py:1339-1398 *)
Definition b_route (t : token) : M unit :=
  add_record t ;;;
  o <- last_elem ;; i <- deref o ;; upd i (set_r_rules RULE_I) ;;;
  next_or_return (fun nt =>
    match t_base nt with
    | F15_UNKNOWN => self (CErrSync nt 3)
    | F15_SLASH => self (CErrSync nt 12)
    | F15_BREAK_START => self (CErrSync nt 13)
    | F15_SPEED_VFR => self (CErrSync nt 13)
    | F15_SPEED_ALTITUDE => self (CErrSync nt 55)
    | F15_BREAK_END => self (CBreakEndError nt)
    | F15_DCT => self (CErrSync nt 14)
    | F15_STAY => self (CErrSync nt 15)
    | F15_TRUNCATE => self CTruncate
    | F15_C => self (CCruiseC nt)
    | F15_POINT =>
        (if is_ll_or_bd (t_sub nt) then self (CErrSync nt 48) else ret tt) ;;;
        self (CPoint nt)
    | F15_ROUTE => self (CErrSync nt 53)
    | F15_SID_STAR | F15_STAR => self (CErrSync nt 54)
    | F15_SPEED_ALTITUDE_ALTITUDE | F15_SPEED_ALTITUDE_PLUS => self (CErrSync nt 9)
    | F15_TOO_LONG => self (CErrSync nt 4)
    | F15_STAY_TIME => self (CErrSync nt 10)
    | F15_SID => self (CErrSync nt 30)
    end).

(** Assignment of both types of a record, as at F15Parse.py:1434-1438, 1464-1468,
    1475-1479, 1503-1507. *)
Definition retype (b : base_type) (sb : sub_type) (r : rrec) : rrec := set_r_sub sb (set_r_base b r).

(** F15Parse.py:1416-1441 *)
Definition b_sid (t : token) : M unit :=
  add_record t ;;;
  n <- n_elems ;;
  if n =? 2 then
    o <- elem_at 1 ;; i <- deref o ;; r <- rd i ;;
    upd i (retype F15_SID (if pstr_eqb (r_name r) ($"SID") then F15_SB_SID_LITERAL else F15_SB_SID)) ;;;
    self CPostSid
  else self (CErrSync t 30).

(** F15Parse.py:1443-1481 *)
Definition b_sid_star (t : token) : M unit :=
  oi <- add_record t ;;
  n <- n_elems ;;
  if n =? 2 then
    i <- deref oi ;;
    upd i (retype F15_SID (if pstr_eqb (t_text t) ($"SID") then F15_SB_SID_LITERAL else F15_SB_SID)) ;;;
    self CPostSid
  else
    pk <- tok_peek 1 ;;
    match pk with
    | None =>
        i <- deref oi ;;
        upd i (retype F15_STAR (if pstr_eqb (t_text t) ($"STAR") then F15_SB_STAR_LITERAL else F15_SB_STAR))
    | Some nt => self (CErrSync nt 34)
    end.

(** F15Parse.py:1483-1509 *)
Definition b_star (t : token) : M unit :=
  oi <- add_record t ;;
  pk <- tok_peek 1 ;;
  match pk with
  | None =>
      i <- deref oi ;;
      upd i (retype F15_STAR (if pstr_eqb (t_text t) ($"STAR") then F15_SB_STAR_LITERAL else F15_SB_STAR))
  | Some nt => self (CErrSync nt 34)
  end.

(** F15Parse.py:1511-1549 *)
Definition b_stay (t : token) : M unit :=
  o <- tok_next ;;
  match o with
  | None => self (CErrSync t 35)
  | Some nt =>
      if negb (base_eqb (t_base nt) F15_SLASH) then self (CErrSync nt 36)
      else
        o2 <- tok_next ;;
        match o2 with
        | None => self (CErrSync nt 37)
        | Some nt2 =>
            if negb (base_eqb (t_base nt2) F15_STAY_TIME) then self (CErrSync nt2 38)
            else self (CStayTime nt2)
        end
  end.

(** F15Parse.py:1551-1603 *)
Definition b_stay_time (t : token) : M unit :=
  o <- last_elem ;; i <- deref o ;; r <- rd i ;;
  r' <- lift (set_stay_time (t_text t) r) ;;
  upd i (fun _ => r') ;;;
  next_or_return (fun nt =>
    match t_base nt with
    | F15_UNKNOWN => self (CErrSync nt 3)
    | F15_BREAK_START => self (CBreakStart nt)
    | F15_BREAK_END => self (CBreakEndError nt)
    | F15_DCT => self (CDct nt)
    | F15_TRUNCATE => self CTruncate
    | F15_C => self (CCruiseC nt)
    | F15_POINT => self (CPoint nt)
    | F15_ROUTE => self (CRoute nt)
    | F15_SID_STAR => self (CSidStar nt)
    | F15_TOO_LONG => self (CErrSync nt 4)
    | F15_SID => self (CSid nt)
    | F15_STAR => self (CStar nt)
    | _ => self (CErrSync nt 39)
    end).

(** F15Parse.py:1605-1620 *)
Definition b_truncate : M unit := next_or_return (fun nt => self (CErrSync nt 19)).

(** F15Parse.py:1622-1655 *)
Definition b_v_to_i : M unit :=
  ot <- tok_next ;; t <- deref ot ;;
  oi <- add_record t ;;
  check_point_semantics t ;;;
  i <- deref oi ;; upd i (set_r_rules RULE_I) ;;;
  tok_next ;;;
  ot <- tok_next ;; t <- deref ot ;;
  self (CSpdAlt t).

(** F15Parse.py:1657-1687 *)
Definition b_v_to_i_to_v : M unit :=
  ot <- tok_next ;; t <- deref ot ;;
  oi <- add_record t ;;
  i <- deref oi ;; upd i (set_r_rules RULE_I) ;;;
  tok_next ;;;
  ot <- tok_next ;; t <- deref ot ;;
  self (CSpdVfr t).

Definition body (c : call) : M unit :=
  match c with
  | CErrSync t n => b_add_error_and_re_sync t n
  | CReSync => b_re_sync
  | CSpdAlt t => b_assign_speed_altitude t
  | CSpdAltAlt t => b_assign_speed_altitude_altitude t
  | CSpdAltPlus t => b_assign_speed_altitude_plus t
  | CSpdVfr t => b_assign_speed_vfr t
  | CBreakEnd t => b_break_end t
  | CBreakEndError t => b_break_end_error t
  | CBreakStart t => b_break_start t
  | CBreakText t => b_break_text_save t
  | CCruiseC t => b_cruise_climb_c t
  | CCruisePoint t => b_cruise_climb_point t
  | CDct t => b_dct t
  | CSlash t => b_forward_slash t
  | CPostAdep t => b_post_adep t
  | CPostPoint t => b_post_point t
  | CPostSid => b_post_sid
  | CPoint t => b_point t
  | CRoute t => b_route t
  | CSid t => b_sid t
  | CSidStar t => b_sid_star t
  | CStar t => b_star t
  | CStay t => b_stay t
  | CStayTime t => b_stay_time t
  | CTruncate => b_truncate
  | CVtoI => b_v_to_i
  | CVtoItoV => b_v_to_i_to_v
  end.
End Bodies.

(** Count one method invocation. *)
Definition tick : M unit := fun s => Ok tt (mkSt (s_toks s) (s_ers s) (S (s_calls s))).

(** [depth] is the number of further nested parser-method calls the interpreter
    allows; running out raises RecursionError.  (Helper calls such as add_record
    return before the next method call; the handful of frames they need is not
    counted.) *)
Fixpoint run (depth : nat) (c : call) : M unit :=
  match depth with
  | O => raise RecursionError
  | S d => tick ;;; body (run d) c
  end.

(** F15Parse.py:1689-1706 assign_syntax_descriptions *)
Definition classify (text : pstr) : base_type * sub_type :=
  if max_token_length <? zlen text then (F15_TOO_LONG, F15_SB_UNKNOWN) else get_token_type text.
Definition assign_syntax (t : token) : token :=
  let '(b, s) := classify (t_text t) in set_token_types t b s.
Definition assign_syntax_descriptions : M unit := fun s =>
  Ok tt (mkSt (mkTokens (map assign_syntax (tk_list (s_toks s))) (tk_cur (s_toks s))) (s_ers s) (s_calls s)).

(** The loops F15Parse.py:116-119, 122-125: does some record have these rules? *)
Definition some_rules (rules : pstr) (l : list rrec) : bool :=
  existsb (fun r => pstr_eqb (r_rules r) rules) l.

(** F15Parse.py:52-128 parse_f15 *)
Definition parse_f15 (depth : nat) : M bool :=
  assign_syntax_descriptions ;;;                                     (* :80 *)
  o <- tok_first ;;                                                  (* :83 *)
  match o with
  | None =>                                                          (* :84-90 *)
      msg <- opt_or KeyError (error_message 41) ;;
      ers_mod (add_error ($"NULL") 0 0 F15_UNKNOWN F15_SB_UNKNOWN msg) ;;;
      append_rec (dummy ($"ADES")) ;;;
      ret false
  | Some t =>
      match t_base t with                                            (* :91-103 *)
      | F15_SPEED_VFR =>
          run depth (CSpdVfr t) ;;;
          o <- first_elem ;; i <- deref o ;; upd i (set_r_rules RULE_V)
      | F15_SPEED_ALTITUDE =>
          run depth (CSpdAlt t) ;;;
          n <- tok_count ;;
          if n =? 1 then run depth (CErrSync t 49) else ret tt
      | _ => run depth (CErrSync t 1)
      end ;;;
      oades <- append_rec (dummy ($"ADES")) ;;                       (* :106 *)
      op <- prev_elem ;;                                             (* :108 *)
      match op with
      | None => e <- n_errors ;; ret (e =? 0)                        (* :109-110 *)
      | Some p =>
          pr <- rd p ;; ades <- deref oades ;; upd ades (set_r_rules (r_rules pr)) ;;;   (* :111 *)
          of_ <- first_elem ;; f <- deref of_ ;; fr <- rd f ;;       (* :114 *)
          (fun s =>
             let l := e_recs (s_ers s) in
             let d := if pstr_eqb (r_rules fr) ($"VFR")
                      then (if some_rules ($"IFR") l then $"Z" else $"V")
                      else (if some_rules ($"VFR") l then $"Y" else $"I") in
             Ok tt (mkSt (s_toks s) (mkErs l (e_errs (s_ers s)) d) (s_calls s))) ;;;                 (* :114-125 *)
          e <- n_errors ;; ret (e =? 0)                              (* :128 *)
      end
  end.

(** The documented usage (Readme.md "Parser Usage", main.py): tokenize with the
    field-15 separators, fresh ERS, parse. *)
Definition parse_field15 (depth : nat) (field : pstr) : out bool :=
  parse_f15 depth (mkSt (tokenize_string f15_whitespace field) new_ers 0).

End WithGeo.
