(** * Ers: models F15_Parser/ExtractedRouteRecord.py and F15_Parser/ExtractedRouteSequence.py. *)
From Coq Require Import ZArith NArith List Bool String.
From Coq Require Import Floats.SpecFloat.
From Verif Require Import PyBase PyFloat Enums.
Import ListNotations.
Open Scope Z_scope.

(** ExtractedRouteRecord.py:18-79: the attributes of a record.  The trivial getters
    (:126-284) are the projections. *)
Record rrec := mkR {
  r_name : pstr;
  r_start : Z;
  r_end : Z;
  r_base : base_type;
  r_sub : sub_type;
  r_alt : pstr;
  r_alt_si : pynum;
  r_speed : pstr;
  r_speed_si : pynum;
  r_break : pstr;
  r_rules : pstr;
  r_err : pstr;
  r_stay : Z;
  r_cto : pstr;
  r_cto_si : pynum;
  r_lat : f64;
  r_lon : f64;
  r_brg : f64;
  r_dist : f64;
  r_llv : bool }.

(** set_name: ExtractedRouteRecord.py:420-427 *)
Definition set_r_name (v : pstr) (r : rrec) : rrec :=
  mkR v (r_start r) (r_end r) (r_base r) (r_sub r) (r_alt r) (r_alt_si r) (r_speed r) (r_speed_si r) (r_break r) (r_rules r) (r_err r) (r_stay r) (r_cto r) (r_cto_si r) (r_lat r) (r_lon r) (r_brg r) (r_dist r) (r_llv r).
(** set_base_type: ExtractedRouteRecord.py:326-334 *)
Definition set_r_base (v : base_type) (r : rrec) : rrec :=
  mkR (r_name r) (r_start r) (r_end r) v (r_sub r) (r_alt r) (r_alt_si r) (r_speed r) (r_speed_si r) (r_break r) (r_rules r) (r_err r) (r_stay r) (r_cto r) (r_cto_si r) (r_lat r) (r_lon r) (r_brg r) (r_dist r) (r_llv r).
(** set_sub_type: ExtractedRouteRecord.py:468-476 *)
Definition set_r_sub (v : sub_type) (r : rrec) : rrec :=
  mkR (r_name r) (r_start r) (r_end r) (r_base r) v (r_alt r) (r_alt_si r) (r_speed r) (r_speed_si r) (r_break r) (r_rules r) (r_err r) (r_stay r) (r_cto r) (r_cto_si r) (r_lat r) (r_lon r) (r_brg r) (r_dist r) (r_llv r).
(** set_altitude: ExtractedRouteRecord.py:287-294 *)
Definition set_r_alt (v : pstr) (r : rrec) : rrec :=
  mkR (r_name r) (r_start r) (r_end r) (r_base r) (r_sub r) v (r_alt_si r) (r_speed r) (r_speed_si r) (r_break r) (r_rules r) (r_err r) (r_stay r) (r_cto r) (r_cto_si r) (r_lat r) (r_lon r) (r_brg r) (r_dist r) (r_llv r).
(** set_altitude_si: ExtractedRouteRecord.py:317-324 *)
Definition set_r_alt_si (v : pynum) (r : rrec) : rrec :=
  mkR (r_name r) (r_start r) (r_end r) (r_base r) (r_sub r) (r_alt r) v (r_speed r) (r_speed_si r) (r_break r) (r_rules r) (r_err r) (r_stay r) (r_cto r) (r_cto_si r) (r_lat r) (r_lon r) (r_brg r) (r_dist r) (r_llv r).
(** set_speed: ExtractedRouteRecord.py:430-437 *)
Definition set_r_speed (v : pstr) (r : rrec) : rrec :=
  mkR (r_name r) (r_start r) (r_end r) (r_base r) (r_sub r) (r_alt r) (r_alt_si r) v (r_speed_si r) (r_break r) (r_rules r) (r_err r) (r_stay r) (r_cto r) (r_cto_si r) (r_lat r) (r_lon r) (r_brg r) (r_dist r) (r_llv r).
(** set_speed_si: ExtractedRouteRecord.py:439-446 *)
Definition set_r_speed_si (v : pynum) (r : rrec) : rrec :=
  mkR (r_name r) (r_start r) (r_end r) (r_base r) (r_sub r) (r_alt r) (r_alt_si r) (r_speed r) v (r_break r) (r_rules r) (r_err r) (r_stay r) (r_cto r) (r_cto_si r) (r_lat r) (r_lon r) (r_brg r) (r_dist r) (r_llv r).
(** set_break_text: ExtractedRouteRecord.py:345-354 *)
Definition set_r_break (v : pstr) (r : rrec) : rrec :=
  mkR (r_name r) (r_start r) (r_end r) (r_base r) (r_sub r) (r_alt r) (r_alt_si r) (r_speed r) (r_speed_si r) v (r_rules r) (r_err r) (r_stay r) (r_cto r) (r_cto_si r) (r_lat r) (r_lon r) (r_brg r) (r_dist r) (r_llv r).
(** set_flight_rules: ExtractedRouteRecord.py:384-390 *)
Definition set_r_rules (v : pstr) (r : rrec) : rrec :=
  mkR (r_name r) (r_start r) (r_end r) (r_base r) (r_sub r) (r_alt r) (r_alt_si r) (r_speed r) (r_speed_si r) (r_break r) v (r_err r) (r_stay r) (r_cto r) (r_cto_si r) (r_lat r) (r_lon r) (r_brg r) (r_dist r) (r_llv r).
(** set_error_text: ExtractedRouteRecord.py:375-381 *)
Definition set_r_err (v : pstr) (r : rrec) : rrec :=
  mkR (r_name r) (r_start r) (r_end r) (r_base r) (r_sub r) (r_alt r) (r_alt_si r) (r_speed r) (r_speed_si r) (r_break r) (r_rules r) v (r_stay r) (r_cto r) (r_cto_si r) (r_lat r) (r_lon r) (r_brg r) (r_dist r) (r_llv r).
(** the assignment in set_stay_time: ExtractedRouteRecord.py:459-466 *)
Definition set_r_stay (v : Z) (r : rrec) : rrec :=
  mkR (r_name r) (r_start r) (r_end r) (r_base r) (r_sub r) (r_alt r) (r_alt_si r) (r_speed r) (r_speed_si r) (r_break r) (r_rules r) (r_err r) v (r_cto r) (r_cto_si r) (r_lat r) (r_lon r) (r_brg r) (r_dist r) (r_llv r).
(** set_altitude_cruise_to: ExtractedRouteRecord.py:297-304 *)
Definition set_r_cto (v : pstr) (r : rrec) : rrec :=
  mkR (r_name r) (r_start r) (r_end r) (r_base r) (r_sub r) (r_alt r) (r_alt_si r) (r_speed r) (r_speed_si r) (r_break r) (r_rules r) (r_err r) (r_stay r) v (r_cto_si r) (r_lat r) (r_lon r) (r_brg r) (r_dist r) (r_llv r).
(** set_altitude_cruise_to_si: ExtractedRouteRecord.py:307-315 *)
Definition set_r_cto_si (v : pynum) (r : rrec) : rrec :=
  mkR (r_name r) (r_start r) (r_end r) (r_base r) (r_sub r) (r_alt r) (r_alt_si r) (r_speed r) (r_speed_si r) (r_break r) (r_rules r) (r_err r) (r_stay r) (r_cto r) v (r_lat r) (r_lon r) (r_brg r) (r_dist r) (r_llv r).
(** set_latitude: ExtractedRouteRecord.py:392-399 *)
Definition set_r_lat (v : f64) (r : rrec) : rrec :=
  mkR (r_name r) (r_start r) (r_end r) (r_base r) (r_sub r) (r_alt r) (r_alt_si r) (r_speed r) (r_speed_si r) (r_break r) (r_rules r) (r_err r) (r_stay r) (r_cto r) (r_cto_si r) v (r_lon r) (r_brg r) (r_dist r) (r_llv r).
(** set_longitude: ExtractedRouteRecord.py:411-418 *)
Definition set_r_lon (v : f64) (r : rrec) : rrec :=
  mkR (r_name r) (r_start r) (r_end r) (r_base r) (r_sub r) (r_alt r) (r_alt_si r) (r_speed r) (r_speed_si r) (r_break r) (r_rules r) (r_err r) (r_stay r) (r_cto r) (r_cto_si r) (r_lat r) v (r_brg r) (r_dist r) (r_llv r).
(** set_bearing: ExtractedRouteRecord.py:336-343 *)
Definition set_r_brg (v : f64) (r : rrec) : rrec :=
  mkR (r_name r) (r_start r) (r_end r) (r_base r) (r_sub r) (r_alt r) (r_alt_si r) (r_speed r) (r_speed_si r) (r_break r) (r_rules r) (r_err r) (r_stay r) (r_cto r) (r_cto_si r) (r_lat r) (r_lon r) v (r_dist r) (r_llv r).
(** set_distance: ExtractedRouteRecord.py:356-363 *)
Definition set_r_dist (v : f64) (r : rrec) : rrec :=
  mkR (r_name r) (r_start r) (r_end r) (r_base r) (r_sub r) (r_alt r) (r_alt_si r) (r_speed r) (r_speed_si r) (r_break r) (r_rules r) (r_err r) (r_stay r) (r_cto r) (r_cto_si r) (r_lat r) (r_lon r) (r_brg r) v (r_llv r).
(** set_lat_long_valid: ExtractedRouteRecord.py:401-408 *)
Definition set_r_llv (v : bool) (r : rrec) : rrec :=
  mkR (r_name r) (r_start r) (r_end r) (r_base r) (r_sub r) (r_alt r) (r_alt_si r) (r_speed r) (r_speed_si r) (r_break r) (r_rules r) (r_err r) (r_stay r) (r_cto r) (r_cto_si r) (r_lat r) (r_lon r) (r_brg r) (r_dist r) v.

(** ExtractedRouteRecord.py:81-97 with the class defaults of :18-79. *)
Definition new_rec (name : pstr) (s e : Z) (b : base_type) (sb : sub_type) : rrec :=
  mkR name s e b sb [] PyZeroFloat [] PyZeroFloat [] [] [] 0 [] PyZeroFloat
      (S754_zero false) (S754_zero false) (S754_zero false) (S754_zero false) false.

(** ExtractedRouteRecord.py:100-113 *)
Definition append_break_text (t : pstr) (r : rrec) : rrec :=
  if pstr_eqb (r_break r) [] then set_r_break t r
  else set_r_break (r_break r ++ $" " ++ t) r.

(** ExtractedRouteRecord.py:115-124 *)
Definition append_error_text (t : pstr) (r : rrec) : rrec :=
  if pstr_eqb (r_err r) [] then set_r_err t r
  else set_r_err (r_err r ++ $" " ++ t) r.

(** ExtractedRouteRecord.py:459-466 *)
Definition set_stay_time (t : pstr) (r : rrec) : exn + rrec :=
  match py_int (slice t (Some 0) (Some 2)), py_int (slice t (Some 2) None) with
  | Some h, Some m => inr (set_r_stay (h * 60 + m) r)
  | _, _ => inl ValueError
  end.

(** ExtractedRouteSequence.py:10-17 (class attributes) *)
Record ers := mkErs { e_recs : list rrec; e_errs : list rrec; e_rules : pstr }.

(** ExtractedRouteSequence.py:69-76 append_element.  Simplification: the returned
    record is represented by its index (records are never removed). *)
Definition append_element (r : rrec) (x : ers) : ers :=
  mkErs (e_recs x ++ [r]) (e_errs x) (e_rules x).

(** ExtractedRouteSequence.py:30-45 add_dummy_adep_ades / add_dummy_ades *)
Definition dummy (aero : pstr) : rrec := new_rec aero 0 0 F15_POINT F15_SB_PRP_AERO.

(** ExtractedRouteSequence.py:19-28 *)
Definition new_ers : ers := append_element (dummy ($"ADEP")) (mkErs [] [] []).

(** ExtractedRouteSequence.py:48-67: error_message.replace("!", element_text) *)
Definition add_error (text : pstr) (s e : Z) (b : base_type) (sb : sub_type) (msg : pstr) (x : ers) : ers :=
  mkErs (e_recs x)
        (e_errs x ++ [append_error_text (replace_char 33%N text msg) (new_rec text s e b sb)])
        (e_rules x).

(** ExtractedRouteSequence.py:173-186 *)
Definition get_number_of_elements (x : ers) : Z := zlen (e_recs x).
Definition get_number_of_errors (x : ers) : Z := zlen (e_errs x).

(** ExtractedRouteSequence.py:144-152.  [inr None] is None, [inr (Some i)] the record
    at position i; index = number of elements passes the range test and the list
    access raises IndexError. *)
Definition get_element_at (x : ers) (i : Z) : exn + option nat :=
  if (i <? 0) || (get_number_of_elements x <? i) then inr None
  else if i =? get_number_of_elements x then inl IndexError
  else inr (Some (Z.to_nat i)).

(** ExtractedRouteSequence.py:155-160 *)
Definition get_first_element (x : ers) : exn + option nat := get_element_at x 0.
(** ExtractedRouteSequence.py:162-171 *)
Definition get_last_element (x : ers) : exn + option nat :=
  if 0 <? get_number_of_elements x then get_element_at x (get_number_of_elements x - 1) else inr None.
(** ExtractedRouteSequence.py:188-194 *)
Definition get_previous_to_last_element (x : ers) : exn + option nat :=
  get_element_at x (get_number_of_elements x - 2).

(** Attribute assignment through a reference to the record at position [i]. *)
Fixpoint list_upd {A} (i : nat) (f : A -> A) (l : list A) : list A :=
  match l, i with
  | [], _ => []
  | a :: l', O => f a :: l'
  | a :: l', S k => a :: list_upd k f l'
  end.

(** ExtractedRouteRecord.py:488-500 unit_test_only *)
Definition unit_test_only (r : rrec) : pstr :=
  rstrip_spaces (r_name r ++ $" " ++ r_rules r ++ $" " ++ r_speed r ++ $" " ++ r_alt r ++ $" "
                 ++ r_break r ++ $" " ++ r_err r).
