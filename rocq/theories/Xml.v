(** * Xml: models as_xml in ExtractedRouteRecord.py and ExtractedRouteSequence.py. *)
From Coq Require Import ZArith NArith List Bool String.
From Verif Require Import PyBase PyFloat Enums Ers.
Import ListNotations.
Open Scope Z_scope.

(** str(member) of an IntEnum changed in Python 3.11: before, "Class.MEMBER"; from
    3.11 on, the decimal value.  The model is parametric in the version. *)
Inductive py_version := Py310 | Py311.
Definition str_base (v : py_version) (b : base_type) : pstr :=
  match v with Py310 => $"TokenBaseType." ++ base_name b | Py311 => str_of_Z (base_code b) end.
Definition str_sub (v : py_version) (s : sub_type) : pstr :=
  match v with Py310 => $"TokenSubType." ++ sub_name s | Py311 => str_of_Z (sub_code s) end.

(** ["{0:.2f}".format(x)] for an *_si attribute: ints print with two zero decimals. *)
Definition fmt_num (x : pynum) : pstr :=
  match x with PyZeroFloat => $"0.00" | PyInt z => str_of_Z z ++ $".00" end.

(** The double quote character. *)
Definition dq : pstr := [34]%N.
(** [" name=\"" + value + "\""] *)
Definition attr (name value : pstr) : pstr := $" " ++ name ++ $"=" ++ dq ++ value ++ dq.

(** ExtractedRouteRecord.py:534-570 *)
Definition rec_type (error : bool) : pstr := if error then $"error_record" else $"ers_record".
Definition rec_attrs (v : py_version) (error : bool) (r : rrec) : list (pstr * pstr) :=
  [ ($"start_index", str_of_Z (r_start r));
    ($"end_index", str_of_Z (r_end r));
    ($"base_type", str_base v (r_base r));
    ($"sub_type", str_sub v (r_sub r));
    ($"speed", r_speed r);
    ($"speed_si", fmt_num (r_speed_si r));
    ($"altitude", r_alt r);
    ($"altitude_si", fmt_num (r_alt_si r));
    ($"bearing", fmt_2f (r_brg r));
    ($"distance", fmt_2f (r_dist r));
    ($"flight_rules", r_rules r);
    ($"stay_time", str_of_Z (r_stay r));
    ($"altitude_cruise_to", r_cto r);
    ($"altitude_cruise_to_si", fmt_num (r_cto_si r));
    ($"latitude", fmt_2f (r_lat r));
    ($"longitude", fmt_2f (r_lon r));
    (if error then $"error_text" else $"break_text", if error then r_err r else r_break r) ].
Definition rec_as_xml (v : py_version) (error : bool) (r : rrec) : pstr :=
  $"   <" ++ rec_type error ++
  flat_map (fun p => attr (fst p) (snd p)) (rec_attrs v error r) ++
  $">" ++ r_name r ++ $"</" ++ rec_type error ++ $">".

(** The newline character. *)
Definition nl : pstr := [10]%N.

(** ExtractedRouteSequence.py:78-103 *)
Definition ers_as_xml (v : py_version) (x : ers) : pstr :=
  $"   <ers>" ++ nl ++
  $"      <derived_flight_rules>" ++ e_rules x ++ $"</derived_flight_rules>" ++ nl ++
  flat_map (fun r => $"   " ++ rec_as_xml v false r ++ nl) (e_recs x) ++
  (if 0 <? get_number_of_errors x then
     $"   <ers_errors>" ++ nl ++
     flat_map (fun r => $"      " ++ rec_as_xml v true r ++ nl) (e_errs x) ++
     $"   </ers_errors>" ++ nl
   else []) ++
  $"   </ers>".
