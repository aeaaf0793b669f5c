(** * Utils: models Utilities/Utils.py and Utilities/Constants.py. *)
From Coq Require Import ZArith NArith List Bool String.
From Coq Require Import Floats.SpecFloat.
From Verif Require Import PyBase PyFloat.
Import ListNotations.
Open Scope Z_scope.

(** Constants.py:4-36 *)
Definition CONSTANT_TEMP_ALTITUDE : Z := 11000.
Definition KELVIN_ZERO : f64 := SFopp (flit 27315 100).
Definition ISA_TEMP : f64 := flit 15 1.
Definition TEMP_LAPSE_RATE_METER : f64 := SFopp (flit 645 100000).
Definition FEET_TO_METERS : f64 := flit 3048 10000.
Definition KNOTS_TO_METERS_SECOND : f64 := flit 514444 1000000.
Definition KMH_TO_METERS_SECOND : f64 := flit 2777778 10000000.
Definition MACH_TO_METERS_SECOND : f64 := flit 343 1.
Definition NM_TO_METERS : Z := 1852.

(** Utils.py:14-22 *)
Definition is_degree_semantics (degrees : pstr) (max_degrees : Z) : exn + bool :=
  match py_int degrees with
  | None => inl ValueError
  | Some d => inr (d <=? max_degrees)
  end.

(** Utils.py:25-46 *)
Definition is_degree_minute_semantics (dm : pstr) (max_degrees split : Z) : exn + bool :=
  match py_int (slice dm (Some 0) (Some split)) with
  | None => inl ValueError
  | Some d =>
      if max_degrees <? d then inr false                       (* :36-38 *)
      else match py_int (slice dm (Some split) None) with
           | None => inl ValueError
           | Some m =>
               if 59 <? m then inr false                       (* :39-41 *)
               else match py_int dm with
                    | None => inl ValueError
                    | Some v => inr (negb (max_degrees * 100 <? v))  (* :42-46 *)
                    end
           end
  end.

(** Utils.py:49-66.  The argument is an int (all callers pass an int or the default
    0.0, which does not reach this function). *)
Definition speed_of_sound_at_altitude (altitude_in_meters : Z) : exn + f64 :=
  let altitude_temp :=
    if CONSTANT_TEMP_ALTITUDE <? altitude_in_meters
    then fadd ISA_TEMP (fmul (f_of_Z CONSTANT_TEMP_ALTITUDE) TEMP_LAPSE_RATE_METER)
    else fadd ISA_TEMP (fmul (f_of_Z altitude_in_meters) TEMP_LAPSE_RATE_METER) in
  let ratio := fdiv (fsub altitude_temp KELVIN_ZERO) (fabs KELVIN_ZERO) in
  match py_sqrt ratio with
  | inl e => inl e
  | inr r => inr (fmul (flit 33115 100) r)
  end.

(** Utils.py:69-87.  [mach_number] is an int here (F15Parse.py:441,451); int/int true
    division is correctly rounded, and both operands are below 2^53. *)
Definition mach_to_ms_speed (mach_number : Z) (altitude_si : Z) : exn + f64 :=
  if altitude_si =? 0
  then inr (fmul (fdiv (f_of_Z mach_number) (f_of_Z 100)) MACH_TO_METERS_SECOND)
  else match speed_of_sound_at_altitude altitude_si with
       | inl e => inl e
       | inr v => inr (fmul (fdiv (f_of_Z mach_number) (f_of_Z 100)) v)
       end.

(** Utils.py:89-123: the two calls into the external library geographiclib
    (Geodesic.WGS84.Direct / Inverse) are an oracle; every theorem quantifies over it. *)
Record geodesic := mkGeo {
  geo_direct : f64 -> f64 -> f64 -> f64 -> f64 * f64;    (* lat lon bearing distance -> lat2 lon2 *)
  geo_inverse : f64 -> f64 -> f64 -> f64 -> f64 * f64    (* lat1 lon1 lat2 lon2 -> azi1 s12 *)
}.
