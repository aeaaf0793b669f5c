(** * ErrorTable: ErrorMessages.error_messages, transcribed literally by tools/gen_tables.py
    from F15_Parser/ErrorMessageDefinitions.py:4-61. *)
From Coq Require Import ZArith NArith List String.
From Verif Require Import PyBase.
Import ListNotations.
Open Scope Z_scope.

Definition error_messages : list (Z * string) :=
  [ (0, "ERROR UNDEFINED"%string)
  ; (1, "The first Field 15 element must be a SPEED/LEVEL and not '!'"%string)
  ; (2, "A SPEED/LEVEL element cannot be followed by '!', (i.e. point or SID?)"%string)
  ; (3, "The element '!' is an unrecognised Field 15 element"%string)
  ; (4, "Element '!' is too long for a Field 15 Element"%string)
  ; (5, "Expecting '/' before '!'"%string)
  ; (6, "No VFR section preceding this '!' rule change indicator"%string)
  ; (7, "No OAT section preceding this '!' rule change indicator"%string)
  ; (8, "No IFPSTART preceding this '!' indicator"%string)
  ; (9, "Expecting 'C/POINT/' before '!'"%string)
  ; (10, "Expecting the keyword 'STAY' before '!'"%string)
  ; (11, "'/' not expected preceding '!'"%string)
  ; (12, "Expecting a PRP after an ATS route instead of '!'"%string)
  ; (13, "Rule change '!' cannot occur following an ATS route element"%string)
  ; (14, "Cannot go direct ('!') from an ATS route element, must be preceded by a point"%string)
  ; (15, "'!' must be preceded by a point"%string)
  ; (16, "'!' cannot follow a '/'"%string)
  ; (17, "Expecting SPEED/LEVEL, SPEED/VFR or cruise climb point name after '/' instead of '!'"%string)
  ; (18, "Expecting cruise climb point name before '!'"%string)
  ; (19, "Expecting end of field 15 after truncation indicator 'T' instead od '!'"%string)
  ; (20, "Field 15 is incomplete, expecting additional data after the final '!'"%string)
  ; (21, "A 'DCT' must be followed by a point instead of '!'"%string)
  ; (22, "Expecting '/SPEED/LEVEL' following '!' to complete rule change to IFR"%string)
  ; (23, "The first SPEED/LEVEL cannot be followed by the element '!'"%string)
  ; (24, "Expecting SID or DPF after first SPEED/LEVEL element instead of '!'"%string)
  ; (25, "Field 15 cannot end with the '!' element"%string)
  ; (26, "Expecting '/' after cruise / climb 'C/POINT' instead of '!'"%string)
  ; (27, "Expecting point / speed / altitude / altitude after start of Cruise/Climb indicator 'C/!'"%string)
  ; (28, "Expecting speed / altitude / altitude after start of Cruise/Climb indicator 'C/!/'"%string)
  ; (29, "Expecting Cruise/Climb 'SPEED/ALTITUDE/ALTITUDE' or 'SPEED/ALTITUDE/PLUS' instead of '!'"%string)
  ; (30, "SID '!' must follow the first SPEED/ALTITUDE and cannot appear anywhere else in field 15"%string)
  ; (31, "The SID must be followed by a point or STAR, cannot be followed with '!'"%string)
  ; (32, "The SID cannot be followed by another SID '!'"%string)
  ; (33, "A SID or STAR ('!') must be the first or last tokens in a field 15"%string)
  ; (34, "A STAR must be the last element in field 15 and cannot be followed with '!'"%string)
  ; (35, "Expecting STAY time as '/HHMM' after '!'"%string)
  ; (36, "Expecting forward slash '/' after STAY instead of '!'"%string)
  ; (37, "Time value as HHMM token missing after '!'"%string)
  ; (38, "Expecting HHMM token following STAYx/ element"%string)
  ; (39, "'!' Cannot follow a STAY/HHMM' element"%string)
  ; (40, "The flight level '!' must end in a zero or 5"%string)
  ; (41, "Field 15 is empty"%string)
  ; (42, "Latitude degree value must be 0 to 90 instead of '!'"%string)
  ; (43, "Latitude degree/minute value must be 0 to 9000 with minutes < 60 instead of '!'"%string)
  ; (44, "Longitude degree value must be 0 to 180 instead of '!'"%string)
  ; (45, "Longitude degree/minute value must be 0 to 18000 with minutes < 60 instead of '!'"%string)
  ; (46, "Bearing degree value must be 0 to 360 instead of '!'"%string)
  ; (47, "ATS route '!' cannot follow a Lat/Long point"%string)
  ; (48, "Lat/Long '!' cannot follow an ATS route"%string)
  ; (49, "Field 15 contains no route description"%string)
  ; (50, "Expecting SPEED/LEVEL or SPEED/VFR after '/' instead of '!'"%string)
  ; (52, "Expecting point / speed / altitude / altitude after start of Cruise/Climb indicator 'C!'"%string)
  ; (53, "Add crossing point between previous ATS route and '!'"%string)
  ; (54, "Add APF between previous ATS route and STAR '!'"%string)
  ; (55, "The SPEED/LEVEL '!' cannot follow an ATS route"%string)
  ; (56, ""%string)
  ].

(** [error_messages[n]]: a missing key is KeyError (here [None]). *)
Fixpoint lookup_msg (n : Z) (l : list (Z * string)) : option pstr :=
  match l with
  | [] => None
  | (k, m) :: r => if Z.eqb k n then Some (of_str m) else lookup_msg n r
  end.
Definition error_message (n : Z) : option pstr := lookup_msg n error_messages.
