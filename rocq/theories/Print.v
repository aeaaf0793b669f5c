(** * Print: models the console output: to_string/print_record in ExtractedRouteRecord.py, print_ers in
    ExtractedRouteSequence.py, print_token(s) in Tokenizer/Token.py and Tokens.py.

    [print(x)] appends the text [x] and a newline; the model gives the text written to the console. *)
From Coq Require Import ZArith NArith List Bool String.
From Verif Require Import PyBase PyFloat Enums Tokenizer Ers Xml.
Import List ListNotations.
Local Open Scope list_scope.
Local Open Scope nat_scope.

(** ["{0:>w}".format(s)] and ["{0:<w}".format(s)]: padding with blanks, never a truncation. *)
Definition pad_left (w : nat) (s : pstr) : pstr := repeat 32%N (w - List.length s) ++ s.
Definition pad_right (w : nat) (s : pstr) : pstr := s ++ repeat 32%N (w - List.length s).

(** The text of an *_si attribute in "{0:>6}".format: the default is the float 0.0, else it is an int. *)
Definition fmt_plain (x : pynum) : pstr := match x with PyZeroFloat => $"0.0" | PyInt z => str_of_Z z end.

(** ExtractedRouteRecord.py:502-532.  An IntEnum member is formatted like the int it is. *)
Definition to_string (error : bool) (r : rrec) : pstr :=
  let error_or_break := if error then r_err r else r_break r in
  pad_right 17 (r_name r) ++
  pad_left 6 (str_of_Z (r_start r)) ++
  pad_left 6 (str_of_Z (r_end r)) ++
  pad_left 5 (str_of_Z (base_code (r_base r))) ++
  pad_left 5 (str_of_Z (sub_code (r_sub r))) ++
  pad_left 6 (r_speed r) ++
  pad_left 6 (fmt_plain (r_speed_si r)) ++
  pad_left 6 (r_alt r) ++
  pad_left 6 (fmt_plain (r_alt_si r)) ++
  pad_left 7 (fmt_2f (r_brg r)) ++
  pad_left 11 (fmt_2f (r_dist r)) ++
  pad_left 6 (r_rules r) ++
  pad_left 5 (str_of_Z (r_stay r)) ++
  pad_left 7 (r_cto r) ++
  pad_left 7 (fmt_plain (r_cto_si r)) ++
  pad_left 7 (fmt_2f (r_lat r)) ++
  pad_left 8 (fmt_2f (r_lon r)) ++
  $" " ++ pad_right 91 error_or_break.

(** print(...) *)
Definition print_line (s : pstr) : pstr := s ++ nl.
(** ExtractedRouteRecord.py:478-486 *)
Definition print_record (error : bool) (r : rrec) : pstr := print_line (to_string error r).

(** ExtractedRouteSequence.py:222-261 *)
Definition header_1 : pstr :=
  pad_left 23 ($"Start") ++ pad_left 5 ($"End") ++ pad_left 6 ($"Base") ++ pad_left 5 ($"Sub-") ++ pad_left 11 ($"SI") ++
  pad_left 12 ($"SI") ++ pad_left 30 ($"Stay") ++ pad_left 7 ($"Cruise") ++ pad_left 7 ($"Cruise").
Definition header_2 (error : bool) : pstr :=
  pad_right 9 ($"Name") ++ pad_left 14 ($"Index") ++ pad_left 6 ($"Index") ++ pad_left 5 ($"Type") ++ pad_left 5 ($"Type") ++
  pad_left 6 ($"Speed") ++ pad_left 6 ($"Speed") ++ pad_left 6 ($"Alt.") ++ pad_left 6 ($"Alt.") ++ pad_left 8 ($"Bearing") ++
  pad_left 10 ($"Distance") ++ pad_left 6 ($"Rules") ++ pad_left 6 ($"Time ") ++ pad_left 6 ($"To") ++ pad_left 7 ($"To SI") ++
  pad_left 7 ($"Lat.") ++ pad_left 9 ($"Long ") ++ pad_right 15 (if error then $"Error Text" else $"Break Text").
Definition print_header_lines (error : bool) : pstr := print_line header_1 ++ print_line (header_2 error).

(** ExtractedRouteSequence.py:205-220 *)
Definition print_ers (x : ers) : pstr :=
  print_line ($"Total Number of Extracted Route Records: " ++ str_of_Z (get_number_of_elements x)) ++
  print_header_lines false ++
  flat_map (print_record false) (e_recs x) ++
  print_line (nl ++ $"Total Number of Errors: " ++ str_of_Z (get_number_of_errors x)) ++
  (if (0 <? get_number_of_errors x)%Z then print_header_lines true ++ flat_map (print_record true) (e_errs x) else []).

(** Token.py:135-144 *)
Definition token_line (t : token) : pstr :=
  pad_left 9 (t_text t) ++ pad_left 6 (str_of_Z (t_start t)) ++ pad_left 5 (str_of_Z (t_end t)) ++
  pad_left 5 (str_of_Z (base_code (t_base t))) ++ pad_left 5 (str_of_Z (sub_code (t_sub t))).
(** Tokens.py:152-168 *)
Definition print_tokens (ts : tokens) : pstr :=
  print_line ($"Total Number of Tokens: " ++ str_of_Z (zlen (tk_list ts))) ++
  print_line (pad_left 15 ($"Start") ++ pad_left 5 ($"End") ++ pad_left 6 ($"Base") ++ pad_left 5 ($"Sub-")) ++
  print_line (pad_left 9 ($"Name") ++ pad_left 6 ($"Index") ++ pad_left 6 ($"Index") ++ pad_left 5 ($"Type") ++ pad_left 5 ($"Type")) ++
  flat_map (fun t => print_line (token_line t)) (tk_list ts).
