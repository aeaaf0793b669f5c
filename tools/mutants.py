"""Wrong programs: one edit of one definition of the model each, with the claim it breaks."""
MUTANTS = []
def m(file, name, old, new, claim, **kw):
    MUTANTS.append(dict(id="M%03d" % (len(MUTANTS) + 1), file=file + ".v", **{"def": name}, old=old, new=new, claim=claim, **kw))
# -- tokenizer
m("Tokenizer", "save_token", "create_append_token ts text (idx - zlen text) idx", "create_append_token ts text (idx - zlen text) (idx - 1)", "C01")
m("Tokenizer", "save_token", "if 0 <? zlen text then create", "if 1 <? zlen text then create", "C02")
m("Tokenizer", "tokenize_loop", "save_token ts1 [item] (idx + 1)", "save_token ts1 [item] idx", "C01")
m("Tokenizer", "tokenize_loop", "| [] => save_token ts text idx ", "| [] => ts ", "C02")
m("Tokenizer", "f15_whitespace", "[32; 10; 9; 13; 47]%N", "[32; 10; 9; 47]%N", "C50")
m("Tokenizer", "get_token_at", "(zlen (tk_list ts) <=? i)", "(zlen (tk_list ts) - 1 <=? i)", "C05")
m("Tokenizer", "get_previous_token", "mkTokens (tk_list ts) (tk_cur ts - 1)", "mkTokens (tk_list ts) (Z.max 0 (tk_cur ts - 1))", "C05")
m("Tokenizer", "peek_previous_token", "get_token_at ts (tk_cur ts - look_behind)", "get_token_at ts (tk_cur ts - look_behind + 1)", "C05")
m("Tokenizer", "remove_tokens_from_end_of_list", "(Some (split_index + 1))", "(Some split_index)", "C06")
m("Tokenizer", "get_last_token", "mkTokens (tk_list ts) (get_number_of_tokens ts - 1) in", "mkTokens (tk_list ts) (tk_cur ts) in", "C05")
m("PyBase", "list_insert", "firstn k l ++ x :: skipn k l", "firstn (S k) l ++ x :: skipn (S k) l", "C06")
m("PyBase", "slice_bound", "let j := if i <? 0 then i + n else i in", "let j := if i <? 0 then i + n + 1 else i in", "C35 and others")
m("PyBase", "replace_char", "if N.eqb x c then t else [x]", "if N.eqb x c then [x] else [x]", "C20")
m("PyBase", "str_of_N", "nat_digits (S (N.to_nat (N.log2 n))) n []", "nat_digits (N.to_nat (N.log2 n)) n []", "C48 (content of the attributes)")
m("PyFloat", "cents", "if 2 * r <? d then q", "if r <? d then q", "C48 (content of the attributes)")
m("PyFloat", "f_trunc", "Zpos m / 2 ^ (- e)", "Zpos m / 2 ^ (1 - e)", "C30")
# -- syntax
m("Regex", "rems", "| RAlt a b => rems a s ++ rems b s", "| RAlt a b => match rems a s with [] => rems b s | l => l end", "C07")
m("Regex", "rems", "flat_map (may (Nat.sub hi lo)) (must lo s)", "flat_map (may hi) (must lo s)", "C07")
m("Regex", "in_ranges", "(N.leb c (snd p))", "(N.ltb c (snd p))", "C07, C09")
m("SyntaxTable", "f15_configuration", "(\"[A-Z]{1,3}\", F15_POINT", "(\"[A-Z]{2,3}\", F15_POINT", "C09")
m("SyntaxTable", "f15_configuration", "\"[0-9]{4}[NS][0-9]{5}[EW]\"", "\"[0-9]{4}[NS][0-9]{5}[EWN]\"", "C09")
m("SyntaxTable", "f15_configuration", "|2[0-3][0-5][0-9])", "|2[0-4][0-5][0-9])", "C43")
m("SyntaxTable", "f15_configuration", "(\"[A-Z]{1,2}[0-9]\", F15_ROUTE", "(\"[A-Z]{1,2}[0-9]\", F15_SID_STAR", "syntax of ATS routes")
m("SyntaxTable", "f15_configuration", "(\"[A-Z][0-9]{2,3}\", F15_ROUTE", "(\"[A-Z][0-9]{2,4}\", F15_ROUTE", "syntax of ATS routes")
m("SyntaxTable", "f15_configuration", "(\"PTS[0-9]\", F15_ROUTE, F15_SB_PTS)", "(\"PTS[0-9]\", F15_ROUTE, F15_SB_NAT)", "syntax of ATS routes")
m("Parser", "classify", "if max_token_length <? zlen text", "if max_token_length <=? zlen text", "C08")
m("SyntaxTable", "max_token_length", "max_token_length : Z := 25", "max_token_length : Z := 24", "C08")
# -- numbers
m("Utils", "FEET_TO_METERS", "flit 3048 10000", "flit 305 1000", "C30")
m("Utils", "KNOTS_TO_METERS_SECOND", "flit 514444 1000000", "flit 5144 10000", "C30")
m("Utils", "KMH_TO_METERS_SECOND", "flit 2777778 10000000", "flit 27778 100000", "C30")
m("Utils", "TEMP_LAPSE_RATE_METER", "flit 645 100000", "flit 65 10000", "C32")
m("Utils", "ISA_TEMP", "flit 15 1", "flit 16 1", "C32")
m("Utils", "MACH_TO_METERS_SECOND", "flit 343 1", "flit 341 1", "C32")
m("Utils", "speed_of_sound_at_altitude", "flit 33115 100", "flit 33215 100", "C32")
m("Utils", "CONSTANT_TEMP_ALTITUDE", "11000", "12000", "C32")
m("Utils", "NM_TO_METERS", "1852", "1000", "C53")
m("Utils", "mach_to_ms_speed", "(f_of_Z 100)) v)", "(f_of_Z 10)) v)", "C32")
m("Utils", "is_degree_minute_semantics", "if 59 <? m then", "if 60 <? m then", "C36")
m("Utils", "is_degree_minute_semantics", "negb (max_degrees * 100 <? v)", "true", "C36")
m("Utils", "is_degree_semantics", "d <=? max_degrees", "d <? max_degrees", "C36")
m("Parser", "assign_altitude", "a mod 5 =? 0", "a mod 10 =? 0", "C34, C54")
m("Parser", "assign_altitude", "then ret (f_of_Z (a * 10))", "then ret (f_of_Z (a * 100))", "C30")
m("Parser", "assign_altitude", "ret (fmul (f_of_Z (a * 100)) FEET_TO_METERS)", "ret (fmul (f_of_Z a) FEET_TO_METERS)", "C30", nth=1)
m("Parser", "assign_speed", "KMH_TO_METERS_SECOND", "KNOTS_TO_METERS_SECOND", "C30")
m("Parser", "assign_speed", "lift (mach_to_ms_speed sp (num_z (r_alt_si r)))", "lift (mach_to_ms_speed sp 0)", "C32, C31")
m("Parser", "assign_speed", "z <- lift (f_trunc (fadd v (flit 1 2))) ;; upd i (set_r_speed_si".replace(";; upd", ";;\n  upd"), "z <- lift (f_trunc v) ;;\n  upd i (set_r_speed_si", "C30")
m("Parser", "assign_latitude", "if is_letter n_or_s 83", "if is_letter n_or_s 78", "C37")
m("Parser", "assign_longitude", "(fdiv m (flit 60 1))", "(fdiv m (flit 100 1))", "C37", nth=2)
m("Parser", "assign_longitude", "if zlen l <? 5", "if zlen l <? 7", "C37")
m("Parser", "DEFAULT_ALTITUDE", "F050", "F055", "C33")
# -- legs and coordinates
m("Parser", "set_azimuth_and_distance", "(r_lat a) (r_lon a) (r_lat b) (r_lon b)", "(r_lat b) (r_lon b) (r_lat a) (r_lon a)", "C39")
m("Parser", "assign_azimuth_distance_between_points", "oq <- elem_at (n - 3)", "oq <- elem_at (n - 4)", "C39")
m("Parser", "assign_azimuth_distance_between_points", "if r_llv pr then set_azimuth_and_distance p l", "if r_llv pr then set_azimuth_and_distance l p", "C39")
m("Parser", "resolve_real_bd_point", "upd i (set_r_lat la) ;;; upd i (set_r_lon lo) ;;;\n  assign_azimuth", "upd i (set_r_lat lo) ;;; upd i (set_r_lon la) ;;;\n  assign_azimuth", "C53")
m("Parser", "resolve_real_bd_point", "  upd i (set_r_lat la) ;;; upd i (set_r_lon lo) ;;;\n  assign_azimuth_distance_between_points.", "  upd i (set_r_lat la) ;;; upd i (set_r_lon lo).", "C39")
m("Parser", "check_bearing", "(Some (-6)) (Some (-3))) 360", "(Some (-6)) (Some (-3))) 359", "C54, C38")
m("Parser", "resolve_from_text", "d <- py_float_m (slice s (Some (-3)) None)", "d <- py_float_m (slice s (Some (-2)) None)", "C53")
m("Parser", "assign_ll_deg", "(Some 6)) 180", "(Some 6)) 90", "C54, C38")
m("Parser", "assign_ll_deg_min", "upd i (set_r_llv true) ;;;", "", "C53, C39", nth=2)
m("Parser", "assign_lat_long_bearing_distance", "| F15_SB_PRP_BD => check_bearing t s", "| F15_SB_PRP_BD => ret tt", "C54, C38")
m("Parser", "b_v_to_i_to_v", "  oi <- add_record t ;;\n  i <- deref oi ;;", "  oi <- add_record t ;;\n  check_point_semantics t ;;;\n  i <- deref oi ;;", "C54 (repairs C38)")
# -- performance
m("Parser", "carry_speed_altitude_rules_forward", "  r <- rd p ;; upd c (set_r_alt_si (r_alt_si r)) ;;;\n", "", "C28, C31")
m("Parser", "carry_speed_altitude_rules_forward", "upd c (set_r_rules (r_rules r))", "upd c (set_r_rules RULE_I)", "C26")
m("Parser", "b_assign_speed_altitude", "assign_altitude t i (slice s (Some 4) None) false ;;;\n                assign_speed i (slice s (Some 0) (Some 4)) ;;; ret true", "assign_speed i (slice s (Some 0) (Some 4)) ;;;\n                assign_altitude t i (slice s (Some 4) None) false ;;; ret true", "C31 (Mach number with the previous altitude)")
m("Parser", "b_assign_speed_altitude", "        upd i (set_r_rules RULE_I) ;;;\n        next_or_return (fun nt =>\n          n <- n_elems", "        next_or_return (fun nt =>\n          n <- n_elems", "C26")
m("Parser", "b_assign_speed_altitude_altitude", "assign_altitude t i (slice s (Some 11) None) true", "assign_altitude t i (slice s (Some 10) None) true", "C35 (repairs the target)")
m("Parser", "b_assign_speed_altitude_altitude", "assign_altitude t i (slice s (Some 9) None) true ;;;\n                assign_speed i (slice s (Some 0) (Some 5))", "assign_altitude t i (slice s (Some 5) (Some 9)) true ;;;\n                assign_speed i (slice s (Some 0) (Some 5))", "C35")
m("Parser", "b_assign_speed_altitude_plus", "upd i (set_r_cto (slice s (Some 10) None))", "upd i (set_r_cto (slice s (Some 9) None))", "C35")
m("Parser", "b_assign_speed_vfr", "      r <- rd i ;; upd p (set_r_alt (r_alt r)) ;;;\n", "", "C28")
m("Parser", "b_assign_speed_vfr", "set_token_string t ($\"VFR\")", "t", "C52")
m("Parser", "b_assign_speed_vfr", "self (CBreakText nt)", "self (CPostPoint nt)", "C24, C54", nth=1)
# -- break sections
m("Parser", "b_break_end", "if negb (base_eqb (t_base sl) F15_SLASH) then ret tt", "if negb (base_eqb (t_base sl) F15_SLASH) then self (CErrSync rcp 22)", "C24, C54")
m("Parser", "b_break_end", "| None => self (CErrSync rcp 22)", "| None => ret tt", "C24, C54", nth=1)
m("Parser", "b_break_end", "if negb (base_eqb (t_base rcp) F15_POINT) then ret tt", "if negb (base_eqb (t_base rcp) F15_POINT) then tail", "C24, C27")
m("Parser", "b_break_text_save", "pstr_eqb cur RULE_O then self (CBreakEnd t)", "pstr_eqb cur RULE_V then self (CBreakEnd t)", "C24, C26")
m("Parser", "b_break_text_save", "(if base_eqb (t_base t) F15_TOO_LONG then self (CErrSync t 4) else ret tt) ;;;\n  o <-", "o <-", "C54")
m("Ers", "append_break_text", "set_r_break (r_break r ++ $\" \" ++ t) r", "set_r_break (r_break r ++ t) r", "C27")
m("Parser", "b_break_start", "upd i (set_r_rules RULE_S)", "upd i (set_r_rules RULE_O)", "C26")
m("Parser", "b_break_start", "if base_eqb (t_base nt) F15_TOO_LONG then self (CErrSync nt 4) else self (CBreakText nt)", "self (CBreakText nt)", "C54 (a first long word is then also appended to the text)")
m("Parser", "b_break_end_error", "F15_SB_GAT then self (CErrSync t 7)", "F15_SB_GAT then self (CErrSync t 8)", "C54")
# -- sequence of elements
m("Parser", "b_post_point", "| F15_C => self (CCruiseC t)", "| F15_C => self (CErrSync t 9)", "C24, C54", nth=2)
m("Parser", "b_post_point", "if is_ll_or_bd (r_sub r) then self (CErrSync t 47) else self (CRoute t)", "self (CRoute t)", "C41, C54")
m("Parser", "is_ll_or_bd", "sub_eqb s F15_SB_PRP_BD || ", "", "C41, C54")
m("Parser", "b_route", "| F15_DCT => self (CErrSync nt 14)", "| F15_DCT => self (CDct nt)", "C41, C54")
m("Parser", "b_route", "self (CErrSync nt 53)", "self (CErrSync nt 54)", "C54")
m("Parser", "b_dct", "| F15_C => self (CCruiseC nt)", "| F15_C => self (CErrSync nt 21)", "C24, C54", nth=1)
m("Parser", "b_dct", "    | F15_POINT => self (CPoint nt)\n    | F15_C", "    | F15_POINT | F15_ROUTE => self (CPoint nt)\n    | F15_C", "C41, C54")
m("Parser", "b_sid", "if n =? 2 then", "if n <=? 3 then", "C40, C54", nth=1)
m("Parser", "b_star", "| Some nt => self (CErrSync nt 34)", "| Some nt => self (CPostPoint nt)", "C40, C54", nth=2)
m("Parser", "b_sid_star", "retype F15_SID (if pstr_eqb (t_text t)", "retype F15_STAR (if pstr_eqb (t_text t)", "C52, C40")
m("Parser", "b_stay_time", "self (CErrSync nt 39)", "self (CPostPoint nt)", "C24, C54")
m("Ers", "set_stay_time", "h * 60 + m", "h * 100 + m", "C43")
m("Parser", "b_truncate", "self (CErrSync nt 19)", "self CReSync", "C49, C54")
m("Parser", "b_cruise_climb_c", "| None => add_record t ;;; ret tt", "| None => ret tt", "C23, C52")
m("Parser", "b_cruise_climb_c", "| None => add_record t ;;; self (CErrSync nt 52)", "| None => add_record t ;;; ret tt", "C24, C54")
m("Parser", "b_cruise_climb_point", "self (CErrSync nt 26) else ret tt", "self (CErrSync nt 29) else ret tt", "C54")
m("Parser", "b_cruise_climb_point", "  assign_lat_long_bearing_distance t ;;;\n  o <- tok_next", "  o <- tok_next", "C38, C53, C54")
m("Parser", "b_forward_slash", "| None => self (CErrSync t 20)", "| None => ret tt", "C24, C54")
m("Parser", "b_post_adep", "| F15_ROUTE => self (CErrSync t 24)", "| F15_ROUTE => self (CRoute t)", "C24, C54")
m("Parser", "b_post_sid", "| F15_SID => self (CErrSync nt 32)", "| F15_SID => self (CErrSync nt 31)", "C54")
m("Parser", "b_v_to_i", "upd i (set_r_rules RULE_I) ;;;\n  tok_next ;;;\n  ot <- tok_next ;; t <- deref ot ;;\n  self (CSpdAlt t)", "tok_next ;;;\n  ot <- tok_next ;; t <- deref ot ;;\n  self (CSpdAlt t)", "C26")
# -- recovery after errors
m("Parser", "b_re_sync", "| None => self (CErrSync t 25)", "| None => ret tt", "errors after the first one")
m("Parser", "b_re_sync", "| _ => self (CErrSync nt 11)", "| _ => self CReSync", "errors after the first one")
m("Parser", "b_re_sync", "| F15_BREAK_END => self (CBreakEnd t)", "| F15_BREAK_END => self (CBreakEndError t)", "errors after the first one")
m("Parser", "b_re_sync", "| F15_DCT => self (CDct t)", "| F15_DCT => self CReSync", "records after the first error", nth=1)
m("Parser", "b_re_sync", "| F15_UNKNOWN => self (CErrSync t 3)", "| F15_UNKNOWN => self CReSync", "errors after the first one", nth=1)
m("Parser", "b_re_sync", "| F15_TOO_LONG => self (CErrSync t 4)", "| F15_TOO_LONG => self (CErrSync t 3)", "errors after the first one", nth=1)
m("Parser", "b_re_sync", "| F15_POINT => self (CPoint t)", "| F15_POINT => self CReSync", "records after the first error", nth=1)
m("Parser", "b_add_error_and_re_sync", "add_error_no_re_sync t n ;;; self CReSync", "add_error_no_re_sync t n ;;; ret tt", "recovery after errors")
m("Parser", "b_cruise_climb_point", "next_or_return (fun nt3 => self (CPoint nt3))", "ret tt", "records after the first error")
m("Parser", "b_break_end", "(if base_eqb (t_base sp) F15_SPEED_ALTITUDE then self CVtoI", "(if base_eqb (t_base sp) F15_SPEED_VFR then self CVtoI", "C26, C24")
m("Parser", "b_break_end", "self CVtoItoV\n                     else ret tt) ;;;\n                    tail", "self CVtoItoV\n                     else ret tt)", "records after errors")
# -- whole parse, route sequence, XML
m("Parser", "parse_f15", "if n =? 1 then run depth (CErrSync t 49) else ret tt", "ret tt", "C24, C54")
m("Parser", "parse_f15", "o <- first_elem ;; i <- deref o ;; upd i (set_r_rules RULE_V)", "ret tt", "C25, C26")
m("Parser", "parse_f15", "upd ades (set_r_rules (r_rules pr)) ;;;", "", "C25")
m("Parser", "parse_f15", "(if some_rules ($\"IFR\") l then $\"Z\" else $\"V\")", "$\"Z\"", "C25")
m("Parser", "parse_f15", "(if some_rules ($\"VFR\") l then $\"Y\" else $\"I\")", "(if some_rules ($\"OAT\") l then $\"Y\" else $\"I\")", "C25")
m("Parser", "parse_f15", "      append_rec (dummy ($\"ADES\")) ;;;\n      ret false", "      ret false", "C16, C18")
m("Ers", "get_element_at", "(get_number_of_elements x <? i)", "(get_number_of_elements x <=? i)", "C44 (repairs it)")
m("Ers", "new_ers", "dummy ($\"ADEP\")", "dummy ($\"ADES\")", "C16")
m("Ers", "add_error", "append_error_text (replace_char 33%N text msg)", "append_error_text msg", "C20, C54")
m("Ers", "append_error_text", "set_r_err t r\n", "set_r_err ($\" \" ++ t) r\n", "C20, C54")
m("Xml", "rec_attrs", "($\"longitude\", fmt_2f (r_lon r))", "($\"longitude\", fmt_2f (r_lat r))", "C48")
m("Xml", "rec_attrs", "if error then r_err r else r_break r", "r_break r", "C48")
m("Xml", "ers_as_xml", "$\"      \" ++ rec_as_xml v true r ++ nl", "$\"      \" ++ rec_as_xml v false r ++ nl", "C48")
m("Xml", "ers_as_xml", "if 0 <? get_number_of_errors x then", "if 1 <? get_number_of_errors x then", "C48")
m("Xml", "fmt_num", "str_of_Z z ++ $\".00\"", "str_of_Z z", "C48 (content of the attributes)")
m("Parser", "assign_syntax", "set_token_types t b s", "set_token_types t b F15_SB_UNKNOWN", "C45, C20")
m("Parser", "b_stay_time", "upd i (fun _ => r') ;;;", "", "C43")
m("Parser", "b_assign_speed_altitude_plus", "assign_speed i (slice s (Some 0) (Some 4)) ;;; ret true", "ret true", "C28", nth=4)
# -- console output, syntax listing, re-use
m("Print", "to_string", "pad_left 7 (fmt_2f (r_lat r))", "pad_left 8 (fmt_2f (r_lat r))", "console output (C58, C59)")
m("Print", "to_string", "if error then r_err r else r_break r", "if error then r_break r else r_err r", "console output")
m("Print", "print_ers", "if (0 <? get_number_of_errors x)%Z then", "if (1 <? get_number_of_errors x)%Z then", "console output")
m("Print", "token_line", "pad_left 6 (str_of_Z (t_start t))", "pad_left 6 (str_of_Z (t_end t))", "console output of the tokens")
m("Print", "print_tokens", "str_of_Z (zlen (tk_list ts))", "str_of_Z (tk_cur ts)", "console output of the tokens")
m("Print", "pad_left", "repeat 32%N (w - List.length s) ++ s", "repeat 32%N (S w - List.length s) ++ s", "console output")
m("Print", "fmt_plain", "PyZeroFloat => $\"0.0\"", "PyZeroFloat => $\"0\"", "console output")
m("Descriptions", "first_item", "if fullmatch_text (fst (fst x)) text then x else first_item rest text", "if fullmatch_text (fst (fst x)) text then match first_item rest text with ([], _, _) => x | y => y end else first_item rest text", "C68")
m("Descriptions", "first_item", "([], F15_UNKNOWN, F15_SB_UNKNOWN)", "($\".*\", F15_UNKNOWN, F15_SB_UNKNOWN)", "C68")
m("Descriptions", "description_line", "pad_left 4 (str_of_Z (sub_code s))", "pad_left 4 (str_of_Z (base_code b))", "C69")
m("Descriptions", "print_descriptions", "(map item_of_row f15_configuration)", "(map item_of_row (tl f15_configuration))", "C69", nth=2)
m("Tokenizer", "tokenize", "(tokenize_loop (tz_whitespace z) new_tokens 0 [] (tz_string z))", "(tokenize_loop (tz_whitespace z) (tz_tokens z) 0 [] (tz_string z))", "C71")
m("Tokenizer", "set_whitespace", "mkTokenize (tz_string z) w (tz_tokens z)", "mkTokenize (tz_string z) (tz_whitespace z ++ w) (tz_tokens z)", "C50, C71")
m("Tokenizer", "default_whitespace", "[32; 10; 9; 13]%N", "[32; 10; 9; 13; 47]%N", "C50 (default separators)", tightened=["C71_history"])
m("Tokenizer", "tokenize_loop", "if N.eqb item slash then save_token", "if true then save_token", "C02, C50")
m("Tokenizer", "new_token", "mkToken text s e F15_UNKNOWN", "mkToken text s e F15_POINT", "types before parsing", tightened=["C03_specification_is_exact"])
m("Tokenizer", "get_first_token", "let ts' := mkTokens (tk_list ts) 0 in", "let ts' := mkTokens (tk_list ts) 1 in", "C05")
m("Tokenizer", "get_next_token", "(tk_cur ts + 1) in", "(Z.min (tk_cur ts + 1) (zlen (tk_list ts) - 1)) in", "C05")
m("Tokenizer", "insert_token", "(list_insert (tk_list ts) i t) (tk_cur ts)", "(list_insert (tk_list ts) i t) (tk_cur ts + 1)", "C06")
m("Ers", "get_last_element", "if 0 <? get_number_of_elements x then", "if 1 <? get_number_of_elements x then", "C44")
m("Ers", "get_previous_to_last_element", "get_number_of_elements x - 2", "get_number_of_elements x - 1", "C44")
m("Ers", "unit_test_only", "r_break r ++ $\" \" ++ r_err r", "r_err r ++ $\" \" ++ r_break r", "text of unit_test_only", tightened=["C91_summary"])
m("Ers", "set_stay_time", "(Some 0) (Some 2)), py_int (slice t (Some 2) None)", "(Some 0) (Some 2)), py_int (slice t (Some 3) None)", "C43")
m("Ers", "append_error_text", "if pstr_eqb (r_err r) []", "if pstr_eqb (r_break r) []", "append_error_text on a record with a text", tightened=["C93_joined"])
m("Utils", "speed_of_sound_at_altitude", "if CONSTANT_TEMP_ALTITUDE <? altitude_in_meters", "if CONSTANT_TEMP_ALTITUDE <=? altitude_in_meters - 1000", "C32 between 11000 m and 12000 m")
m("Utils", "mach_to_ms_speed", "if altitude_si =? 0", "if altitude_si <? 0", "C32 at altitude 0")
m("Xml", "rec_attrs", "($\"stay_time\", str_of_Z (r_stay r))", "($\"stay_time\", str_of_Z (r_stay r / 60))", "C66 (the XML determines the result)")
m("Xml", "rec_as_xml", "$\">\" ++ r_name r ++", "$\">\" ++ r_speed r ++", "C48, C66")
m("Xml", "ers_as_xml", "flat_map (fun r => $\"   \" ++ rec_as_xml v false r ++ nl) (e_recs x)", "flat_map (fun r => $\"   \" ++ rec_as_xml v false r ++ nl) (rev (e_recs x))", "C48, C66")
# -- legs and cruise-climb in fields with errors
m("Parser", "assign_lat_long_bearing_distance", "assign_azimuth_distance_between_points.", "ret tt.", "C39, C53, C67", nth=1)
m("Parser", "assign_lat_long_bearing_distance", "assign_azimuth_distance_between_points.", "ret tt.", "C39, C53, C67", nth=3)
m("Parser", "set_azimuth_and_distance", "upd p1 (set_r_brg azi) ;;; upd p1 (set_r_dist dist)", "upd p1 (set_r_brg azi) ;;; upd p1 (set_r_dist azi)", "C39")
# -- relations between fields (C72-C87), and definitions not edited so far
m("Parser", "b_point", "o <- last_elem ;; i <- deref o ;; upd i (set_r_rules RULE_I) ;;;\n  check_point_semantics t ;;;", "o <- last_elem ;; i <- deref o ;; upd i (set_r_rules (if pstr_eqb (t_text t) ($\"ZZZ\") then RULE_V else RULE_I)) ;;;\n  check_point_semantics t ;;;", "C82 (one name treated specially)")
m("Parser", "b_route", "| F15_C => self (CCruiseC nt)\n    | F15_POINT =>\n        (if", "| F15_C => if pstr_eqb (t_text t) ($\"UM999\") then self (CErrSync nt 12) else self (CCruiseC nt)\n    | F15_POINT =>\n        (if", "C82, C87 (one route treated specially)")
m("Parser", "b_route", "o <- last_elem ;; i <- deref o ;; upd i (set_r_rules RULE_I) ;;;\n  next_or_return (fun nt =>\n    match t_base nt with\n    | F15_UNKNOWN", "next_or_return (fun nt =>\n    match t_base nt with\n    | F15_UNKNOWN", "C26 (after an error in a VFR section)")
m("Parser", "b_re_sync", "| F15_UNKNOWN => self (CErrSync t 3)\n  | F15_SLASH =>\n      o <- tok_next", "| F15_UNKNOWN => tok_next ;;; self (CErrSync t 3)\n  | F15_SLASH =>\n      o <- tok_next", "C83, C59")
m("Parser", "set_azimuth_and_distance", "upd p1 (set_r_brg azi) ;;; upd p1 (set_r_dist dist)", "(if SFeqb dist (S754_zero false) then upd p1 (set_r_rules RULE_V) else ret tt) ;;; upd p1 (set_r_brg azi) ;;; upd p1 (set_r_dist dist)", "C85")
m("Parser", "assign_ll_deg_min", "(is_degree_minute_semantics (slice s (Some 0) (Some 4)) 90 2)", "(is_degree_minute_semantics (slice s (Some 0) (Some 4)) 89 2)", "C36, C86")
m("Parser", "assign_speed", "else if is_letter ty 78 (* N *) then ret (fmul (f_of_Z sp) KNOTS_TO_METERS_SECOND)", "else if is_letter ty 78 (* N *) then ret (fmul (f_of_Z (sp + r_stay r)) KNOTS_TO_METERS_SECOND)", "C84, C31")
m("Parser", "b_stay_time", "upd i (fun _ => r') ;;;", "upd i (fun x => if r_stay x =? 0 then r' else x) ;;;", "C43 in fields with errors")
m("Parser", "b_stay", "if negb (base_eqb (t_base nt2) F15_STAY_TIME) then self (CErrSync nt2 38)", "if false then self (CErrSync nt2 38)", "C13, C54")
m("Parser", "b_sid", "if n =? 2 then\n    o <- elem_at 1", "if n <=? 3 then\n    o <- elem_at 1", "C24, C40")
m("Parser", "parse_f15", "if n =? 1 then run depth (CErrSync t 49)", "if n =? 2 then run depth (CErrSync t 49)", "C24, C54")
m("Parser", "parse_f15", "then (if some_rules ($\"IFR\") l then $\"Z\" else $\"V\")", "then (if some_rules ($\"OAT\") l then $\"Z\" else $\"V\")", "C25")
m("Parser", "RULE_S", "$\"IFPS\"", "$\"IFPSTOP\"", "C26 (rules in an IFPSTOP section)")
m("Parser", "add_record", "(t_text t) (t_start t) (t_end t) (t_base t) (t_sub t)) ;;\n  carry", "(t_text t) (t_start t) (t_end t + 1) (t_base t) (t_sub t)) ;;\n  carry", "C21")
m("Parser", "assign_syntax_descriptions", "(tk_cur (s_toks s))) (s_ers s)", "(tk_cur (s_toks s))) new_ers", "C47 (parsing into a used ERS)")
m("ErrorTable", "error_messages", "(42, \"Latitude degree value must be 0 to 90", "(42, \"Latitude degree value must be 0 to 80", "text of an error message")
m("ErrorTable", "error_messages", "(53, \"Add crossing point between previous ATS route and '!'\"%string)", "(53, \"Add crossing point between previous ATS route and !!\"%string)", "text of an error message")
m("Ers", "new_rec", "mkR name s e b sb [] PyZeroFloat [] PyZeroFloat", "mkR name s e b sb [] (PyInt 0) [] PyZeroFloat", "defaults of a record")
m("Ers", "dummy", "new_rec aero 0 0 F15_POINT F15_SB_PRP_AERO", "new_rec aero 0 0 F15_POINT F15_SB_PRP", "C16")
m("Ers", "append_element", "mkErs (e_recs x ++ [r])", "mkErs (r :: e_recs x)", "C16, C60")
m("Ers", "get_first_element", "get_element_at x 0", "get_element_at x 1", "C44")
m("Xml", "str_base", "str_of_Z (base_code b)", "str_of_Z (base_code b + 1)", "C48 (types in the XML)")
m("Xml", "str_sub", "$\"TokenSubType.\" ++ sub_name s", "$\"TokenBaseType.\" ++ sub_name s", "C48 (types in the XML)")
m("Xml", "rec_type", "if error then $\"error_record\" else $\"ers_record\"", "$\"ers_record\"", "C48")
m("Enums", "base_code", "| F15_DCT => 5", "| F15_DCT => 6", "codes of the types differ")
m("Enums", "sub_name", "| F15_SB_IFR => $\"F15_SB_IFR\"", "| F15_SB_IFR => $\"F15_SB_VFR\"", "names of the types differ")
m("Print", "header_1", "pad_left 23 ($\"Start\")", "pad_left 22 ($\"Start\")", "console output")
m("Print", "pad_right", "s ++ repeat 32%N (w - List.length s)", "firstn w s ++ repeat 32%N (w - List.length s)", "console output")
m("Tokenizer", "set_string_to_tokenize", "mkTokenize s (tz_whitespace z) (tz_tokens z)", "mkTokenize s default_whitespace (tz_tokens z)", "C71")
m("Tokenizer", "peek_next_token", "get_token_at ts (tk_cur ts + look_ahead)", "get_token_at ts (tk_cur ts + look_ahead - 1)", "C05")
m("Tokenizer", "get_current_token", "get_token_at ts (tk_cur ts).", "get_token_at ts (Z.max 0 (tk_cur ts)).", "C05")
m("PyFloat", "pad2", "if z <? 10 then 48%N :: str_of_Z z else str_of_Z z", "str_of_Z z", "C56")
m("PyFloat", "fmt_2f", "| S754_finite s m e => (if s then $\"-\" else []) ++ body", "| S754_finite s m e => body", "C56")
m("Utils", "KELVIN_ZERO", "flit 27315 100", "flit 273 1", "C32")
m("Descriptions", "get_token_item", "first_item (map item_of_row f15_configuration) text", "first_item (map item_of_row (removelast f15_configuration)) text", "C68")

# -- definitions without a wrong program so far
m("Tokenizer", "append_token", "mkTokens (tk_list ts ++ [t]) (tk_cur ts)", "mkTokens (tk_list ts ++ [t]) 0", "C06")
m("Tokenizer", "set_token_types", "(t_start t) (t_end t) b s", "(t_start t) (t_start t) b s", "C01 after parsing, C21")
m("Tokenizer", "set_token_string", "mkToken x (t_start t) (t_end t) (t_base t) (t_sub t)", "mkToken x (t_start t) (t_end t) F15_UNKNOWN (t_sub t)", "setter of Token")
m("Tokenizer", "new_tokens", "mkTokens [] 0", "mkTokens [] (-1)", "C05 (cursor of a fresh list)")
m("Tokenizer", "new_tokenize", "mkTokenize [] default_whitespace new_tokens", "mkTokenize [] [] new_tokens", "C71")
m("Tokenizer", "get_number_of_tokens", "Z := zlen (tk_list ts).", "Z := zlen (tk_list ts) - tk_cur ts.", "C05")
m("Ers", "get_number_of_errors", "zlen (e_errs x)", "zlen (e_recs x)", "C17")
m("Ers", "set_r_stay", "(r_err r) v (r_cto r)", "(r_err r) v []", "C88, C92")
m("Ers", "set_r_cto", "v (r_cto_si r)", "v PyZeroFloat", "C35")
m("Ers", "set_r_lat", "(r_cto_si r) v (r_lon r)", "(r_cto_si r) v v", "C37")
m("Parser", "rules_lookup", "if pstr_eqb k ($\"O\") then inr RULE_O else", "if pstr_eqb k ($\"O\") then inr RULE_S else", "C26, C90")
m("Parser", "check_point_semantics", "negb (sub_eqb (t_sub t) F15_SB_PRP) && negb", "sub_eqb (t_sub t) F15_SB_PRP_BD && negb", "C36, C37")
m("Parser", "retype", "set_r_sub sb (set_r_base b r)", "set_r_base b r", "C40")
m("Parser", "some_rules", "pstr_eqb (r_rules r) rules) l", "pstr_eqb (r_rules r) rules) (removelast l)", "C25")
m("Parser", "next_or_return", "match o with None => ret tt | Some t => k t end", "match o with None => raise AttributeError | Some t => k t end", "C13")
m("Parser", "add_error_no_re_sync", "(t_base t) (t_sub t) msg)", "F15_UNKNOWN (t_sub t) msg)", "C20")
m("Parser", "is_letter", "pstr_eqb s [c]", "pstr_eqb s [(c + 32)%N]", "C30")
m("Xml", "attr", "$\" \" ++ name", "name", "C48")
m("Enums", "base_name", "F15_SLASH => $\"F15_SLASH\"", "F15_SLASH => $\"F15_DCT\"", "names of the types differ")
m("Enums", "sub_code", "| F15_SB_IFR => 1", "| F15_SB_IFR => 2", "codes of the types differ")
m("ErrorTable", "lookup_msg", "if Z.eqb k n then", "if Z.leb n k then", "C20 (text of the messages)")
m("Syntax", "first_match", "(F15_UNKNOWN, F15_SB_UNKNOWN)", "(F15_POINT, F15_SB_UNKNOWN)", "C07")
m("Print", "print_line", "s ++ nl", "nl ++ s", "console output")
m("Print", "header_2", "if error then $\"Error Text\" else $\"Break Text\"", "if error then $\"Break Text\" else $\"Error Text\"", "console output")
m("Print", "print_header_lines", "print_line header_1 ++ print_line (header_2 error)", "print_line (header_2 error)", "console output")
m("Descriptions", "print_description", "print_line (description_line v x)", "description_line v x", "print_descriptions")
m("PyFloat", "py_sqrt", "| _ => inr (fsqrt f)", "| _ => inr f", "C32")
m("Parser", "b_cruise_climb_point", "self (CSpdAltPlus nt2)", "self (CSpdAltAlt nt2)", "C92, C35")
# -- helpers and setters
m("PyBase", "int_tail", "else if N.eqb c 95 then", "else if N.eqb c 96 then", "C88 (set_stay_time)")
m("PyBase", "is_py_space", "((N.leb 28 c) && (N.leb c 32))", "(N.eqb c 32)", "C88 (set_stay_time)")
m("PyBase", "rstrip_spaces", "rev (lstrip_spaces (rev s))", "s", "C91")
m("Regex", "p_class", "p_class t ((a, b) :: acc)", "p_class t ((a, a) :: (b, b) :: acc)", "C07")
m("Regex", "p_quant", "Some (RRep r m n, t'')", "Some (RRep r m (S n), t'')", "C07")
m("Parser", "elem_at", "get_element_at x i)", "get_element_at x (i - 1))", "C39")
m("Parser", "tok_peek", "peek_next_token (s_toks s) k", "peek_next_token (s_toks s) (k + 1)", "C27")
m("Print", "print_record", "print_line (to_string error r)", "to_string error r", "C63")
m("Ers", "get_number_of_elements", "zlen (e_recs x)", "zlen (e_recs x) - 1", "C95")
m("Setters", "call_token", "mkToken (t_text t) v (t_end t) (t_base t) (t_sub t)", "mkToken (t_text t) v v (t_base t) (t_sub t)", "C93")
m("Setters", "call_record", "| SetLongitude v => inr (set_r_lon v r)", "| SetLongitude v => inr (set_r_lat v r)", "C93")
m("Setters", "call_sequence", "| AddAdes => append_element (dummy ($\"ADES\")) x", "| AddAdes => append_element (dummy ($\"ADEP\")) x", "C95")
m("Setters", "after_call", "inl _ => r end", "inl _ => set_r_stay 0 r end", "C93")
m("Setters", "call_sequence", "| SetDerived v => mkErs (e_recs x) (e_errs x) v", "| SetDerived v => mkErs (e_recs x) [] v", "C95")
m("PyBase", "str_of_Z", "45%N :: str_of_N", "str_of_N", "C56, C66")
m("Ers", "list_upd", "| a :: l', O => f a :: l'", "| a :: l', O => f a :: map f l'", "C28")
m("Parser", "RULE_S", "$\"IFPS\"", "$\"IFPSTOP\"", "C26, C90")
m("Setters", "set_r_end", "(r_start r) v (r_base r)", "v v (r_base r)", "C93")
m("Parser", "parse_field15", "f15_whitespace", "default_whitespace", "C50")
m("Ers", "set_r_dist", "(r_brg r) v (r_llv r)", "v v (r_llv r)", "C39")
m("Ers", "set_r_rules", "(r_break r) v (r_err r)", "[] v (r_err r)", "C27")
m("Parser", "add_record", "carry_speed_altitude_rules_forward ;;;", "ret tt ;;;", "C28")
m("Parser", "RULE_V", "RULE_V : pstr := $\"VFR\"", "RULE_V : pstr := $\"IFR\"", "C25, C26")
m("Parser", "prev_elem", "get_previous_to_last_element", "get_last_element", "C28, C39")
m("Parser", "append_rec", "ers_mod (append_element r) ;;; last_elem", "ers_mod (append_element r) ;;; first_elem", "C21, C52")
m("Parser", "tick", "S (s_calls s)", "s_calls s", "C51")
m("Regex", "fullmatch", "| _ => false", "| _ => true", "C07, C08")
m("Xml", "dq", "[34]%N", "[39]%N", "C48, C76")
m("PyBase", "nat_digits", "N.modulo n 10", "N.modulo n 8", "C56, C66")
m("PyBase", "py_int", "option_map Z.opp (int_unsigned r)", "int_unsigned r", "C30, C37")
m("Ers", "set_r_lon", "(r_lat r) v (r_brg r)", "v v (r_brg r)", "C37, C53")
m("Ers", "set_r_break", "(r_speed_si r) v (r_rules r)", "(r_speed_si r) (r_break r) (r_rules r)", "C27")
m("Tokenizer", "tokenize_string", "set_string_to_tokenize new_tokenize s", "set_string_to_tokenize new_tokenize (py_strip s)", "C01")
m("Ers", "set_r_speed_si", "(r_speed r) v", "(r_speed r) (r_speed_si r)", "C31")
m("Parser", "b_cruise_climb_c", "| F15_SPEED_VFR | F15_SPEED_ALTITUDE => self (CErrSync nt 5)", "| F15_SPEED_VFR | F15_SPEED_ALTITUDE => self (CErrSync nt 9)", "C54, C117", nth=1)
m("Parser", "b_stay", "self (CErrSync nt 36)", "self (CErrSync nt 35)", "C54, C116, C117")
m("Parser", "b_stay", "| None => self (CErrSync nt 37)", "| None => self (CErrSync nt 27)", "C54, C116")
m("Parser", "b_dct", "| _ => self (CErrSync nt 21)", "| _ => self (CErrSync nt 31)", "C54, C117")
m("Parser", "b_forward_slash", "| F15_SLASH => self (CErrSync nt 16)", "| F15_SLASH => self (CErrSync nt 12)", "C54, C117")
m("Parser", "b_break_end_error", "F15_SB_IFPSTART then self (CErrSync t 8)", "F15_SB_IFPSTART then ret tt", "C24, C54, C117")
m("Parser", "b_post_adep", "| F15_BREAK_END | F15_STAY | F15_C => self (CErrSync t 23)", "| F15_BREAK_END | F15_STAY => self (CErrSync t 23)\n  | F15_C => self (CCruiseC t)", "C54, C118 (the restriction to places after the first element)")
m("Parser", "b_route", "| F15_STAY => self (CErrSync nt 15)", "| F15_STAY => self (CErrSync nt 14)", "C54, C117")
