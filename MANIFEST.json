{
 "claims": [
  {
   "property": "C01",
   "status": "proved",
   "theorems": [
    "C01_positions_address_text"
   ],
   "note": "for every source and every separator set"
  },
  {
   "property": "C02",
   "status": "proved",
   "theorems": [
    "C02_ordered_disjoint_covering"
   ],
   "note": "order, disjointness and exact coverage"
  },
  {
   "property": "C03",
   "status": "proved",
   "theorems": [
    "C03_maximal_or_slash",
    "C03_specification_is_exact"
   ],
   "note": "also: the specification determines the token list uniquely"
  },
  {
   "property": "C04",
   "status": "proved",
   "theorems": [
    "C04_blank_splits",
    "C04_slash_splits",
    "C04_word_is_one_token",
    "C04_rejoin",
    "C04_used_tokenizer"
   ],
   "note": ""
  },
  {
   "property": "C05",
   "status": "proved",
   "theorems": [
    "C05_get_token_at_total",
    "C05_enumeration",
    "C05_peek_agrees_with_next",
    "C05_peek_agrees_with_previous",
    "C05_next_prev_inverse",
    "C05_last_token"
   ],
   "note": ""
  },
  {
   "property": "C06",
   "status": "proved",
   "theorems": [
    "C06_insert",
    "C06_remove_keeps_up_to_split",
    "C06_remove_general"
   ],
   "note": ""
  },
  {
   "property": "C07",
   "status": "proved",
   "theorems": [
    "C07_matcher_correct",
    "C07_first_matching_row"
   ],
   "note": "the matcher is proved equal to the textbook language of each pattern"
  },
  {
   "property": "C08",
   "status": "proved",
   "theorems": [
    "C08_too_long",
    "C08_recognised_alphabet"
   ],
   "note": ""
  },
  {
   "property": "C09",
   "status": "proved",
   "theorems": [
    "C09_points",
    "C09_point_sub_types",
    "C09_keywords",
    "C09_literal_meaning"
   ],
   "note": "exact language of each kind of point and of the keywords"
  },
  {
   "property": "C10",
   "status": "proved",
   "theorems": [
    "C10_speed_level",
    "C10_sub_types_name_letters"
   ],
   "note": ""
  },
  {
   "property": "C11",
   "status": "partial",
   "theorems": [
    "C11_cruise_climb_refuted",
    "C11_cruise_climb_partial",
    "C11_exact_language"
   ],
   "note": "FALSE of the code: NAS/NAM rows want 4 digits after A, row KFA is typed KFS (refuted with witnesses); exact language proved, naming proved for the other 45 combinations"
  },
  {
   "property": "C12",
   "status": "partial",
   "theorems": [
    "C12_every_row_live_refuted",
    "C12_other_rows_live_partial"
   ],
   "note": "FALSE of the code: row 38 is shadowed by row 30 (refuted); all other rows proved live"
  },
  {
   "property": "C13",
   "status": "partial",
   "theorems": [
    "C13_never_raises_refuted",
    "C13_never_raises_partial"
   ],
   "note": "FALSE of the code: ValueError for N dddd A dddd (S|M) dddd after C/point/ (refuted); proved that a field without such an element never raises when the recursion limit is at least 3n-1, and that ValueError is the only other outcome"
  },
  {
   "property": "C14",
   "status": "proved",
   "theorems": [
    "C14_depth_linear",
    "C14_exact"
   ],
   "note": "3n-1 nested calls suffice for n tokens, for every token list, and no smaller limit does (C14_exact)"
  },
  {
   "property": "C15",
   "status": "partial",
   "theorems": [
    "C15_unbounded_depth_refuted"
   ],
   "note": "FALSE of the code: for every limit and every n with limit < 3n-1 a field of n tokens raises RecursionError (refuted; exactly the bound of C14)"
  },
  {
   "property": "C16",
   "status": "proved",
   "theorems": [
    "C16_adep_ades"
   ],
   "note": ""
  },
  {
   "property": "C17",
   "status": "proved",
   "theorems": [
    "C17_return_value"
   ],
   "note": ""
  },
  {
   "property": "C18",
   "status": "proved",
   "theorems": [
    "C18_empty_field"
   ],
   "note": "for every recursion limit"
  },
  {
   "property": "C19",
   "status": "proved",
   "theorems": [
    "C19_first_element"
   ],
   "note": ""
  },
  {
   "property": "C20",
   "status": "proved",
   "theorems": [
    "C20_error_records"
   ],
   "note": ""
  },
  {
   "property": "C21",
   "status": "proved",
   "theorems": [
    "C21_records_from_tokens"
   ],
   "note": ""
  },
  {
   "property": "C22",
   "status": "partial",
   "theorems": [
    "C22_source_order_partial",
    "C22_source_order_refuted"
   ],
   "note": "FALSE of the code for rejected fields: a latitude/longitude after an ATS route (error 48) is recorded after its successor (refuted); proved for every accepted field"
  },
  {
   "property": "C23",
   "status": "partial",
   "theorems": [
    "C23_nothing_dropped_partial",
    "C23_all_tokens",
    "C23_nothing_dropped_refuted"
   ],
   "note": "FALSE of the code for rejected fields: re-synchronisation may drop points without trace (refuted); proved for every accepted field"
  },
  {
   "property": "C24",
   "status": "proved",
   "theorems": [
    "C24_accepted_language",
    "C24_only_sentences",
    "C24_unambiguous"
   ],
   "note": "for every recursion limit of at least 3n-1; acceptance by any limit also implies derivability; the grammar is unambiguous"
  },
  {
   "property": "C25",
   "status": "proved",
   "theorems": [
    "C25_rules"
   ],
   "note": ""
  },
  {
   "property": "C26",
   "status": "proved",
   "theorems": [
    "C26_rules"
   ],
   "note": ""
  },
  {
   "property": "C27",
   "status": "proved",
   "theorems": [
    "C27_break_text"
   ],
   "note": ""
  },
  {
   "property": "C28",
   "status": "proved",
   "theorems": [
    "C28_carried_forward"
   ],
   "note": ""
  },
  {
   "property": "C29",
   "status": "partial",
   "theorems": [
    "C29_ades_performance_refuted"
   ],
   "note": "FALSE of the code: no ADES record ever has a speed or an altitude, whatever the field (refuted for all inputs)"
  },
  {
   "property": "C30",
   "status": "proved",
   "theorems": [
    "C30_level_conversion",
    "C30_speed_conversion",
    "C30_conversion_monotone"
   ],
   "note": "nearest integer for every value of the syntax, in spite of binary floating point"
  },
  {
   "property": "C31",
   "status": "proved",
   "theorems": [
    "C31_si_agrees"
   ],
   "note": ""
  },
  {
   "property": "C32",
   "status": "proved",
   "theorems": [
    "C32_speed_of_sound",
    "C32_mach_stored",
    "C32_mach_monotone",
    "C32_sound_value",
    "C32_mach_value",
    "C32_mach_sea_level"
   ],
   "note": ""
  },
  {
   "property": "C33",
   "status": "partial",
   "theorems": [
    "C33_mach_vfr_partial",
    "C33_mach_vfr_refuted"
   ],
   "note": "FALSE of the code: the speed of sound at F050 (1524 m) is used (refuted); proved for all runs that level and speed are those at 1524 m"
  },
  {
   "property": "C34",
   "status": "partial",
   "theorems": [
    "C34_flight_levels_partial",
    "C34_flight_levels_refuted"
   ],
   "note": "FALSE of the code: the target level of a cruise climb with Mach speed or metric first level is not checked (refuted); proved for all other levels, and for the level of every record"
  },
  {
   "property": "C35",
   "status": "partial",
   "theorems": [
    "C35_climb_target_partial",
    "C35_stored_target",
    "C35_climb_target_refuted"
   ],
   "note": "FALSE of the code: with a Mach speed or metric first level the target loses its letter and its value is wrong (refuted); proved for the other cruise climbs, exact stored value proved for all"
  },
  {
   "property": "C36",
   "status": "proved",
   "theorems": [
    "C36_degree_checks"
   ],
   "note": ""
  },
  {
   "property": "C37",
   "status": "proved",
   "theorems": [
    "C37_degrees",
    "C37_degrees_minutes"
   ],
   "note": "whole degrees exact; degrees and minutes within 2^-43 degrees (the sum of two roundings is not always the nearest double)"
  },
  {
   "property": "C38",
   "status": "partial",
   "theorems": [
    "C38_coordinates_partial",
    "C38_coordinates_refuted"
   ],
   "note": "FALSE of the code: a point between IFR and a speed/VFR is not checked (refuted); proved for all other points"
  },
  {
   "property": "C39",
   "status": "partial",
   "theorems": [
    "C39_legs_partial",
    "C39_bearing_distance_refuted",
    "C39_no_leg_refuted"
   ],
   "note": "FALSE of the code: a point without coordinates is skipped, and at most one record may be in between (two refutations); the exact rule is proved for all runs"
  },
  {
   "property": "C40",
   "status": "partial",
   "theorems": [
    "C40_sid_star_partial",
    "C40_sid_star_refuted"
   ],
   "note": "FALSE of the code: the element after C/ may be a SID or a STAR (refuted); proved for all other elements"
  },
  {
   "property": "C41",
   "status": "proved",
   "theorems": [
    "C41_connectors",
    "C41_adjacent_records_refuted"
   ],
   "note": "for elements; adjacent records may still be a coordinate point and an ATS route when a STAY element is between them (witness)"
  },
  {
   "property": "C42",
   "status": "partial",
   "theorems": [
    "C42_recognised_partial",
    "C42_recognised_refuted"
   ],
   "note": "FALSE of the code: the element after C/ may be anything (refuted); proved for all other tokens"
  },
  {
   "property": "C43",
   "status": "proved",
   "theorems": [
    "C43_stays",
    "C43_stays_in_range",
    "C43_stay_time_syntax"
   ],
   "note": "exact syntax; value of each record of an accepted field; range 0 to 1439 for all runs"
  },
  {
   "property": "C44",
   "status": "partial",
   "theorems": [
    "C44_get_element_at_partial",
    "C44_element_at_count",
    "C44_get_element_at_refuted",
    "C44_other_getters"
   ],
   "note": "FALSE of the code: index n raises IndexError for every route sequence (refuted); proved for all other integers"
  },
  {
   "property": "C45",
   "status": "proved",
   "theorems": [
    "C45_tokens_kept"
   ],
   "note": "also when an exception is raised"
  },
  {
   "property": "C46",
   "status": "proved",
   "theorems": [
    "C46_texts_positions",
    "C46_parse_again"
   ],
   "note": "for every ERS"
  },
  {
   "property": "C47",
   "status": "partial",
   "theorems": [
    "C47_never_the_same",
    "C47_reuse_refuted",
    "C47_records_appended",
    "C47_rejected_for_ever"
   ],
   "note": "FALSE of the code: for every pair of fields the records differ (refuted); proved that old records and errors stay and that a rejected sequence rejects every later field"
  },
  {
   "property": "C48",
   "status": "partial",
   "theorems": [
    "C48_well_formed_partial",
    "C48_exactly_when_partial",
    "C48_accepted_partial",
    "C48_well_formed_refuted"
   ],
   "note": "FALSE of the code: error texts 43 and 45 and characters of the field reach the output unescaped (refuted); proved for all fields without characters that need escaping, with the exact condition on the errors"
  },
  {
   "property": "C49",
   "status": "proved",
   "theorems": [
    "C49_truncation"
   ],
   "note": ""
  },
  {
   "property": "C50",
   "status": "proved",
   "theorems": [
    "C50_layout",
    "C50_gaps",
    "C50_around_slash",
    "C50_ends"
   ],
   "note": ""
  },
  {
   "property": "C51",
   "status": "proved",
   "theorems": [
    "C51_linear_work"
   ],
   "note": "six method invocations per token, also when an exception is raised"
  },
  {
   "property": "C52",
   "status": "proved",
   "theorems": [
    "C52_records_are_elements"
   ],
   "note": ""
  },
  {
   "property": "C53",
   "status": "partial",
   "theorems": [
    "C53_coordinates_partial",
    "C53_coordinates_refuted"
   ],
   "note": "FALSE of the code: a latitude/longitude between IFR and a speed/VFR gets no coordinates (refuted); proved for all runs that coordinates of a record are those of its text"
  },
  {
   "property": "C54",
   "status": "proved",
   "theorems": [
    "C54_first_error",
    "C54_names_an_element",
    "C54_fine_sentence",
    "C54_fails"
   ],
   "note": ""
  },
  {
   "property": "C55",
   "status": "proved",
   "theorems": [
    "C55_before_is_viable",
    "C55_rest_cannot_help",
    "C55_missing_at_the_end"
   ],
   "note": ""
  },
  {
   "property": "C56",
   "status": "proved",
   "theorems": [
    "C56_attributes",
    "C56_numeral_unique"
   ],
   "note": ""
  },
  {
   "property": "C57",
   "status": "proved",
   "theorems": [
    "C57_whole_result",
    "C57_raises",
    "C57_machine_stops"
   ],
   "note": ""
  },
  {
   "property": "C58",
   "status": "proved",
   "theorems": [
    "C58_routes",
    "C58_route",
    "C58_procedures",
    "C58_procedure",
    "C58_recognised"
   ],
   "note": ""
  },
  {
   "property": "C59",
   "status": "proved",
   "theorems": [
    "C59_nothing_skipped",
    "C59_without_keywords"
   ],
   "note": ""
  },
  {
   "property": "C60",
   "status": "proved",
   "theorems": [
    "C60_records_in_order"
   ],
   "note": "the exception (message 48) is necessary: C22"
  },
  {
   "property": "C61",
   "status": "proved",
   "theorems": [
    "C61_errors_in_order",
    "C61_unless_48",
    "C61_unless_28"
   ],
   "note": "both exceptions are necessary (theorems)"
  },
  {
   "property": "C62",
   "status": "partial",
   "theorems": [
    "C62_columns_partial",
    "C62_long_names",
    "C62_columns_refuted"
   ],
   "note": "false for names of more than 17 characters (only elements without a recognised type, but also in accepted fields); proved for all others, under the bounds on geographiclib's results in `sane`"
  },
  {
   "property": "C63",
   "status": "partial",
   "theorems": [
    "C63_report",
    "C63_tokens_partial",
    "C63_tokens_refuted"
   ],
   "note": "lines of both reports for every field; the name column of print_tokens (9 wide) is too narrow for 10 characters (refuted)"
  },
  {
   "property": "C64",
   "status": "proved",
   "theorems": [
    "C64_settled"
   ],
   "note": ""
  },
  {
   "property": "C65",
   "status": "proved",
   "theorems": [
    "C65_records",
    "C65_errors",
    "C65_attained"
   ],
   "note": "with the worst case for every n"
  },
  {
   "property": "C66",
   "status": "proved",
   "theorems": [
    "C66_determined"
   ],
   "note": "the other characters are outside C48 anyway"
  },
  {
   "property": "C67",
   "status": "proved",
   "theorems": [
    "C67_complete_result",
    "C67_total"
   ],
   "note": "the accuracy of the doubles is C30-C33, C53"
  },
  {
   "property": "C68",
   "status": "proved",
   "theorems": [
    "C68_row_returned",
    "C68_empty_pattern"
   ],
   "note": ""
  },
  {
   "property": "C69",
   "status": "partial",
   "theorems": [
    "C69_printed_configuration_partial",
    "C69_python_310",
    "C69_printed_configuration_refuted"
   ],
   "note": "from Python 3.11 on; refuted for Python 3.10, with the exact lines there"
  },
  {
   "property": "C70",
   "status": "partial",
   "theorems": [
    "C70_readme_return_value_refuted",
    "C70_return_value_inverted"
   ],
   "note": "refuted for every field; the value is right in the sense of C17"
  },
  {
   "property": "C71",
   "status": "partial",
   "theorems": [
    "C71_history",
    "C71_own_objects",
    "C71_shared_object_refuted"
   ],
   "note": "histories and separate objects for all; a shared object refuted. Granularity: one method call"
  },
  {
   "property": "C72",
   "status": "partial",
   "theorems": [
    "C72_dct_left_out",
    "C72_dct_put_in",
    "C72_same_legs_refuted"
   ],
   "note": "everything but the legs, for all; that the legs stay the same is refuted"
  },
  {
   "property": "C73",
   "status": "proved",
   "theorems": [
    "C73_truncation_left_out"
   ],
   "note": ""
  },
  {
   "property": "C74",
   "status": "proved",
   "theorems": [
    "C74_repeated_speed_left_out",
    "C74_overridden_speed_left_out"
   ],
   "note": ""
  },
  {
   "property": "C75",
   "status": "proved",
   "theorems": [
    "C75_completable",
    "C75_no_continuation"
   ],
   "note": "continuation by further elements, i.e. after a separator"
  },
  {
   "property": "C76",
   "status": "partial",
   "theorems": [
    "C76_one_reading",
    "C76_reads_as_result_partial",
    "C76_hidden_records_refuted"
   ],
   "note": "FALSE of the code (accepted field that hides two points, refuted); proved for all fields without characters that need escaping; a text is at most one element"
  },
  {
   "property": "C77",
   "status": "partial",
   "theorems": [
    "C77_cut",
    "C77_same_legs_refuted"
   ],
   "note": "everything but the legs, for all; that the legs agree is refuted"
  },
  {
   "property": "C78",
   "status": "proved",
   "theorems": [
    "C78_from_point"
   ],
   "note": ""
  },
  {
   "property": "C79",
   "status": "proved",
   "theorems": [
    "C79_join"
   ],
   "note": ""
  },
  {
   "property": "C80",
   "status": "proved",
   "theorems": [
    "C80_refiled",
    "C80_stable"
   ],
   "note": "the writer is `refile` in SpecRefile.v"
  },
  {
   "property": "C81",
   "status": "proved",
   "theorems": [
    "C81_normal_form"
   ],
   "note": ""
  },
  {
   "property": "C82",
   "status": "proved",
   "theorems": [
    "C82_names_only",
    "C82_not_the_bearing"
   ],
   "note": ""
  },
  {
   "property": "C83",
   "status": "proved",
   "theorems": [
    "C83_costs_only_itself",
    "C83_lone_c_lost"
   ],
   "note": "C83_lone_c_lost shows why the place after a lone C is excluded."
  },
  {
   "property": "C84",
   "status": "proved",
   "theorems": [
    "C84_flow",
    "C84_not_any_figures"
   ],
   "note": "C84_not_any_figures shows that the figures must be in order."
  },
  {
   "property": "C85",
   "status": "proved",
   "theorems": [
    "C85_library",
    "C85_library_raises"
   ],
   "note": ""
  },
  {
   "property": "C86",
   "status": "proved",
   "theorems": [
    "C86_notation",
    "C86_in_order"
   ],
   "note": "C86_in_order shows why the figures must be in range."
  },
  {
   "property": "C87",
   "status": "proved",
   "theorems": [
    "C87_route_to_dct",
    "C87_dct_to_route",
    "C87_anywhere_refuted"
   ],
   "note": "C87_anywhere_refuted shows that each restriction is needed."
  },
  {
   "property": "C88",
   "status": "proved",
   "theorems": [
    "C88_stay_left_out",
    "C88_stay_put_in",
    "C88_anywhere_refuted"
   ],
   "note": "C88_anywhere_refuted shows that each restriction is needed."
  },
  {
   "property": "C89",
   "status": "proved",
   "theorems": [
    "C89_level_letters",
    "C89_anywhere_refuted"
   ],
   "note": "C89_anywhere_refuted shows that the exceptions are real."
  },
  {
   "property": "C90",
   "status": "proved",
   "theorems": [
    "C90_exchanged",
    "C90_not_vfr_refuted"
   ],
   "note": "C90_not_vfr_refuted shows that VFR and IFR are different."
  },
  {
   "property": "C91",
   "status": "proved",
   "theorems": [
    "C91_summary",
    "C91_no_blank_at_the_end",
    "C91_of_a_field"
   ],
   "note": ""
  },
  {
   "property": "C92",
   "status": "proved",
   "theorems": [
    "C92_climb_to_change",
    "C92_change_to_climb",
    "C92_anywhere_refuted"
   ],
   "note": "C92_anywhere_refuted shows that the exceptions are real."
  },
  {
   "property": "C93",
   "status": "proved",
   "theorems": [
    "C93_joined",
    "C93_words",
    "C93_empty_text_refuted"
   ],
   "note": "C93_empty_text_refuted: an empty text appended first leaves no blank, one appended later does."
  },
  {
   "property": "C94",
   "status": "proved",
   "theorems": [
    "C94_record",
    "C94_token",
    "C94_sequence",
    "C94_stay",
    "C94_numeral"
   ],
   "note": "All setters of the three classes, called one after the other."
  },
  {
   "property": "C95",
   "status": "proved",
   "theorems": [
    "C95_star_left_out",
    "C95_sid_left_out",
    "C95_star_put_in",
    "C95_sid_put_in",
    "C95_anywhere_refuted"
   ],
   "note": "C95_anywhere_refuted shows that the exceptions are real."
  },
  {
   "property": "C96",
   "status": "proved",
   "theorems": [
    "C96_threshold",
    "C96_same_or_limit",
    "C96_left_behind"
   ],
   "note": ""
  },
  {
   "property": "C97",
   "status": "proved",
   "theorems": [
    "C97_takes",
    "C97_moved",
    "C97_blanks",
    "C97_which"
   ],
   "note": ""
  },
  {
   "property": "C98",
   "status": "proved",
   "theorems": [
    "C98_levels",
    "C98_levels_apart",
    "C98_speeds",
    "C98_machs",
    "C98_apart_refuted"
   ],
   "note": "C98_apart_refuted shows that the strict order holds only where it is stated"
  },
  {
   "property": "C99",
   "status": "proved",
   "theorems": [
    "C99_complete",
    "C99_total",
    "C99_empty",
    "C99_alike",
    "C99_accepted",
    "C99_sid",
    "C99_same_answer_refuted"
   ],
   "note": "C99_same_answer_refuted shows that acceptance into a used sequence is not acceptance on its own, in either direction; C47 is the claim that re-use makes no difference"
  },
  {
   "property": "C100",
   "status": "proved",
   "theorems": [
    "C100_north",
    "C100_east",
    "C100_compare",
    "C100_orderly"
   ],
   "note": "C100_orderly shows that the minutes must be below 60 for equality"
  },
  {
   "property": "C101",
   "status": "partial",
   "theorems": [
    "C101_once_partial",
    "C101_four",
    "C101_together",
    "C101_once_refuted"
   ],
   "note": "refuted in full: both levels of a cruise climb give the same error record (C101_once_refuted); everything else is reported once"
  },
  {
   "property": "C102",
   "status": "partial",
   "theorems": [
    "C102_message",
    "C102_in_use_partial",
    "C102_element_partial",
    "C102_all_in_use_refuted"
   ],
   "note": "refuted in full: messages 0, 2, 17, 18, 33 and 56 are in the table but no field gives them (C102_all_in_use_refuted); the 50 others are shown to occur, each for a field"
  },
  {
   "property": "C103",
   "status": "proved",
   "theorems": [
    "C103_words",
    "C103_any_words_refuted"
   ],
   "note": "The words that do not count are characterised by their type; C103_any_words_refuted shows that each restriction is needed."
  },
  {
   "property": "C104",
   "status": "partial",
   "theorems": [
    "C104_capitals_partial",
    "C104_first",
    "C104_lower",
    "C104_capitals_refuted"
   ],
   "note": "refuted in full: the element after C/ may be anything (C104_capitals_refuted); proved for all other elements, and the other parts without exception"
  },
  {
   "property": "C105",
   "status": "proved",
   "theorems": [
    "C105_mirror"
   ],
   "note": "the positions given by bearing and distance from a latitude and longitude are excluded (the library computes them)"
  },
  {
   "property": "C106",
   "status": "proved",
   "theorems": [
    "C106_set",
    "C106_default",
    "C106_default_matters",
    "C106_list",
    "C106_total",
    "C106_accepted",
    "C106_slash"
   ],
   "note": "the results for lists of tokens need a recursion limit of three times their number (C14)"
  },
  {
   "property": "C107",
   "status": "proved",
   "theorems": [
    "C107_left_out",
    "C107_put_in",
    "C107_rejoin_refuted",
    "C107_rules_refuted"
   ],
   "note": "a VFR section right before another one can matter: its point is not checked (C107_rejoin_refuted); a VFR section changes the flight rules (C107_rules_refuted)"
  },
  {
   "property": "C108",
   "status": "partial",
   "theorems": [
    "C108_after_a_point_partial",
    "C108_end_keyword_refuted",
    "C108_too_long_refuted"
   ],
   "note": "false if a keyword that ends a section comes after the point (C108_end_keyword_refuted) or a word of a section before it is too long (C108_too_long_refuted); proved otherwise, for all fields with and without errors"
  },
  {
   "property": "C109",
   "status": "proved",
   "theorems": [
    "C109_way_back",
    "C109_last_route_refuted"
   ],
   "note": "the condition on the last element is needed: C109_last_route_refuted"
  },
  {
   "property": "C110",
   "status": "proved",
   "theorems": [
    "C110_put_in",
    "C110_left_out",
    "C110_designator_refuted",
    "C110_text_refuted"
   ],
   "note": "both conditions are needed: C110_designator_refuted, C110_text_refuted"
  },
  {
   "property": "C111",
   "status": "proved",
   "theorems": [
    "C111_other_points",
    "C111_routes_fit",
    "C111_beside_route_refuted"
   ],
   "note": "without the condition on routes it is false: C111_beside_route_refuted"
  },
  {
   "property": "C112",
   "status": "proved",
   "theorems": [
    "C112_put_in",
    "C112_left_out",
    "C112_ifr_refuted"
   ],
   "note": "the exception is needed: C112_ifr_refuted"
  },
  {
   "property": "C113",
   "status": "proved",
   "theorems": [
    "C113_first"
   ],
   "note": ""
  },
  {
   "property": "C114",
   "status": "proved",
   "theorems": [
    "C114_cross",
    "C114_ifr_refuted"
   ],
   "note": "the exception is needed: C114_ifr_refuted"
  },
  {
   "property": "C115",
   "status": "proved",
   "theorems": [
    "C115_detour"
   ],
   "note": ""
  },
  {
   "property": "C116",
   "status": "partial",
   "theorems": [
    "C116_advice_partial",
    "C116_end",
    "C116_rule_change",
    "C116_advice_refuted"
   ],
   "note": "messages 9 and 10 give advice that does not help directly after the first speed/level, 10 also after a route (C116_advice_refuted); proved everywhere else"
  },
  {
   "property": "C117",
   "status": "partial",
   "theorems": [
    "C117_told_partial",
    "C117_section_refuted",
    "C117_lat_long_refuted"
   ],
   "note": "messages 6, 7 and 8 deny a section that may be there and 47 and 48 call a bearing and distance point a Lat/Long (C117_section_refuted, C117_lat_long_refuted); all else is proved"
  },
  {
   "property": "C118",
   "status": "proved",
   "theorems": [
    "C118_c_to_point",
    "C118_point_to_c",
    "C118_anywhere_refuted"
   ],
   "note": "with the places where it fails, which the theorems exclude, in C118_anywhere_refuted"
  }
 ]
}