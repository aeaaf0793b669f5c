#!/usr/bin/env python3
"""Writes /verif/properties.jsonl."""
import json
P = []
def p(title, statement, quantifier, why, *anchors):
    P.append(dict(id="C%02d" % (len(P) + 1), title=title, statement=statement, quantifier=quantifier,
                  why_tests_cant=why, anchors=list(anchors)))
TZ = "Tokenizer/Tokenize.py:Tokenize.tokenize"
TK = "Tokenizer/Tokens.py:Tokens"
PF = "F15_Parser/F15Parse.py:ParseF15."
SX = "F15_Parser/F15TokenSyntaxDescriptions.py:"
ES = "F15_Parser/ExtractedRouteSequence.py:ExtractedRouteSequence."
RR = "F15_Parser/ExtractedRouteRecord.py:ExtractedRouteRecord."
UT = "Utilities/Utils.py:Utils."

p("Token positions address the token text",
  "After tokenize(), every token is non-empty, its start and end index satisfy 0 <= start < end <= len(source) and source[start:end] is exactly the token text.",
  "for every source string and every separator string",
  "Tests use a handful of strings; highlighting erroneous tokens in a GUI relies on the indices for arbitrary text and arbitrary runs of separators.",
  TZ, "Tokenizer/Token.py:Token")
p("Tokens are ordered, disjoint and cover exactly the significant characters",
  "Tokens come out in source order without overlap, and a source position is inside some token if and only if its character is not a separator or is a '/'.",
  "for every source string, separator string and position",
  "Losslessness is a statement about every position of every string.",
  TZ)
p("Tokens are maximal and separator-free",
  "Every token is either a lone '/' (only when '/' is one of the separators) or a maximal run of non-separator characters: it contains no separator and is bordered by separators or the ends of the string.",
  "for every source string and separator string",
  "Needs all alignments of separators, slashes and text.",
  TZ)
p("Tokenizing is insensitive to layout",
  "Token texts do not change when the string is re-joined with single spaces and tokenized again, nor when blank separators are inserted next to a separator, at the ends or around '/'; concatenating two strings with a blank in between concatenates their token lists. What a tokenizer object did before has no influence.",
  "for all strings (and for the field-15 separators)",
  "An algebraic law over all strings.",
  TZ)
p("The token cursor enumerates every token once and never raises",
  "get_token_at returns the token for an index in range and None for every other integer; get_first_token followed by get_next_token returns all tokens in order and then None forever; peeking never moves the cursor and sees the token that as many calls of get_next_token or get_previous_token return; get_next_token and get_previous_token undo each other.",
  "for every token list, cursor position, index and look-ahead",
  "Tests step through one ten-element list.",
  TK)
p("insert_token and remove_tokens_from_end_of_list behave as documented",
  "insert_token puts the token before the one at the index and keeps all others in order; remove_tokens_from_end_of_list keeps exactly the tokens with index <= split_index for split_index >= -1 (negative split indices below -1 follow list slicing).",
  "for every token list and integer index",
  "Boundary indices (negative, beyond the end) are infinitely many.",
  TK + ".insert_token", TK + ".remove_tokens_from_end_of_list")
p("A token's type is that of the first table row whose pattern describes the whole text",
  "get_token_type returns the types of the first configuration row whose regular expression denotes a language containing the text, and UNKNOWN exactly when no row does.",
  "for every text",
  "The language of a pattern is infinite or combinatorially large; the specification is the standard denotation of regular expressions, independent of the matcher.",
  SX + "F15TokenSyntaxDefinition.get_token_type")
p("Length and alphabet of recognised tokens",
  "A text longer than 25 characters is always typed TOO_LONG; any recognised token (neither UNKNOWN nor TOO_LONG) has at most 17 characters, all of them A-Z, 0-9 or '/'; in particular lower case or non-ASCII text is never recognised.",
  "for every text over all of Unicode",
  "Quantifies over all strings, including all non-ASCII ones.",
  PF + "assign_syntax_descriptions", SX + "F15TokenSyntaxDefinition")
p("Exact syntax of points",
  "A text is typed as a latitude/longitude in degrees (dd N|S ddd E|W), in degrees and minutes, with or without bearing/distance, as point plus bearing/distance, as an aerodrome (four letters) or as a published point exactly when it has that shape and is not one of the reserved words.",
  "for every text",
  "An if-and-only-if over all strings, including interference from earlier table rows.",
  SX + "F15TokenSyntaxDefinition.F15_SB_CONFIGURATION")
p("Exact syntax of speed/level elements",
  "A text is typed SPEED_ALTITUDE exactly when it is a speed (K or N and four digits, or M and three digits) followed by a level (F or A and three digits, or S or M and four digits), and SPEED_VFR exactly when it is a speed followed by VFR; the sub type names the two letters.",
  "for every text",
  "If-and-only-if over all strings.",
  SX + "F15TokenSyntaxDefinition.F15_SB_CONFIGURATION")
p("Exact syntax of cruise-climb elements",
  "A text is typed as a cruise-climb element with two levels exactly when it is a speed followed by two levels (F or A and three digits, S or M and four digits), for every combination of letters, and the sub type names the three letters.",
  "for every text",
  "There are 48 letter combinations times all digit strings; the suite tries a few.",
  SX + "F15TokenSyntaxDefinition.F15_SB_CONFIGURATION")
p("Every configured row is live",
  "For every row of the configuration table there is a text that get_token_type assigns the types of that row because of that row.",
  "for every row of the table",
  "Deadness of a row is a statement that no string whatsoever reaches it.",
  SX + "F15TokenSyntaxDefinition.F15_SB_CONFIGURATION")
p("Parsing never raises",
  "parse_f15 on a tokenized field-15 string returns a Boolean and raises no exception, provided the interpreter's recursion limit is large enough for the length of the field.",
  "for every field-15 string",
  "Absence of exceptions over all inputs; the error-recovery code has hundreds of paths.",
  PF + "parse_f15", PF + "assign_altitude", PF + "re_sync_parser_after_error")
p("Recursion depth is linear in the number of tokens",
  "Parsing n tokens nests at most a fixed multiple of n parser-method calls, so a recursion limit above that bound suffices for every field with n tokens.",
  "for every token list",
  "A bound for all lengths.",
  PF + "parse_f15", PF + "break_text_save", PF + "post_point")
p("No finite recursion limit suffices for all fields",
  "A route of any length is handled (as the text 'an arbitrary number of tokens' promises): for the interpreter's recursion limit parsing does not fail with RecursionError however long the field is.",
  "for every recursion limit and every field length",
  "Needs inputs longer than any fixed bound.",
  PF + "parse_f15", "Readme.md")
p("The result starts with ADEP and ends with ADES",
  "After parse_f15 with a fresh ERS, the first record is named ADEP and the last ADES, both of type point/aerodrome with indices 0, and every record in between comes from the field.",
  "for every field-15 string for which parsing returns",
  "All inputs, including every error-recovery path.",
  PF + "parse_f15", ES + "add_dummy_adep_ades")
p("The return value is True exactly when there are no error records",
  "parse_f15 returns True if and only if get_all_errors() is empty afterwards; errors once recorded are never removed, so the usage comment 'return value greater than zero means errors' is the wrong way round.",
  "for every field-15 string for which parsing returns",
  "All inputs.",
  PF + "parse_f15", ES + "get_number_of_errors", "main.py", "Readme.md")
p("An empty field is rejected with exactly one error",
  "A field consisting only of blanks, tabs, newlines and carriage returns yields False, exactly the records ADEP and ADES, one error 'Field 15 is empty' on a NULL element and no derived flight rules.",
  "for every string of blank separators of any length",
  "Any number and mixture of blanks.",
  PF + "parse_f15")
p("The first element must be a speed",
  "If the first token is neither a speed/level nor a speed/VFR element the result is False and the first error record points at that token with the message for a wrong first element.",
  "for every field-15 string with at least one token",
  "All inputs.",
  PF + "parse_f15")
p("Every error record points at a field element and has a defined message",
  "Every error record (of a non-empty field) carries the text, indices and types of one token of the field, and its error text is a message of the error table with '!' replaced by that text; the parser never uses an undefined error number.",
  "for every field-15 string for which parsing returns",
  "All inputs and all error paths.",
  PF + "add_error_no_re_sync", ES + "add_error", "F15_Parser/ErrorMessageDefinitions.py:ErrorMessages")
p("Every record comes from a token and no token is recorded twice",
  "Every record between ADEP and ADES carries the indices of one token of the field and its text (or 'VFR' for a speed/VFR element), different records come from different tokens, so there are at most n+2 records for n tokens.",
  "for every field-15 string for which parsing returns",
  "Invariants over all runs including error recovery.",
  PF + "add_record", PF + "assign_speed_vfr")
p("Records appear in source order",
  "The start indices of the records between ADEP and ADES are strictly increasing.",
  "for every field-15 string for which parsing returns",
  "All inputs including error recovery, where the order can silently change.",
  PF + "route", PF + "re_sync_parser_after_error")
p("No element is silently dropped",
  "Every token of the field ends up as a record, in break text, as a modifier applied to a record, as part of a recognised construct, or in an error record.",
  "for every field-15 string for which parsing returns",
  "All inputs including error recovery.",
  PF + "break_end", PF + "re_sync_parser_after_error")
p("The accepted language is the field-15 grammar",
  "parse_f15 returns True if and only if the sequence of typed tokens is derivable in a stated grammar (speed, then SID or points and connectors, modifiers after '/', stays, cruise climbs, break sections, optional STAR, optional T at the end) and the angles and flight levels of its elements are in range.",
  "for every field-15 string",
  "Language equality over all inputs; the grammar is an inductive definition that does not mention the parser.",
  PF + "parse_f15", PF + "post_point", PF + "post_adep", PF + "break_text_save")
p("Flight rules of records and derived rules",
  "Every record's flight rules are IFR, VFR, OAT, IFPS or empty; the derived rules are V, Z, I or Y exactly according to whether the first record is VFR and whether some record is IFR respectively VFR; ADES has the rules of the record before it.",
  "for every non-empty field-15 string for which parsing returns",
  "All inputs.",
  PF + "parse_f15", PF + "carry_speed_altitude_rules_forward")
p("Rules of an accepted field",
  "In an accepted field only break records (VFR, OAT, IFPSTOP, speed/VFR), a VFR ADEP and ADES carry non-IFR rules, and a break record's rules match its keyword.",
  "for every accepted field-15 string",
  "All accepted inputs.",
  PF + "break_start", PF + "point", PF + "assign_speed_vfr")
p("Break text is exactly the text of the break section",
  "In an accepted field the break text of a break record is the space-separated text of the tokens after the break keyword up to the end of the section (including the IFR/GAT/IFPSTART that ends it), and other records have none.",
  "for every accepted field-15 string",
  "All accepted inputs, break sections of any length.",
  PF + "break_text_save", RR + "append_break_text")
p("Speed and altitude are carried forward",
  "In an accepted field every record but ADES has the speed and altitude of the last speed/level modifier at or before it in the field.",
  "for every accepted field-15 string",
  "All accepted inputs with any number of modifiers.",
  PF + "carry_speed_altitude_rules_forward", PF + "assign_speed_altitude")
p("ADES has a speed and an altitude",
  "Once parsing is complete and no errors exist all speed and altitude data is applied to all points, ADES included.",
  "for every accepted field-15 string",
  "Stated in the readme for all accepted fields.",
  PF + "parse_f15", "Readme.md")
p("Speed and level conversion to SI is correctly rounded",
  "For every speed K0000-K9999, N0000-N9999 and every level F000-F999, A000-A999, S0000-S9999, M0000-M9999 the SI value stored is the nearest integer to the exact value (ties up) of the stated conversion factor, in spite of binary floating point; conversions are monotone.",
  "for every numeric value in the syntax",
  "Rounding is checked for all values, at the level of IEEE-754 arithmetic; tests try a few.",
  PF + "assign_altitude", PF + "assign_speed", "Utilities/Constants.py:Constants")
p("Stored strings and SI values agree",
  "In every record the SI altitude is the conversion of the altitude string and the SI speed the conversion of the speed string at that altitude (or all are at their defaults).",
  "for every field-15 string for which parsing returns, every record",
  "An invariant over all runs including error recovery.",
  PF + "assign_speed_altitude", PF + "assign_speed_vfr", PF + "carry_speed_altitude_rules_forward")
p("Speed of sound model",
  "speed_of_sound_at_altitude never fails for non-negative altitudes, never increases with altitude and is constant above 11000 m; its value is 331.15 * sqrt(T / 273.15) with T = 288.15 - 0.00645 * min(altitude, 11000) (to 47 bits of the square). The stored speed of a Mach number is the nearest integer to the Mach number times that speed (343 m/s at altitude 0), and it is monotone in the Mach number.",
  "for every integer altitude >= 0 and every Mach number M000-M999",
  "All altitudes.",
  UT + "speed_of_sound_at_altitude", UT + "mach_to_ms_speed")
p("A Mach number in a speed/VFR element uses the speed of sound at sea level",
  "As documented, the SI speed of a Mach/VFR element is computed with the speed of sound at sea level.",
  "for every accepted field with a Mach/VFR element",
  "Stated for all such elements.",
  PF + "assign_speed", PF + "assign_speed_vfr")
p("Flight levels of an accepted field are multiples of five",
  "In an accepted field every flight level given with F (initial, changed, cruise-climb from and to) is a multiple of 5.",
  "for every accepted field-15 string",
  "All accepted inputs.",
  PF + "assign_altitude", PF + "assign_speed_altitude_altitude")
p("Cruise-climb target level",
  "For a cruise-climb element the record's cruise-to altitude string is the second level of the element and its SI value the conversion of that level.",
  "for every cruise-climb element",
  "48 letter combinations times all digits.",
  PF + "assign_speed_altitude_altitude")
p("Degree and minute checks",
  "is_degree_minute_semantics on a digit string is true exactly when minutes are below 60 and degrees plus minutes do not exceed the maximum; is_degree_semantics exactly when the value does not exceed the maximum.",
  "for every digit string, maximum and split position leaving two minute digits",
  "All strings and maxima.",
  UT + "is_degree_semantics", UT + "is_degree_minute_semantics")
p("Latitude and longitude values",
  "A latitude/longitude point stores degrees plus minutes/60 (correctly computed in double precision), negated for S and W, for latitude and longitude independently.",
  "for every latitude/longitude element",
  "All digit combinations.",
  PF + "assign_latitude", PF + "assign_longitude")
p("Coordinates of an accepted field are in range",
  "In an accepted field every latitude/longitude element has latitude at most 90 degrees, longitude at most 180 degrees, minutes below 60 and bearing at most 360.",
  "for every accepted field-15 string, every point element outside break text",
  "All accepted inputs.",
  PF + "assign_lat_long_bearing_distance", PF + "v_to_i_to_v_rule_change")
p("Bearing and distance join consecutive points with coordinates",
  "A record's bearing and distance are those from that record to the next point of the route when both have coordinates, and zero otherwise.",
  "for every field-15 string and every geodesic library",
  "All inputs; quantifies over the external library's answers.",
  PF + "assign_azimuth_distance_between_points", PF + "set_azimuth_and_distance")
p("SID and STAR positions",
  "In an accepted field a SID can only be the element right after the first speed/level and a STAR only the last element, and a record typed SID (STAR) is exactly such an element.",
  "for every accepted field-15 string",
  "All accepted inputs.",
  PF + "sid", PF + "star", PF + "sid_star")
p("Connector rules of an accepted field",
  "In an accepted field a DCT is followed by a point, a 'C', a 'T' or the end; an ATS route is followed by a point, a 'C', a 'T' or the end, hence never by an ATS route; an ATS route neither follows (apart from speed/level changes) nor precedes a latitude/longitude or bearing/distance point.",
  "for every accepted field-15 string",
  "All accepted inputs.",
  PF + "dct", PF + "route", PF + "post_point")
p("Unknown elements are never accepted outside break text",
  "In an accepted field every token outside break text is a recognised element.",
  "for every accepted field-15 string",
  "All accepted inputs.",
  PF + "cruise_climb_point", PF + "post_point")
p("Stay times",
  "A stay time is recognised exactly for HHMM with HH 00-23 and MM 00-59, the stored time is 60*HH+MM minutes (at most 1439) on the record before the STAY element, and records without STAY have 0.",
  "for every four-digit text and every field-15 string",
  "All inputs.",
  PF + "stay", PF + "stay_time", RR + "set_stay_time")
p("get_element_at returns None out of range",
  "get_element_at(i) returns record i for 0 <= i < n and None for every other integer, as documented.",
  "for every ERS and every integer",
  "All indices.",
  ES + "get_element_at")
p("Parsing does not alter the tokens",
  "parse_f15 leaves number, text and positions of all tokens unchanged and types them by the classification of their text.",
  "for every token list for which parsing returns",
  "All runs.",
  PF + "parse_f15", PF + "assign_speed_vfr")
p("The result depends only on the token texts and positions",
  "The previous cursor position and previously assigned types do not influence the outcome, so parsing the same Tokens object again with a fresh ERS gives the same result.",
  "for every token list",
  "All states of the input object.",
  PF + "parse_f15", TK)
p("An ERS can be re-used",
  "Parsing into an ERS that already holds a parsed route gives the same route as parsing into a fresh one.",
  "for every pair of fields",
  "Claimed in a comment of the constructor for any use.",
  ES + "__init__", PF + "parse_f15")
p("XML output is well-formed",
  "as_xml() of a parsed field is a well-formed XML element whose ers_record children are the records in order and whose error_record children are the errors in order.",
  "for every field-15 string",
  "Arbitrary characters reach the output through break text, names and error texts.",
  ES + "as_xml", RR + "as_xml")
p("Truncation ends the field",
  "In an accepted field nothing follows a truncation indicator 'T' (outside break text).",
  "for every accepted field-15 string",
  "All accepted inputs.",
  PF + "truncate")
p("Layout of the field does not influence the route",
  "Two fields with the same sequence of token texts (different spacing, blanks around '/', line breaks) get the same verdict and the same records and errors up to indices.",
  "for every pair of field-15 strings with equal token texts",
  "A relational property over all pairs of inputs.",
  PF + "parse_f15", TZ)
p("Parsing takes linear work",
  "The number of parser-method invocations is bounded by a fixed multiple of the number of tokens (no exponential or quadratic re-scanning in error recovery).",
  "for every token list",
  "A bound for all lengths and all error patterns.",
  PF + "re_sync_parser_after_error", PF + "break_end")
p("The records of an accepted field are its elements",
  "In an accepted field the records between ADEP and ADES are, in order, those of the elements of the field (points, routes, DCT, SID, STAR, break keywords, speed/VFR, 'C', the element after 'C/'), each with the text, start and end index and type of its element.",
  "for every accepted field-15 string",
  "All accepted inputs; tests compare a few routes.",
  PF + "parse_f15", ES + "append_element")
p("A record has the coordinates its text stands for",
  "Every record of a latitude/longitude element has the coordinates of its text, for an element with bearing and distance the point at that bearing and distance (nautical miles) from them, and no other record has coordinates.",
  "for every field-15 string for which parsing returns, and every geodesic library",
  "All inputs including error recovery, where coordinates could end up in another record; quantifies over the external library's answers.",
  PF + "assign_lat_long_bearing_distance", PF + "resolve_real_bd_point")
p("The first error names the first offending element and its documented message",
  "For every non-empty field the first error record is the one a small automaton over the element types predicts: the first element (in field order) that cannot follow what precedes it, or whose value is out of range, with the message number documented for that situation; there is no error exactly when the automaton finds nothing wrong.",
  "for every field-15 string with at least one token for which parsing returns",
  "Every combination of element types, positions and error messages; tests check one error each for a few routes.",
  PF + "parse_f15", PF + "add_error_and_re_sync")
p("The first error is definitive",
  "What stands before the first reported element is the beginning of some accepted field; every field with the same elements up to the reported one is rejected with the same first error, whatever follows (except for the messages that are about what follows); and when the first error says that something is missing at the end, the field can be continued to an accepted one.",
  "for every rejected field-15 string, and every other string that begins with the same elements",
  "Relates every rejected field to all its continuations.",
  PF + "parse_f15", PF + "add_error_and_re_sync")
p("Numbers in the XML output state the stored values",
  "In the XML output every integer attribute of a record (indices, stay time, types) is the decimal numeral of the stored integer without superfluous zeros, every *_si attribute is that numeral followed by '.00', and every bearing, distance, latitude and longitude is the stored double rounded to the nearest hundredth (ties to even); text attributes are the stored strings.",
  "for every record, every integer and every double (including negative zero, infinities and NaN)",
  "Tests compare the XML of a few routes; the claim is about all values.",
  RR + "as_xml")
p("The whole result of every field, including what follows an error",
  "For every non-empty field all records (name, position, types, flight rules, break text, stay time, speed, level, climb target as text and in metres, whether there are coordinates, in order), all error records (element and message, in order), the verdict, the derived flight rules, and whether ValueError is raised, are those of a small left-to-right reading machine with a stack of expectations; in particular what is read after an error, what is resumed afterwards, and which further errors are reported.",
  "for every field-15 string with at least one token",
  "Error recovery has unboundedly many combinations of errors and resumed contexts; tests look at single errors.",
  PF + "re_sync_parser_after_error", PF + "add_error_and_re_sync", PF + "parse_f15")
p("Routes and procedures are recognised by the form of their designator",
  "A text is an ATS route exactly if it is one or two letters, one to three digits and possibly a letter; the North Atlantic, polar and national route designators and the SID/STAR designators are exactly the documented forms; and the texts that get any type at all are exactly the documented element forms.",
  "for every string",
  "Infinitely many strings; overlapping patterns in a first-match table.",
  SX + "F15TokenSyntaxDefinition.get_token_type", SX + "F15TokenSyntaxDefinition.F15_SB_CONFIGURATION")
p("No element is skipped silently",
  "Whatever errors a field has, every point, route, DCT, procedure, break keyword and unrecognised element appears in the result: as a record or an error record at its place in the field, or in the break text of a record. The only elements that can be missing are those after an IFR, GAT or IFPSTART keyword in a rejected field.",
  "for every field-15 string with at least one token for which parsing returns",
  "Error recovery discards input in many code paths; a test sees one path at a time.",
  PF + "re_sync_parser_after_error", PF + "add_error_and_re_sync")
p("Records are in the order of the field",
  "Also when the field has errors, the records between ADEP and ADES have strictly increasing positions in the field (so no element is recorded twice), unless the message for a latitude/longitude after an ATS route is reported.",
  "for every field-15 string with at least one token for which parsing returns",
  "All combinations of errors and resumed contexts.",
  PF + "re_sync_parser_after_error", PF + "add_error_and_re_sync")
p("Errors are reported in the order of the field",
  "The positions of the error records never decrease, unless the message for a latitude/longitude after an ATS route or the one for a missing speed/level/level of a cruise climb is reported; with these two the order may be another.",
  "for every field-15 string with at least one token for which parsing returns",
  "All combinations of errors and resumed contexts.",
  PF + "re_sync_parser_after_error", PF + "add_error_and_re_sync")
p("The columns of the printed report",
  "In the line that print_ers prints for a record or an error every value (name, indices, types, speed, level, bearing, distance, rules, stay time, climb target, coordinates, text) stands in its own fixed columns and is written exactly; so the report can be read by column. False for elements with more than 17 characters, which also occur in accepted fields.",
  "for every field-15 string of less than a million characters and every geodesic library with results of bounded size",
  "Widths depend on all reachable values of every attribute.",
  RR + "to_string", ES + "print_ers")
p("The lines of the printed report",
  "print_ers prints the number of records, the titles, one line for each record in order, an empty line, the number of errors and, if there are any, the titles and one line for each error in order; no text of the field can add or remove a line. print_tokens prints the number of tokens, the titles and one line for each token in order.",
  "for every field-15 string",
  "Texts of the field are printed as they are; whether they can break lines depends on all of the parser.",
  ES + "print_ers", TK + ".print_tokens")
p("What has been read is settled, whatever follows",
  "A beginning of a field (up to a separator) determines the first records and the first errors of the result for every field that begins so; these show every element of the beginning except those among its last three tokens. Text appended later cannot remove, change or reorder them; only the last of these records may still be completed (speed, rules, text).",
  "for every string and all its continuations for which parsing returns",
  "Quantifies over all continuations of all beginnings, including those with errors.",
  PF + "parse_f15", PF + "re_sync_parser_after_error")
p("The size of the result is bounded by the field",
  "A field of n elements gives at most n + 1 records (n + 2 if it begins with a VFR speed) and at most 3n - 2 errors (2 for a single element); both bounds are attained for every n. So no field makes the parser flood its caller.",
  "for every field-15 string with at least one token for which parsing returns",
  "The worst case over all fields of every length.",
  PF + "add_error_and_re_sync", ES + "append_element")
p("The XML output determines the result",
  "If the results of two fields without special XML characters have the same XML output, they agree in the derived flight rules and, record for record and error for error, in name, positions, types, speed, level, climb target, rules, stay time, texts and SI values, and in bearing, distance and coordinates to two decimals. Nothing of the result is lost or ambiguous in the output.",
  "for all pairs of field-15 strings without <, & and double quotes for which parsing returns, both forms of str() of an enumeration member, and all geodesic libraries",
  "Injectivity over all pairs of results.",
  ES + "as_xml", RR + "as_xml")
p("The extracted route sequence down to the last attribute",
  "For every field the extracted route sequence is a function of the typed tokens and the geodesic library: every attribute of every record (including SI values, climb target in metres, coordinates, bearing and distance) and of every error record, their order, and the derived flight rules are those computed from the reading of the field by a small specification. Nothing else (earlier parses, the recursion limit, the layout) has any influence.",
  "for every field-15 string with at least one token and every geodesic library",
  "Equality of the complete result with an independent function, for unboundedly many fields, most of them with errors.",
  PF + "parse_f15", PF + "assign_lat_long_bearing_distance", PF + "assign_azimuth_distance_between_points")
p("The returned row of the syntax table",
  "get_token_type returns, for every string, the first configured row (pattern, base type, sub type) whose pattern describes the whole string, or, if there is none, the row with an empty pattern and the unknown types; the pattern is the empty string exactly for unknown tokens, as documented.",
  "for every string",
  "All strings against all 116 patterns.",
  SX + "F15TokenSyntaxDefinition.get_token_type")
p("The printed syntax table",
  "print_descriptions prints one line for every configured row, in order, with the pattern, the two types and their numbers in aligned columns. False for Python 3.10, where the qualified name of one base type is wider than its column.",
  "for both forms of str() of an enumeration member and every row",
  "The form of an enumeration member depends on the Python version; a test sees only one.",
  SX + "F15TokenSyntaxDefinition.print_descriptions", SX + "F15TokenSyntaxDefinition.print_description")
p("The return value as the Readme describes it",
  "Readme.md and main.py: errors exist if the value returned by parse_f15 is greater than zero. False: the value is True (1) exactly when there are no errors, so the documented test is wrong for every field.",
  "for every field-15 string for which parsing returns",
  "The error is in the documented use, for all inputs.",
  PF + "parse_f15")
p("Histories of calls on a tokenizer",
  "After any calls on a Tokenize object, get_tokens gives the tokens of the string and separators set last before the last tokenize. With one object per thread every order of the calls gives each thread its own tokens. One object shared by threads (main.py calls the class thread safe) is not safe: a thread can get the tokens of another one's string.",
  "for all sequences of calls and all interleavings of two threads, call by call",
  "All histories and schedules; races do not show up in a test.",
  TZ, "Tokenizer/Tokenize.py:Tokenize.set_string_to_tokenize", "Tokenizer/Tokenize.py:Tokenize.get_tokens")
p("Leaving a DCT out or putting one in",
  "In an accepted field a DCT right before a point (or before a cruise climb, after the first two elements) may be left out, and a DCT may be put in before a point after anything but a route, DCT or SID: the field is still accepted, and the result is the same record for record with exactly the DCT record gone or added, with the same flight rules. That also the bearings and distances stay the same is false: a DCT record takes part in the choice of the next located point.",
  "for every accepted field and every such place in it, every field with the remaining elements in any layout, all geodesic libraries",
  "Relates all accepted fields to all their variants; a test compares a few.",
  PF + "dct", PF + "assign_azimuth_distance_between_points")
p("Leaving out the truncation indicator",
  "In an accepted field of at least three elements the final T may be left out: the field is still accepted and the extracted route sequence is the same but for positions in the field.",
  "for every accepted field ending in T, every layout of the remaining elements, all geodesic libraries",
  "Relates all accepted fields to all their variants.",
  PF + "truncate")
p("Redundant changes of speed and level",
  "A /speed/level that repeats what is in force, and all but the last of several /speed/level at the same point, may be left out of an accepted field without changing the extracted route sequence but for positions in the field (except at the point right after the IFR that ends a VFR section, where it decides that the section ends).",
  "for every accepted field and every such place in it, every layout of the remaining elements, all geodesic libraries",
  "Relates all accepted fields to all their variants.",
  PF + "forward_slash", PF + "assign_speed_altitude")
p("Whether a field can still be completed",
  "The elements of a field are the beginning of some accepted field exactly if its first error is none, or one of the seven messages about something missing at the end, or the message about a missing speed and level at the point where an IFR section goes on and this point is the last or last but one element. So an editor can tell from the first error whether to wait for more input; in all other cases no continuation is accepted.",
  "for every field-15 string, all continuations, every geodesic library",
  "An equivalence that quantifies over all continuations of all strings.",
  PF + "parse_f15", PF + "break_text_save")
p("Well-formed XML output shows the result",
  "If as_xml() of a parsed field can be read as an XML element, the element read is that of the result: its records and errors, all of them, in order. False: texts of the field reach the output unescaped, and an accepted field can put an XML comment around records so that a reader gets a route without them.",
  "for every field-15 string, every XML element as which its output can be read, every geodesic library and both forms of str() of an enumeration member",
  "An attacker chooses the field; tests use harmless ones.",
  ES + "as_xml", RR + "as_xml")
p("Cutting a field",
  "An accepted field cut before a DCT, route, point, break start, cruise climb, SID, STAR or T (outside break text, keeping at least two elements) is accepted, and its records are the records of the field that start before the cut, then ADES; all but positions and legs agree. That the legs agree too is false: they look ahead over the cut.",
  "for every accepted field and every such place in it, every layout of the remaining elements, all geodesic libraries",
  "Relates all accepted fields to all their beginnings.",
  PF + "parse_f15", PF + "break_text_save")
p("The rest of a route from a point on",
  "From a point of an accepted field on (except one right after break text and before a speed/VFR), the rest of the field with the speed and level in force there put before it is again an accepted field. Its records after ADEP are the records of the field from that point on, all but positions and legs. So a flight can be re-filed from a point on.",
  "for every accepted field and every such point in it, every layout of the elements, all geodesic libraries",
  "Relates all accepted fields to all their ends.",
  PF + "parse_f15", PF + "assign_speed_altitude")
p("Joining two fields",
  "Two accepted fields, the second beginning with the speed and level in force at the end of the first and a point, can be joined (leaving out that first element): the result is accepted if the first field does not end in a STAR, T or an open break section, and after a route the point has a name. The records are those of the first field without ADES, then those of the second without ADEP, all but positions and legs.",
  "for every such pair of accepted fields, every layout of the joined elements, all geodesic libraries",
  "Quantifies over all pairs of accepted fields.",
  PF + "parse_f15", PF + "assign_speed_altitude")
p("The extracted route can be filed again",
  "The records extracted from an accepted field determine a field (written from the public getters of the records only: names, types, speeds, levels, rules, break text, stays, climb targets, and whether there are coordinates) that is accepted and from which the same sequence is extracted: same records, speeds, levels, SI values, rules, stays, texts, coordinates and legs, same derived flight rules; only the positions in the text differ. Writing that result out gives the same field. So the sequence loses nothing that the parser knows about the route.",
  "for every accepted field-15 string, every geodesic library",
  "A round trip over all accepted fields; no writer exists in the repository to test with.",
  PF + "parse_f15", ES + "get_all_elements")
p("When two fields describe the same route",
  "The field written from the extracted records is a normal form: two accepted fields yield the same sequence (up to positions) exactly if their normal forms are the same string. So comparing normal forms decides whether two flight plans have the same route as far as the parser can tell.",
  "for all pairs of accepted field-15 strings, every geodesic library",
  "Quantifies over all pairs of accepted fields.",
  PF + "parse_f15", ES + "get_all_elements")
p("Fields that differ in names only",
  "Two fields with the same number of elements, of the same types place by place and with the same texts except for names (of points without coordinates or bearing, routes, SIDs and STARs, STAY0 to STAY9, unrecognised elements), give the same result up to these names and the positions: the same verdict, the same records with the same values, the same error messages about the elements at the same places, the same derived flight rules. So no name is treated specially. For bearings and coordinates this is false and excluded.",
  "for all pairs of field-15 strings of the same form, accepted or not, every geodesic library",
  "Quantifies over all names; tests use a few.",
  PF + "parse_f15", PF + "assign_speed_altitude")
p("An unrecognised element costs only itself",
  "Unrecognised or too long elements put into an accepted field after a complete element (a DCT, route, point, SID, speed and level, or stay time; not the point at which an IFR section goes on) cost nothing else: the parser returns False, the records are those of the field without them, all but positions, the derived flight rules are the same, and the errors are one for each of these elements, in order. After a C that stands alone this is false: the record of the C is lost.",
  "for every accepted field-15 string, every such place in it, any number of unrecognised elements, every layout, every geodesic library",
  "Relates all accepted fields to all their corruptions; the recovery depends on the methods that are still active.",
  PF + "add_error_and_re_sync", PF + "re_sync_parser_after_error")
p("The values of a record come only from elements of their kind",
  "If two fields have elements of the same kinds in the same order (names may differ, and figures of speeds, levels, coordinates, bearings, distances and stay times as long as they are in order), the return value, the errors, the derived flight rules and of each record the origin, the types, the rules and the section text correspond. Speeds, levels and climb targets of all records are the same if the speed and level elements are the same, and their values in SI units if the elements have the same values in SI units; coordinates, bearings and distances if the elements with coordinates stand for the same coordinates, in any notation; stays if the stay times are the same. So amending a level cannot change a leg, and amending a point cannot change a speed.",
  "for every pair of field-15 strings of the same structure, accepted or not, every geodesic library",
  "Relates the results of all pairs of fields: an interference of one value with another shows only in particular combinations.",
  PF + "parse_f15", PF + "assign_speed_altitude", PF + "assign_lat_long_bearing_distance", PF + "stay_time")
p("The geodesic library influences only coordinates and legs",
  "Parsing the same field with two different geodesic libraries gives the same return value, errors and derived flight rules, and record by record the same values, except bearings and distances of the legs and the coordinates of points given as latitude and longitude with bearing and distance. Records without coordinates are the same altogether, and whether parsing raises does not depend on the library. So replacing or upgrading the library cannot change what is accepted.",
  "for every field-15 string, every pair of geodesic libraries (any total functions of the arguments)",
  "Quantifies over all libraries; a test runs with the installed one.",
  PF + "resolve_real_bd_point", PF + "set_azimuth_and_distance")
p("Degrees may be written with zero minutes",
  "Replacing points in degrees (52N008W, with or without bearing and distance, within the allowed ranges) by the same points in degrees and minutes (5200N00800W), or the other way round, anywhere in a field, changes nothing but names, positions, texts of sections and the sub types of these points: the same return value, the same speeds, levels, rules, stays, bit for bit the same coordinates and legs, the same error messages about the elements at the same places. Out of range there is an error either way, but with another message.",
  "for every pair of field-15 strings that differ only in this notation, accepted or not, every geodesic library",
  "Quantifies over all fields and all coordinates; the two notations take different paths through the code and through floating-point arithmetic.",
  PF + "assign_lat_long_bearing_distance", PF + "parse_f15")
p("A route designator and DCT are interchangeable",
  "In an accepted field a route designator that does not follow a SID can be replaced by DCT, and a DCT can be replaced by any route designator unless it directly follows the first element, follows a point given by coordinates or by bearing and distance, or precedes such a point. The new field is accepted with the same derived flight rules; all other records have the same values, bearings and distances of the legs included, and the record of the element differs only in its name, position and types. So no value is ever computed from a route designator. The exceptions are real: in each the replacement is rejected.",
  "for every accepted field-15 string, every such element in it, every route designator, every layout, every geodesic library",
  "Relates all accepted fields to all such rewritings of them.",
  PF + "route", PF + "dct", PF + "set_azimuth_and_distance")
p("A stay gives its minutes to one point and changes nothing else",
  "A stay (STAYn/hhmm) of an accepted field can be left out, unless it stands between a point given by coordinates or by bearing and distance and a route designator; and one can be put in after every point with its changes of speed and level and after a C that stands alone, if none is there yet. The other field is accepted too, with the same derived flight rules and the same values of all records, but for positions and one value: the stay of the record of that point (or C), which is hhmm in minutes with the stay and zero without. The exceptions are real: a stay hides a route designator after coordinates from the check that rejects it.",
  "for every accepted field-15 string, every stay in it, every such place, every stay element and time, every layout, every geodesic library",
  "Relates all accepted fields to all their versions with and without a stay.",
  PF + "stay", PF + "stay_time")
p("Flight level or altitude, metric level or metric altitude",
  "Replacing F by A or A by F in the level of a speed and level (N0450F350, N0450F350PLUS), or S by M or M by S, anywhere in a field, changes nothing but names, positions, sub types of these elements and the letter of the stored level: the same return value, errors about the elements at the same places, derived flight rules, and record by record the same speed, the same level, speed and climb target in SI units, bit for bit the same coordinates and legs, the same rules and stays. Exceptions, both real: a flight level has to be a multiple of five, an altitude has not; and in a climb between two levels the letters matter.",
  "for every pair of field-15 strings that differ only in such letters, accepted or not, every geodesic library",
  "Quantifies over all fields and all levels; the four letters are distinguished in several places of the code.",
  PF + "assign_speed_altitude", PF + "parse_f15")
p("OAT and GAT, IFPSTOP and IFPSTART are treated alike",
  "Exchanging OAT with IFPSTOP and GAT with IFPSTART everywhere in a field gives the same result with these exchanged: the same return value and derived flight rules, record by record the same values bit for bit, but for positions, the names and sub types of these elements, the words themselves where they are text of a section, and the rules of the records (OAT and IFPS exchanged); the same errors about the elements at the same places, with the messages about a GAT or an IFPSTART outside of a section exchanged. So whatever holds of one kind of section holds of the other. This does not extend to VFR and IFR.",
  "for every pair of field-15 strings that differ in this way, accepted or not, every geodesic library",
  "Relates all fields to their exchanged versions; each keyword has its own branches in the code, so a slip in one of them breaks the symmetry in rare combinations only.",
  PF + "break_start", PF + "break_end", PF + "break_end_error")
p("The one-line text of a record",
  "unit_test_only() of any record consists of the words of the name, the flight rules, the speed, the level, the text of the section and the error text, in this order, and does not end with a blank. For a record of the extracted route there is no error text, for an error there is nothing but the name and the message.",
  "for every record; for every field-15 string and every record and error of its result",
  "The test suite itself relies on this text: it can only compare what the text shows.",
  RR + "unit_test_only")
p("A cruise climb is a change of speed and level with a target",
  "If an accepted field contains the cruise climb C/POINT/ABC with ABC a speed, a level and a target level or PLUS, then the same field with POINT/AB in its place is accepted as well (AB the speed and the level), unless the point is computed (coordinates, bearing and distance) and follows a route designator. The results differ in one place: the record of the point has the climb target and its value in metres in the one and none in the other; all its other values and all other records, errors and derived rules are the same, bit for bit. Conversely a change of speed and level at a point can be made a climb wherever a C may stand.",
  "for every accepted field-15 string, every place of a climb or change in it, every geodesic library",
  "Relates all fields with a climb, whatever surrounds it, to other fields; the parser has separate code paths for both.",
  PF + "cruise_climb_c", PF + "cruise_climb_point", PF + "point")
p("Texts appended to a record are joined by blanks",
  "After any calls of append_break_text and append_error_text on a record, in any order and number and with texts that are not empty, the text of the section is the one that was there (unless empty) and the ones appended, in the order of the calls, with a blank in between; the same holds of the error text; neither depends on the other and no other value of the record changes. With empty texts the words are kept all the same.",
  "for every record and every series of calls",
  "The parser itself appends one error text per record at most, so no field exercises more; other users of the class do.",
  RR + "append_break_text", RR + "append_error_text")
p("Records, tokens and sequences return what they were given",
  "After any calls of setters on a record or a token, in any order, each of its values is the one last given for it, or the one it had if none was given; the text of the section and the error text are those said since they were last set; a stay that is no time changes nothing. After any calls that append records, create records, append the ADES, add errors or set the derived flight rules, a sequence holds the ADEP and the records in the order of the calls, the errors in the order of the calls, each with its name, positions, types and the message with the text put in for every exclamation mark, and the rules last set; the counts agree.",
  "for every record, token and new sequence and every series of calls",
  "Quantifies over all histories of calls; a setter that disturbs another value shows only if both are used in the right order.",
  RR + "set_name", RR + "set_stay_time", RR + "set_break_text", ES + "append_element", ES + "create_append_element", ES + "add_error")
p("A SID or a STAR adds its own record and changes nothing else",
  "An accepted field without its STAR is accepted, unless only the first element is left, and the result is the same without the record of the STAR: all other records with all their values (legs included, bit for bit), the errors and the derived rules. The same holds of the SID, unless a route designator or a designator that is taken for a SID in its place comes next. Conversely a STAR can be put at the end of an accepted field that ends with a point and what belongs to it, a C or the SID, and a SID after the first element if a point, a STAR or the truncation indicator follows. The record of the procedure has the speed, the level and the rules of the record before it, and no coordinates, leg, text, stay or target.",
  "for every accepted field-15 string, every designator, every geodesic library",
  "Relates all accepted fields to other fields; the legs are computed from the two records before a point, so a record more could disturb them.",
  PF + "sid", PF + "star")
p("The recursion limit decides only whether the parser returns",
  "Each field needs a certain depth of nested calls, at most three per token less one, and has one outcome: a result, or an exception other than RecursionError. With a recursion limit of at least that depth parsing has exactly that outcome, with any smaller one it raises RecursionError; the limit has no other influence. This holds for any token sequence and any extracted route sequence that the caller hands over. When RecursionError is raised, the caller's sequence still holds all that it held before, followed by the first errors and by records with the names and positions of the first records that a larger limit would have given, and by nothing else.",
  "for every field-15 string, every state handed over by the caller, every two recursion limits, every geodesic library",
  "Relates runs under all pairs of recursion limits; tests run under one limit.",
  PF + "parse_f15")
p("The positions in a result follow the elements of the field",
  "If two fields consist of the same elements and a function takes the start and end index of each element in the one to those in the other, then it takes the start and end index of each record and each error in the one result to those in the other, and all else in the results is the same; such a function always exists. In particular blanks put in between two elements, around a slash or at either end move everything that starts after them by their number and nothing else, and replacing blanks by as many other blanks changes nothing at all.",
  "for every pair of field-15 strings with the same elements, every recursion limit, every geodesic library",
  "Relates the results of infinitely many layouts of every field.",
  TZ, PF + "parse_f15")
p("Levels and speeds can be compared by their SI values",
  "For any two records of any results: the one that states a greater height (feet or metric) never has a smaller level in metres, and for two levels in feet or two metric ones the order of the values is exactly the order of the heights, so that no two of them coincide. The same weak order holds for speeds in knots or kilometres per hour, and for Mach numbers where the faster one is at no greater height. (Different speeds, or levels in different units, may have the same value.)",
  "for all pairs of records of results of all field-15 strings",
  "Quantifies over pairs of levels and speeds in mixed units and over floating-point roundings.",
  PF + "assign_altitude", PF + "assign_speed")
p("What parsing into a used route sequence gives",
  "For a route sequence left by any number of earlier parses, the complete result of parsing another field into it is determined by its records, its errors and the elements of the field. If the field begins with speed/VFR, or with speed/level followed by DCT, a point or a STAR (or is speed/level T), the records it would give in a new sequence, but for ADEP, and the errors it would give are appended; the old records stay, except that the last one (ADES) gets the speed, level and rules the field begins with, and the first one rules VFR if it begins with speed/VFR. So a field that is accepted on its own is accepted after accepted ones unless its second element is a SID. A SID there is reported with error 30, and a name that may be a SID or a STAR counts as a STAR, which must come last.",
  "for all route sequences left by any sequence of parses, all field-15 strings, all recursion limits",
  "Quantifies over all histories of a route sequence and over all fields.",
  PF + "parse_f15", PF + "assign_speed_altitude", PF + "assign_speed_vfr", PF + "sid", PF + "sid_star")
p("Positions can be compared by their coordinates",
  "For any two records of any results whose element is a latitude and longitude in degrees or in degrees and minutes and which have coordinates: the one that lies further north (east) by at least a minute has the greater latitude (longitude) as a number, the south and the west being negative. If the minutes are below 60 the numbers compare exactly as the places do: they are equal if and only if the places are the same, however they are written (00N and 0000S included).",
  "for all pairs of records of results of all field-15 strings, all geodesic libraries",
  "Quantifies over pairs of positions in both notations and over floating-point roundings.",
  PF + "assign_ll_deg", PF + "assign_ll_deg_min", PF + "assign_latitude", PF + "assign_longitude")
p("Each error is reported once",
  "In the result of any field that is not empty no two error records have the same place and the same text, except that a cruise climb with two flight levels that do not end in zero or five is reported twice in the same words. At most four error records are about one element. The errors one element can have together are: that it follows a STAR, or that it is no proper end of a section; then either that it cannot be where it is, or that the field cannot end with it, or its faulty angles, or its faulty levels; a point of an incomplete cruise climb or after a route can have faulty angles besides; a speed/level that is all of the field is reported last.",
  "for all field-15 strings, all recursion limits, all geodesic libraries",
  "Quantifies over all fields with any number of errors and any recovery between them.",
  PF + "add_error_and_re_sync", PF + "re_sync_parser_after_error", PF + "cruise_climb_point", PF + "assign_speed_altitude_altitude")
p("The messages of the error table",
  "The text and the element of an error record tell which message of the error table it states: there is exactly one, whatever the element. The text contains the text of the element. Every message of the table occurs for some field. (The last two are not quite so: messages 38, 41 and 49 do not name the element; messages 0, 2, 17, 18, 33 and 56 never occur, all others do.)",
  "for all field-15 strings, all error records of their results, all numbers of messages",
  "That a message never occurs, and that two messages never read the same, is a statement about all fields.",
  PF + "add_error_no_re_sync", ES + "add_error", "F15_Parser/ErrorMessageDefinitions.py:ErrorMessages")
p("The words of a section only influence its text",
  "In an accepted field, words of a VFR, OAT or IFPSTOP section that cannot end the section (not a point, a slash, a speed, an end keyword or a word that is too long) may be replaced by any others of this sort, fewer or more: the field is still accepted, and the extracted sequence is the same but for the text of that section, which has the new words in place of the old ones. For other words this is not so.",
  "for all accepted field-15 strings, all runs of such words in them and all such words to replace them",
  "There are unboundedly many texts a section may contain, and whether one of them leaks into the route shows only for the text that does.",
  PF + "break_end", PF + "break_start", PF + "break_text_save", RR + "append_break_text")
p("Only capital letters and figures count",
  "Outside the texts of VFR, OAT and IFPSTOP sections the elements of an accepted field consist of capital letters, figures and slashes only, and its first character other than a separator is K, M or N; no field written in small letters is accepted. (The element after C/ is an exception: it may be written in any characters.)",
  "for all field-15 strings",
  "Which of all the characters a field may contain get through to the extracted route cannot be found out by trying some of them.",
  PF + "parse_f15", SX + "F15TokenSyntaxDefinition", PF + "cruise_climb_point")
p("The mirror image of a route",
  "If N and S (or E and W) are exchanged in the latitudes and longitudes of a field without bearing/distance offsets, then acceptance, flight rules, errors, types, speeds, levels and stays are the same, every position becomes the one on the other side of the equator (meridian) exactly, and all distances are the same if those of the geodesic library do not depend on the side.",
  "for all field-15 strings, whether accepted or not, and all geodesic libraries",
  "Degrees and minutes are turned into floating-point numbers whose sign is applied by a multiplication; that no position loses or gains anything by it cannot be tried out for all of them, let alone in all routes.",
  PF + "assign_latitude", PF + "assign_longitude", PF + "assign_lat_long_bearing_distance")
p("Other separators, and tokens made by hand",
  "Only the set of the separators given to set_whitespace matters. Without set_whitespace the tokens are the documented ones exactly when every '/' stands by itself; otherwise fields can be accepted with one set of separators only. For any list of tokens, however it was made, acceptance is the grammar's (C24) and the complete result the reading machine's (C57, C67); the types the tokens carry before do not matter; and a token with a '/' and more in it is never accepted outside of text.",
  "for all separators, all field-15 strings, all lists of tokens and all geodesic libraries",
  "set_whitespace takes any list of characters and ParseF15 any Tokens object; the tests use one set of separators.",
  "Tokenizer/Tokenize.py:Tokenize.set_whitespace", TZ, PF + "parse_f15")
p("A section adds its record and nothing else",
  "If a section (VFR ... IFR, OAT ... GAT, IFPSTOP ... IFPSTART) of an accepted field comes to an end, the field without it is accepted, and its records are those of the field without the record of the section, but for places and legs; conversely a section with any words can be put before a point of an accepted field where no route, DCT, SID or other text comes before it. The record has the name, the words and the rules of the section and the speed and level before it; the rules of the flight only change with a VFR section. Left out: a VFR section with a second VFR section right after it, whose point is not checked.",
  "for all accepted field-15 strings, all their sections, all words and all geodesic libraries",
  "How sections combine with what comes before and after them, and all words within them, is an infinite family.",
  PF + "break_start", PF + "parse_f15")
p("What is read after a point does not depend on what comes before it",
  "If two fields, accepted or not, have the same elements from some point on and the point is recorded in both, the records from that point on are the same but for places, legs, and the speed and level, which are the same from the first record on in which they are the same; the errors after the point are the same but for their places. So errors do not spread past a point that is read.",
  "for all pairs of field-15 strings with the same elements from a recorded point on (which does not follow '/' or IFR, nor a route if it is computed), and all geodesic libraries",
  "What an error does to the elements after it depends on the whole field before it; tests see finitely many pairs.",
  PF + "parse_f15", PF + "re_sync_parser_after_error", PF + "point")
p("The same route can be flown the other way",
  "If a field that consists of a speed/level and of points, routes and DCT is accepted and does not end with a route, the field with the same speed/level and these elements in the opposite order is accepted too. Its records between the aerodromes are the same ones in the opposite order, but for their places and legs; the flight rules are the same; and if the geodesic library finds every way back as long as the way there, the lengths of the legs are the same in the opposite order.",
  "for all accepted field-15 strings that consist of a speed/level, points, routes and DCT and do not end with a route, and all geodesic libraries",
  "What may follow what is written down in one direction only; that it works in the other direction is a statement about all sequences of elements.",
  PF + "parse_f15", PF + "point", PF + "route", PF + "dct")
p("A point before a point adds its record and nothing else",
  "A point with possible coordinates can be put before any point of an accepted field that comes after an element of the route (after a designator only if it is not given by coordinates): the new field is accepted. Conversely a point before a point can be left out on the same terms. In both cases the longer field has exactly one record more: it has the name and type of the point, the rules IFR and the speed and level of the record before it. All other records are the same, but for places and legs, and so are the flight rules.",
  "for all accepted field-15 strings, all their points, all words that are points and all geodesic libraries",
  "Which elements may come before a point and what state is carried past it is a statement about all routes.",
  PF + "point", PF + "parse_f15")
p("A point can be given in another way, except beside a route",
  "Any points of an accepted field, outside the text of sections, can be replaced by points with possible coordinates given in another way (by a name, by coordinates, by a bearing and distance from either). The new field is accepted if and only if no route in it begins or ends at a point that is given by coordinates or by a bearing and distance. Then its records are the same, one for one, but for the names and kinds of the replaced points and for places, coordinates and legs. The flight rules are the same and neither field has errors.",
  "for all accepted field-15 strings, all choices of their points, all words that are points and all geodesic libraries",
  "Whether the way in which a point is given matters anywhere but beside a route is a statement about all routes.",
  PF + "point", PF + "route", PF + "post_point")
p("How far a change of speed and level reaches",
  "A change of speed and level can be put in at any point of an accepted field outside the text of sections, and any change of speed and level can be left out (except at the point after the IFR that ends a VFR section). The other field is accepted. The results differ in nothing but the speeds and levels of the record of that point and of the records after it, up to and without the record that the next change of speed and level belongs to: without the change they have the speed and level in force, with it those of the change. If another change follows at the same point, the results do not differ.",
  "for all accepted field-15 strings, all their points and changes of speed and level, all speeds and levels and all geodesic libraries",
  "How far a value is carried forward is a statement about all routes that can follow.",
  PF + "assign_speed_altitude", PF + "carry_speed_altitude_rules_forward", PF + "post_point")
p("How far the first speed and level reach",
  "The speed and level that an accepted field starts with can be exchanged for any other speed and level. The other field is accepted. The results differ in nothing but the speeds and levels of the record of the ADEP and of the records after it, up to and without the record that the first change of speed and level belongs to: before the exchange they have the first speed and level, after it the new ones.",
  "for all accepted field-15 strings that start with a speed and level, all speeds and levels and all geodesic libraries",
  "How far a value is carried forward is a statement about all routes that can follow.",
  PF + "assign_speed_altitude", PF + "carry_speed_altitude_rules_forward", PF + "post_adep")
p("Two routes through the same point",
  "If two accepted fields pass the same point (not the one right after the IFR that ends a VFR section), then the elements of the one up to this point and those of the other after it are an accepted field. Its records before the point are those of the one field, and the record of the point and those after it are those of the other, all but positions and legs; only the speed and level are those in force in the one field until the other changes them.",
  "for all pairs of accepted field-15 strings, all points in both and all geodesic libraries",
  "A test can try some pairs of routes; this says what any pair of routes may be made into.",
  PF + "post_point", PF + "carry_speed_altitude_rules_forward", PF + "parse_f15")
p("A detour between two points of a route",
  "If two accepted fields pass the same two points in the same order (neither being the one right after the IFR that ends a VFR section), then the part between them can be taken from the other field. The result is accepted. Its records before the first point are those of the first field, those from the first to the second point those of the other field, and those from the second point on those of the first field again, all but positions, legs, speeds and levels; if the speed and level in force at the second point are the same as before, the speeds and levels from there on are the same too.",
  "for all pairs of accepted field-15 strings, all pairs of points in both and all geodesic libraries",
  "A test can try some detours; this says that any part of any accepted route will do.",
  PF + "post_point", PF + "carry_speed_altitude_rules_forward", PF + "parse_f15")
p("Doing what the message asks for",
  "Messages 1, 5, 9, 10, 12, 14, 15, 21, 24, 26, 29, 36, 38, 50, 53 and 54 name something that is missing before the reported element: a first speed/level, a slash, C/point/, STAY, a point, a SID, the levels of a cruise climb, a time, a speed/level. If the first error has one of them, the values of the reported element are right and the element may follow what is asked for, then in every field in which this is put in nothing up to and including the element is wrong: the field is accepted, or its first error is further on or about the end. Messages 20, 27, 28, 35, 37, 49 and 52 say what is missing at the end: the field with it is accepted. After message 22 the field up to the reported point with a speed and level, or a speed and VFR, after it is accepted. Not so for 9 and 10 directly after the first speed/level and for 10 after a route.",
  "for all field-15 strings, all texts put in and all geodesic libraries",
  "A test can try the message on a few fields; whether the advice can be trusted wherever the message appears is a statement about all of them.",
  PF + "add_error_and_re_sync", PF + "route", PF + "post_point", PF + "parse_f15")
p("What the first message says is so",
  "The first error of a field is about one of its elements, and what the message says about this element, the element before it and the end of the field is so: a message about what may follow an ATS route, a DCT, a SID, a STAY, a slash, T or the first speed/level is only given for an element that follows one, a message about a type only for an element of that type, a message about a value only for an element with that value, and a message about the end only for what is at the end. Not so: that there is no VFR, OAT or IFPSTOP section before (6, 7, 8), and that the point is a Lat/Long (47, 48).",
  "for all field-15 strings, all depths and all geodesic libraries",
  "A test can read the message of a few wrong fields; that a message never misleads is a statement about all of them.",
  PF + "add_error_and_re_sync", PF + "add_error_no_re_sync", PF + "break_end_error", PF + "route", PF + "post_sid")
p("A C that is not followed by a slash stands for a point",
  "In an accepted field a C that is not followed by a slash can be replaced by any point given by its name, and such a point by a C unless a slash follows it or it follows the first element, a SID, or a VFR, OAT or IFPSTOP section. The field is accepted, all other records keep their values, legs included, and the record of the element itself changes in its name and types only.",
  "for all accepted field-15 strings, all places of a C or a named point in them, all named points, all depths and all geodesic libraries",
  "A test can compare a few pairs of fields; that the two are interchangeable wherever they occur is a statement about all fields.",
  PF + "cruise_climb_c", PF + "point", PF + "add_record")
with open("/verif/properties.jsonl", "w") as f:
    for x in P: f.write(json.dumps(x) + "\n")
print(len(P))
