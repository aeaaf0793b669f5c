s("C01", "proved", "for every source and every separator set")
s("C02", "proved", "order, disjointness and exact coverage")
s("C03", "proved", "also: the specification determines the token list uniquely")
s("C04", "proved", "")
s("C05", "proved", "")
s("C06", "proved", "")
s("C07", "proved", "the matcher is proved equal to the textbook language of each pattern")
s("C08", "proved", "")
s("C09", "proved", "exact language of each kind of point and of the keywords")
s("C10", "proved", "")
s("C11", "partial", "FALSE of the code: NAS/NAM rows want 4 digits after A, row KFA is typed KFS (refuted with witnesses); exact language proved, naming proved for the other 45 combinations")
s("C12", "partial", "FALSE of the code: row 38 is shadowed by row 30 (refuted); all other rows proved live")
s("C43", "proved", "exact syntax; value of each record of an accepted field; range 0 to 1439 for all runs")
s("C30", "proved", "nearest integer for every value of the syntax, in spite of binary floating point")
s("C32", "proved", "")
s("C36", "proved", "")
s("C37", "proved", "whole degrees exact; degrees and minutes within 2^-43 degrees (the sum of two roundings is not always the nearest double)")
s("C13", "partial", "FALSE of the code: ValueError for N dddd A dddd (S|M) dddd after C/point/ (refuted); proved that a field without such an element never raises when the recursion limit is at least 3n-1, and that ValueError is the only other outcome")
s("C14", "proved", "3n-1 nested calls suffice for n tokens, for every token list, and no smaller limit does (C14_exact)")
s("C15", "partial", "FALSE of the code: for every limit and every n with limit < 3n-1 a field of n tokens raises RecursionError (refuted; exactly the bound of C14)")
s("C16", "proved", "")
s("C17", "proved", "")
s("C18", "proved", "for every recursion limit")
s("C19", "proved", "")
s("C20", "proved", "")
s("C21", "proved", "")
s("C25", "proved", "")
s("C31", "proved", "")
s("C45", "proved", "also when an exception is raised")
s("C46", "proved", "for every ERS")
s("C51", "proved", "six method invocations per token, also when an exception is raised")
s("C24", "proved", "for every recursion limit of at least 3n-1; acceptance by any limit also implies derivability; the grammar is unambiguous")
s("C22", "partial", "FALSE of the code for rejected fields: a latitude/longitude after an ATS route (error 48) is recorded after its successor (refuted); proved for every accepted field")
s("C23", "partial", "FALSE of the code for rejected fields: re-synchronisation may drop points without trace (refuted); proved for every accepted field")
s("C26", "proved", "")
s("C27", "proved", "")
s("C28", "proved", "")
s("C29", "partial", "FALSE of the code: no ADES record ever has a speed or an altitude, whatever the field (refuted for all inputs)")
s("C33", "partial", "FALSE of the code: the speed of sound at F050 (1524 m) is used (refuted); proved for all runs that level and speed are those at 1524 m")
s("C34", "partial", "FALSE of the code: the target level of a cruise climb with Mach speed or metric first level is not checked (refuted); proved for all other levels, and for the level of every record")
s("C35", "partial", "FALSE of the code: with a Mach speed or metric first level the target loses its letter and its value is wrong (refuted); proved for the other cruise climbs, exact stored value proved for all")
s("C38", "partial", "FALSE of the code: a point between IFR and a speed/VFR is not checked (refuted); proved for all other points")
s("C40", "partial", "FALSE of the code: the element after C/ may be a SID or a STAR (refuted); proved for all other elements")
s("C41", "proved", "for elements; adjacent records may still be a coordinate point and an ATS route when a STAY element is between them (witness)")
s("C42", "partial", "FALSE of the code: the element after C/ may be anything (refuted); proved for all other tokens")
s("C49", "proved", "")
s("C52", "proved", "")
s("C44", "partial", "FALSE of the code: index n raises IndexError for every route sequence (refuted); proved for all other integers")
s("C47", "partial", "FALSE of the code: for every pair of fields the records differ (refuted); proved that old records and errors stay and that a rejected sequence rejects every later field")
s("C48", "partial", "FALSE of the code: error texts 43 and 45 and characters of the field reach the output unescaped (refuted); proved for all fields without characters that need escaping, with the exact condition on the errors")
s("C39", "partial", "FALSE of the code: a point without coordinates is skipped, and at most one record may be in between (two refutations); the exact rule is proved for all runs")
s("C53", "partial", "FALSE of the code: a latitude/longitude between IFR and a speed/VFR gets no coordinates (refuted); proved for all runs that coordinates of a record are those of its text")
s("C50", "proved", "")
s("C54", "proved", "")
s("C55", "proved", "")
s("C56", "proved", "")
s("C57", "proved", "")
s("C58", "proved", "")
s("C59", "proved", "")
s("C60", "proved", "the exception (message 48) is necessary: C22")
s("C61", "proved", "both exceptions are necessary (theorems)")
s("C62", "partial", "false for names of more than 17 characters (only elements without a recognised type, but also in accepted fields); proved for all others, under the bounds on geographiclib's results in `sane`")
s("C63", "partial", "lines of both reports for every field; the name column of print_tokens (9 wide) is too narrow for 10 characters (refuted)")
s("C64", "proved", "")
s("C65", "proved", "with the worst case for every n")
s("C66", "proved", "the other characters are outside C48 anyway")
s("C67", "proved", "the accuracy of the doubles is C30-C33, C53")
s("C68", "proved", "")
s("C69", "partial", "from Python 3.11 on; refuted for Python 3.10, with the exact lines there")
s("C70", "partial", "refuted for every field; the value is right in the sense of C17")
s("C71", "partial", "histories and separate objects for all; a shared object refuted. Granularity: one method call")
s("C72", "partial", "everything but the legs, for all; that the legs stay the same is refuted")
s("C73", "proved", "")
s("C74", "proved", "")
s("C75", "proved", "continuation by further elements, i.e. after a separator")
s("C76", "partial", "FALSE of the code (accepted field that hides two points, refuted); proved for all fields without characters that need escaping; a text is at most one element")
s("C77", "partial", "everything but the legs, for all; that the legs agree is refuted")
s("C78", "proved", "")
s("C79", "proved", "")
s("C80", "proved", "the writer is `refile` in SpecRefile.v")
s("C81", "proved", "")
s("C82", "proved", "")
s("C83", "proved", "C83_lone_c_lost shows why the place after a lone C is excluded.")
s("C84", "proved", "C84_not_any_figures shows that the figures must be in order.")
s("C85", "proved", "")
s("C86", "proved", "C86_in_order shows why the figures must be in range.")
s("C87", "proved", "C87_anywhere_refuted shows that each restriction is needed.")
s("C88", "proved", "C88_anywhere_refuted shows that each restriction is needed.")
s("C89", "proved", "C89_anywhere_refuted shows that the exceptions are real.")
s("C90", "proved", "C90_not_vfr_refuted shows that VFR and IFR are different.")
s("C91", "proved", "")
s("C92", "proved", "C92_anywhere_refuted shows that the exceptions are real.")
s("C93", "proved", "C93_empty_text_refuted: an empty text appended first leaves no blank, one appended later does.")
s("C94", "proved", "All setters of the three classes, called one after the other.")
s("C95", "proved", "C95_anywhere_refuted shows that the exceptions are real.")
s("C96", "proved", "")
s("C97", "proved", "")
s("C98", "proved", "C98_apart_refuted shows that the strict order holds only where it is stated")
s("C99", "proved", "C99_same_answer_refuted shows that acceptance into a used sequence is not acceptance on its own, in either direction; C47 is the claim that re-use makes no difference")
s("C100", "proved", "C100_orderly shows that the minutes must be below 60 for equality")
s("C101", "partial", "refuted in full: both levels of a cruise climb give the same error record (C101_once_refuted); everything else is reported once")
s("C102", "partial", "refuted in full: messages 0, 2, 17, 18, 33 and 56 are in the table but no field gives them (C102_all_in_use_refuted); the 50 others are shown to occur, each for a field")
s("C103", "proved", "The words that do not count are characterised by their type; C103_any_words_refuted shows that each restriction is needed.")
s("C104", "partial", "refuted in full: the element after C/ may be anything (C104_capitals_refuted); proved for all other elements, and the other parts without exception")
s("C105", "proved", "the positions given by bearing and distance from a latitude and longitude are excluded (the library computes them)")
s("C106", "proved", "the results for lists of tokens need a recursion limit of three times their number (C14)")
s("C107", "proved", "a VFR section right before another one can matter: its point is not checked (C107_rejoin_refuted); a VFR section changes the flight rules (C107_rules_refuted)")
s("C108", "partial", "false if a keyword that ends a section comes after the point (C108_end_keyword_refuted) or a word of a section before it is too long (C108_too_long_refuted); proved otherwise, for all fields with and without errors")
s("C109", "proved", "the condition on the last element is needed: C109_last_route_refuted")
s("C110", "proved", "both conditions are needed: C110_designator_refuted, C110_text_refuted")
s("C111", "proved", "without the condition on routes it is false: C111_beside_route_refuted")
s("C112", "proved", "the exception is needed: C112_ifr_refuted")
s("C113", "proved", "")
s("C114", "proved", "the exception is needed: C114_ifr_refuted")
s("C115", "proved", "")
s("C116", "partial", "messages 9 and 10 give advice that does not help directly after the first speed/level, 10 also after a route (C116_advice_refuted); proved everywhere else")
s("C117", "partial", "messages 6, 7 and 8 deny a section that may be there and 47 and 48 call a bearing and distance point a Lat/Long (C117_section_refuted, C117_lat_long_refuted); all else is proved")
s("C118", "proved", "with the places where it fails, which the theorems exclude, in C118_anywhere_refuted")
