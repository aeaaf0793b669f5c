# Formal model of the ICAO field 15 parser

The Python sources in /repo are modelled in Rocq (Coq 8.16.1) as total, computable
Gallina functions that mirror the Python functions branch by branch. Exceptions are
values. The properties of `properties.jsonl` are theorems about this model.

## Layers

| File | Models |
| --- | --- |
| `PyBase.v` | Python strings (lists of code points), slicing, `int()`, `str.replace`, exceptions |
| `PyFloat.v` | Python floats: IEEE-754 binary64 from the standard library's `SpecFloat` |
| `Enums.v`, `SyntaxTable.v`, `ErrorTable.v` | the enumerations, the regular-expression table and the error messages, generated as verbatim text from /repo by `tools/gen_tables.py` |
| `Regex.v` | parser for the regular-expression syntax used in the table, and `re.fullmatch` |
| `Syntax.v` | `F15TokenSyntaxDescriptions.get_token_type` |
| `Tokenizer.v` | `Tokenizer/Token.py`, `Tokens.py`, `Tokenize.py` |
| `Utils.v` | `Utilities/Utils.py`, `Constants.py` |
| `Ers.v` | `ExtractedRouteRecord.py`, `ExtractedRouteSequence.py` |
| `Setters.v` | the setters of `ExtractedRouteRecord`, `Token` and `ExtractedRouteSequence` that the parser does not call, and series of calls |
| `Parser.v` | `F15_Parser/F15Parse.py`, all methods |
| `Xml.v` | the two `as_xml` methods |
| `Print.v` | the methods that print a report |
| `Descriptions.v` | the complete row returned by `get_token_type`, `print_descriptions` |
| `UnitTests2.v` | the other unit tests of /repo on the model, as far as they do not test geographiclib |
| `UnitTests.v` | all 198 cases of /repo/UnitTests/test_F15Parser.py evaluated on the model (validation of the model, generated by `tools/gen_unit_tests.py`; not a proof of any property) |

Specification vocabulary (what the theorems talk about, besides the model itself) is in the
`Spec*.v` files: `SpecTokenizer.v`, `SpecRegex.v`, `SpecNum.v`, `SpecSound.v` (numbers, speed of
sound), `SpecParser.v`, `SpecGrammar.v` (the grammar), `SpecAccept.v` (the records of an accepted
field as a function of its tokens), `SpecDiagnosis.v` (first error), `SpecViable.v`,
`SpecReader.v` (the whole result of any field), `SpecComplete.v` (with all attributes), `SpecRecovery.v`, `SpecXml.v`, `SpecText.v`.

Proofs: `TokenizerProofs.v`, `RegexProofs.v`, `SyntaxProofs.v`; `FloatProofs.v`, `FloatRN.v`,
`NumTables.v`, `NumProofs.v`, `GeoTables.v`, `NumFacts.v` (numbers); `ParserPrims.v`, `PerfEq.v`,
`PointEq.v` (equations for the primitive operations of the parser); `Trace.v` (every run of
every method is a sequence of elementary events), `ParseTrace.v` (the same for `parse_f15`),
`ParserInv.v` (invariants of the events), `ParserFacts.v`; `GrammarSem.v`, `ErrMono.v`,
`Grammar.v`, `Accept.v` (accepted language and the records of an error-free run); `Describe.v`,
`AcceptFacts.v`; `Diagnosis.v`, `DiagFacts.v`, `Viable.v` (first error); `Reader.v`,
`ReaderFacts.v`, `ReaderOrder.v`, `RecoveryFacts.v`, `SettledFacts.v`, `SizeFacts.v` (whole result, error recovery). The property theorems are in `Props*.v`, which contain
nothing else (besides the examples).

### How the parser is modelled

The pair (tokens, ers) is the state of a state-and-exception monad. Records are
referred to by their position in the list. The 27 mutually recursive methods are the
constructors of `call`; a method body takes the recursive invocation as an argument
and `run depth` ties the knot: `depth` is the number of nested method calls the
interpreter still allows, and `depth = 0` is the exception `RecursionError`. The
parameter is therefore not a proof device but the interpreter's recursion limit, and
theorems say which limit suffices (C14) and that none suffices for everything (C15).

geographiclib is an arbitrary oracle (`geodesic`): every theorem about the parser is
universally quantified over it.

## Trusted base

* Coq's kernel (and `vm_compute`, part of it).
* Axioms: see the `Print Assumptions` lines under each theorem in the `Props*.v` files.
  The intention is that all theorems are closed under the global context.
* `coqchk` lists seven parameters of `Coq.ssr.ssrunder`; they come with the standard
  library files that `lia` loads and no theorem depends on them.
* The state carries a counter of method invocations (`s_calls`, incremented by `tick`)
  which does not exist in the Python code. It is used only to state C51.
* The model itself is hand written (the tables are generated); it is validated against
  the project's own 198 parser unit tests in `UnitTests.v`.

The console output is the text written (`Print.v`), without the encoding of stdout.

Not modelled: `main.py` itself
(its three statements are `parse_field15`; as committed it imports a package that
does not exist in the repository), the numerical content of geographiclib, Python memory
limits. Floats inside geographiclib are arbitrary. `int()`/`float()` are modelled on the
strings the syntax table can produce (ASCII digits, optional sign, surrounding blanks)
and documented in `PyBase.v`/`PyFloat.v`. Interpreter frames of helper methods that return
before the next parser method is called are not counted in the recursion depth.

## Treatment of each property

"false" means reading the code showed that the property does not hold; the model then
carries a theorem with suffix `_refuted` (a concrete witness, evaluated by the kernel),
and the part that does hold is proved with suffix `_partial`.

| Id | Plan |
| --- | --- |
| C01-C03 | Induction on the loop of `tokenize` with an invariant relating the tokens so far, the pending text and the consumed prefix. |
| C04 | Token texts as a function of the string (a fold), shown equal to the model; algebraic laws by induction. |
| C05, C06 | Case analysis on indices; enumeration by induction on the list. |
| C07 | Denotational semantics `re_in` of regular expressions, matcher proved sound and complete; table lookup. |
| C08-C12 | Every pattern is a finite union of fixed-length sequences of character classes ("shapes"); a decision procedure on shapes, proved correct for all strings, settles inclusion, disjointness and equality of languages by reflection. C11 and C12 are false. |
| C13 | Invariant of the state monad: Hoare triples per method, induction on depth. False (cruise-climb sub types NAS/NAM); partial: no other exception, and none without such a token. |
| C14 | Potential argument: cursor never moves back, each chain of calls without cursor movement is bounded. |
| C15 | false: a family of inputs growing with the limit. |
| C16-C21 | Invariants of all runs. |
| C22, C23 | false (error 48 path, break-end resynchronisation); proved for accepted fields. |
| C24 | Inductive grammar over typed tokens; both directions by induction on depth / derivation, using that errors are monotone. The first token determines the step (`Unambiguous.v`). |
| C25-C28, C34, C40-C42, C49, C52 | From the big-step account of error-free runs which also gives the records produced. |
| C29, C33 | false; witness and what holds instead. |
| C30, C32, C37 | Rounding error analysis of binary64 (correct rounding to nearest even as an integer function), so every value of the syntax and every altitude is covered without enumeration. |
| C31 | Invariant of all runs. |
| C39, C53 | false; the exact rule for legs, and the origin of coordinates, as invariants of all runs. |
| C50 | setting all positions to zero commutes with every method, so the run on equal token texts is the same up to positions. |
| C54 | `SpecDiagnosis.v`: a finite automaton over typed tokens; every method ends as the automaton says, by induction on depth (uses the account of C24 where a method goes on after a call). |
| C55 | Every place of the automaton can be completed; the automaton does not look past the element it reports, except as `settled` says. |
| C59, C60, C61 | Invariants of the reading machine of C57 (`ReaderOrder.v`): nothing noted is lost; every element read is noted at once; the positions noted, held back and still to come form a sorted list. |
| C62, C63 | Bounds on all values of all runs (`PrintRuns.v`), no newline in any text (`PrintLines.v`), width of each cell (`PrintFacts.v`). The library must be `sane`: bounded angles and distances. |
| C64 | The machine of `SpecReader.v` looks at most three tokens ahead and only adds to its notes (`SettledFacts.v`). |
| C65 | Two potentials over the machine: three reports and one record per token, with credits on the stack (`SizeFacts.v`); the worst field for every n. |
| C66 | Values contain no delimiter (`XmlFacts.v`), so the text can be cut at each in only one way; numerals and type names are injective (`XmlUnique.v`). |
| C58 | The decision procedure of C08-C12 on the designator forms of `SpecDesignators.v`. |
| C57 | `SpecReader.v`: a stack machine over typed tokens; every method call is simulated by steps of the machine from the configuration it stands for (`Reader.v`, induction on depth, frame rule for what is below on the stack); a weight argument bounds the number of steps (`ReaderFacts.v`). |
| C67 | C57 says which records there are and which have coordinates; invariants of the trace give SI values and coordinates as functions of the texts, C39 gives the legs (`CompleteFacts.v`). |
| C68, C69 | Case analysis along the table; the lines by computation (`DescriptionFacts.v`). |
| C70 | From C17. |
| C71 | Induction along the history (`UseFacts.v`). A step of a thread is one method call; parse_f15 has no state besides its arguments (the tables are never assigned), so nothing is stated about it here. |
| C72-C74 | From C24 and the account of accepted runs: the derivation without the steps is built, and the effect of the remaining steps is the same up to places and legs (`Removal.v`). C72 false for the legs. |
| C75 | The automaton of C54 looks at most three elements ahead, and every place can be completed (`Beginning.v`, with `Viable.v`). |
| C76 | The element syntax of `SpecXml.v` is unambiguous (`XmlReads.v`, mutual induction on derivations); with C48 this settles fields that need no escaping. A field that hides records by a comment is the witness (`XmlForged.v`). |
| C77-C79 | From C24: every step of the grammar before the cut, or from the point on, is also one of the cut or joined field, and adds the same records up to places and legs (`Split.v`, `InForce.v`, `Join.v`; notions in `SpecSplit.v`). C77 false for the legs. |
| C80, C81 | From C24: by induction on the derivation of the field, the records after each place are written as steps of the grammar with the same effect (`Refile.v`, `RefileClimb.v`, `RefileWords.v`); `SpecRefile.v` is the writer, a function of the records alone. |
| C82 | On the stack machine of `SpecReader.v` (C57): every step preserves a relation between the two runs in which items, jobs and reports belong to elements at the same place (`Rename.v`); the result is lifted to the parser with C57 and C67. `SpecRename.freely_named` says which texts may differ. |
| C83 | From C24 and C57: along a derivation the stack machine is in the job that belongs to the place (`Unknown.here`), whatever follows; from there an unrecognised element leads to JSync, which goes on as the job would have. The result on tokens is moved to the field with the relation of C82. Notions in `SpecUnknown.v`. |
| C84 | The simulation of C82 with a weaker relation (`Flow.I`): speeds, coordinates and stays of two items are related only under the assumption that the elements of that kind agree. Notions in `SpecFlow.v`. |
| C85 | From C67: the reading machine does not mention the library, so both results are `complete` of the same reading; `SpecLibrary.v` says which attributes may differ. |
| C86 | From the simulation behind C84, which relates items by their coordinates and not by their texts; adding the quotient 0/60 to a non-negative integer double changes nothing. `SpecWriting.v` defines the two notations. |
| C87 | From C24: the steps of the two fields differ in one place; a relation between the cores (one record renamed) is preserved by every step, because a record without coordinates is never an end of a leg. `SpecConnector.v` says what may differ. |
| C88 | From C24: the steps differ in one `SStay`; a relation between the cores (one record with another stay) is preserved by every step. Where a stay may stand (`SpecStay.stands`) is shown to be where the grammar has one, by induction over derivations. |
| C89 | From C84, whose relation on records now has as a parameter any relation between the speeds and levels of two elements (`Flow.flow_all`). That the element with the other letter is of the same kind follows from the exact syntax (C10). |
| C90 | The reading machine (C57) commutes with the exchange: a relation between two runs with the sub types, rules, kinds of sections and messages exchanged is kept by every step (`Swap.step_R`). That the types of the elements are exchanged follows from the texts by the syntax table. |
| C91 | By the words of a concatenation with a blank in between; that records have no error text and errors no other values follows from C67. |
| C92 | Steps SPoint + SSpeed and SClimb + SClimbTo have the same effect but for the target (SpecClimb, Climb); the difference stays in that one record whatever steps follow. |
| C93 | By induction over the calls from the last one on; `SpecAppend.spaced` is the join. |
| C94 | By induction over the calls; `SpecSetters.latest` is the value last given, `spoken` the text said since it was last set; `int_text` is the grammar of the numbers a stay is read from. |
| C95 | The steps of the grammar with and without the procedure; `Two` relates the records with a SID in second place to those without (the legs agree because ADEP and SID have no coordinates). |
| C96 | A relation between two programs of the state monad, equal or cut short by RecursionError with the sequence only grown meanwhile, is kept by `bind` and by every method (`Limit.v`); induction on the limit. Bound by C14. |
| C97 | Moving all positions in a state by a function commutes with every method (`Places.v`, like the erasure of C50); the tokens of a concatenation from a direct description of the tokenizer. |
| C98 | From C31 and C30, C32 (rounding to the nearest integer is monotone; monotonicity of the binary64 operations of `FloatProofs.v` for Mach numbers). |
| C99 | `Reuse.v`: C57 and C67 for a parse that begins in any sequence left by earlier ones. `ReuseFacts.v`: the machine moves alike whatever records and reports are in front, once there are two records. |
| C100 | From C53 and C67: every stored coordinate is within 2^-43 degrees of the stated value (`GeoTables.v`), which is less than a minute; the same degrees and minutes give the same double. |
| C101 | On the machine of C57: an invariant says for every element what has been reported about it (`Once.v`); the possible lists are finitely many (`shapes`). Two different messages differ for every element (`told_apart`). |
| C102 | From C101: the numbers that can be reported are those of `once`; every number in use has a field (`Messages.samples`); any two messages of the table differ for every element (`table_differs`). |
| C103 | On derivations: another text of the section gives another derivation (`section_other`), whose effect differs in one record (`words_effect`). |
| C104 | From C08 and C42; the first letter from the shapes of speeds (`kmn`); the characters of elements are characters of the field (`ttexts_chars`). |
| C105 | `reading_same` of Flow.v with the names of located records related by mirroring; values by `hemi_value`; the legs by induction over `with_legs`. |
| C106 | `tokenization_unique` for the default separators; the token-list forms of acceptance, reading and completeness (`accept_parse`, `parse_reads`, `route_eq`); slashes by the finitely many shapes of recognised texts. |
| C107 | The two derivations differ in the steps of the section; `section_effect` relates their records (`Rel_steps`), `exchange` their derivations. |
| C108 | Three phases of the reading machine: until the point everything on the stack concerns earlier elements (`reach`), after it the two machines run in lockstep over stacks that are never uncovered (`play_S`), at the end only earlier elements are left (`drain`). |
| C109 | What may stand side by side is symmetric (`may_sym`, from C54); the reading machine on a way (`reading_way`); legs of a reversed list (`pairs_rev`). |
| C110 | As C107 with one step `SPoint`; IFR stays among the records after the first (`has_steps`), so the rules of the flight do not change. |
| C111 | `other_points` replaces points by points; the derivation of the field is turned into one of the other by replacing tokens in its steps, and `routes_fit`, a function of the elements alone, is what decides whether each step is still allowed. |
| C112 | `Zp`: the two runs have the same records but for the speed and level of a block that starts with the point; it grows with each record until the next step that sets a speed (`reach`). That the block had the speed in force is the same lemma with the same run twice. |
| C113 | `Zp_final` of C112 with an empty part before it: the run after the other first element has the ADEP record with the new speed and level. |
| C114 | The elements after a point are derived from the same context in both (`find_point`, `cross_derives`); `Tail` of C78 relates the records after the point once the speed and level in force are put into its record, and `Zp_final` of C112 says how far these reach. |
| C115 | C114 twice on derivations (`detour_result`): at the first point, then at the second with the first field. |
| C116 | The place at which the automaton of C54 finds the error is reached whatever follows (`reached`); from there the added elements and the reported one are read (`remedy`, `provision`); message 22 by the place in the section (`rule_at`). False for messages 9 and 10 after the first speed/level and 10 after a route (`_refuted`). |
| C117 | `told` states each message about the element, its neighbour and the end; the place before the error and the element that led to it (`reached`, `before_after`) give each claim. False for what 6, 7, 8, 47 and 48 add (`_refuted`). |
| C118 | `C118_c_to_point`, `C118_point_to_c`: the steps `SC` and `SPoint` have the same effect up to the name and types of one record (`single_eff`, `tail_at`); the restrictions are needed (`C118_anywhere_refuted`). |
| C56 | Induction on the digits; `SpecText.v` says what a numeral and rounding to hundredths are. |
| C35, C38, C44, C47 | false; witness and the part that holds. |
| C48 | false; the element syntax of XML 1.0 (without DTD) is an inductive definition (`SpecXml.v`), derivations are built for every field without characters that need escaping, and a scanner that accepts every well-formed element shows the exact condition on the errors. |
| C36 | Arithmetic. |
| C43 | Shapes and the accepted-run account. |
| C45, C46 | Invariant; independence by computation of the first two steps. |
| C51 | Instrumented runner counting calls; potential argument. |
