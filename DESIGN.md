# Machine-checked model of sharg-parser

Rocq/Coq 8.16.1, standard library only. The C++ code in `/repo` was read, not run. Every definition of
the model cites the file and lines it follows and says where it simplifies.

## 1. Layout (`rocq/theories`)

Model files contain no property proofs; specification files do not use the model's helpers beyond its
data types (declarations, values, outcomes, file systems).

| file | models | content |
|---|---|---|
| `Base.v` | - | strings as byte sequences, exceptions, outcomes (return, throw, exit, failed assertion, undefined behaviour, out of fuel), state monad |
| `Fs.v` | `<filesystem>`, `<fstream>` as used; `safe_filesystem_entry.hpp` | abstract file system: paths, files with content and permissions, directories |
| `Values.v` | `format_parse.hpp` 281-439, `enumeration_names.hpp`, `to_string.hpp`, `type_name_as_string.hpp` | conversion of argument text to values and back |
| `Validators.v`, `ValidatorsHelp.v` | `validators.hpp` | all shipped validators: checks; objects with their help texts |
| `Posix.v` | `validators.hpp` 411-459, 563-941, `safe_filesystem_entry.hpp`, POSIX pathname resolution | the four file validators once more, on a file system with symbolic links, "..", trailing slashes and search permission |
| `TestFiles.v` | `test/include/sharg/test/tmp_filename.hpp`, `file_access.hpp` | the helpers of the unit tests that touch files: `read_access`, `write_access`, `tmp_filename` with its moves and its destructor, on the file system of `Posix.v` |
| `TestRuns.v` | `test_fixture.hpp`, `expect_throw_msg.hpp`, class hierarchy of `exceptions.hpp` | what a run of a test program reports: the early exit guardian, death tests of `get_parse_cout_on_exit`, `EXPECT_THROW_MSG` |
| `FormatParse.v` | `format_parse.hpp` | the scanning parser, function by function |
| `Parser.v` | `parser.hpp`, `auxiliary.hpp` | the parser object, registration, format selection, subcommands, `parse()`, programs (sequences of calls) |
| `HelpBase.v` | `format_base.hpp` | the driver of all help pages |
| `HelpText.v` | `format_help.hpp`, `terminal.hpp` | pages for the terminal |
| `HelpExport.v` | `format_html.hpp`, `format_man.hpp`, `format_tdl.hpp` | exported pages |
| `VersionCheck.v` | `version_check.hpp` | decision, cookie, version comparison, command |
| `LibVersion.v` | `version.hpp` | the number and the text of a version of the library |
| `VersionSteps.v` | `version_check.hpp` | the same as single accesses to the file system, runs that overlap in time |
| `Waiting.v` | `parser.hpp` 160-207, 1114-1125, `version_check.hpp` 38-45 | durations, futures, destructors |
| `Charconv.v` | `std/charconv`, `std::from_chars` and `strtod` | reading of floating point texts, the replacement for missing library support |
| `Age.v` | `version_check.hpp` 461-471 | the age of the stored answer, in doubles |
| `Regex.v` | `std::regex` as used at `validators.hpp` 999, `parser.hpp` 735, `version_check.hpp` 76, 93, 431 | scanner and compiler of libstdc++ 13, matching by derivatives |
| `FloatNum.v`, `Ieee.v` | IEEE 754, `printf` `%g` and `%f` | floating point numbers of the three types: rounding, comparison, conversion, printing |
| `StrLib.v` | - | lemmas about strings |
| `Invocation.v`, `ValuesSpec.v`, `ValidatorsSpec.v`, `ScanSpec.v`, `ParserSpec.v`, `HelpSpec.v`, `TdlSpec.v`, `VersionSpec.v`, `OverlapSpec.v`, `DiagnosisSpec.v`, `ReadingSpec.v`, `FloatSpec.v`, `FloatRoundSpec.v`, `AgeSpec.v`, `PosixSpec.v` | - | independent specifications |
| `Invocation*.v`, `Values*.v`, `Validators*.v`, `Scan*.v`, `Parser*.v`, `Help*.v`, `Version*.v` (other) | - | proofs |
| `Samples.v`, `HelpSamples.v` | - | interfaces used by the examples |
| `Conformance*.v` | `test/unit/**`, `test/snippet/*.{out,err}`, `doc/tutorial` | expectations of the repository's own unit tests, recorded outputs of the snippets and commands of the tutorials, evaluated in the model (tests, not proofs) |
| `Prop*.v` | - | the property theorems: one `exact` each (refutations: witness and `vm_compute`), `Print Assumptions` beneath, examples beside |

`tools/manifest.py` regenerates `MANIFEST.json` from the theorem names and `tools/notes.json`.
`tools/mutate.py` edits the model in a scratch copy and reports which theorems fail; the results are in
`seeded/LOG.jsonl`. A theorem counts as failed if its proof, or that of a lemma it rests on, no longer goes through; that
alone does not show that its statement has become false. A proof that reaches the time limit is not a
failure. The tool counted it as one at first: the results still at hand were gone through again and four lines of the log
corrected (each keeps other failures). The results behind 157 of the first 176 lines are no longer at hand, so these were
not gone through; a theorem named there may have only reached the limit.

## 2. Conventions

* Undefined behaviour, failed `assert`, `std::exit` and non-termination are distinct outcomes, never a
  default value. The build mode (`NDEBUG` or not) is a parameter of the model.
* Observable state (bound variables, file system) is kept when an exception is thrown.
* Iterators into the argument vector are represented by splitting it at the iterator: the range
  `[begin, end_of_options_it)` is the list `pre`, the range from `end_of_options_it` on is `post`.
  Elements are blanked in place as in the code, so lengths never change.
* Bound variables are addresses in a store, so two options may share a variable as in C++.
* `std::unordered_set` is a list used only through membership and insertion.
* Validators of options are arbitrary state transformers on the file system that may reject with a message.
* A parser object has an address; the lambdas stored in `operations` remember the address of the parser
  that created them (`[this, ...]`), so moving an object is not invisible.

## 3. Properties: what is modelled, how it is proved

Theorem names are those of `MANIFEST.json`, which also says for each property what is missing. "Refuted"
means: the statement of `properties.jsonl` is false of the model, shown by a witness (`..._refuted`), and
the part that holds is proved as `..._partial` or as an exact characterisation.

### Values (`PropValues.v`)

* C01 `from_chars` for every width and sign is written out; equivalence with an independent decimal grammar
  (`ValuesSpec.v`), round trip with a decimal printer. Proved.
* C02 the container overload and `throw_on_input_error`: the outcome "overflow" of an element is not
  reported (assertion in debug mode). Refuted with NDEBUG; proved otherwise. `C08_exact` and
  `C02_positional_exact` (PropList.v) say exactly what lists hold, in both build modes and with both names.
  `C02_element` (ListElements.v): the value an element starts from cannot be seen, except by an operator>> of the program.
* C03 proved for all texts and all previous values.
* C04 stream extraction of a path (`operator>>`, quoted) is written out; refuted; the accepted texts are
  characterised exactly.
* C05 table lookup and message; permutation and sortedness of the names listed; round trip. Refuted for
  empty tables (`std::out_of_range`).
* C53 refuted for integers and paths; `C53_exact` says for every type what is left in the variable (`ruined` in
  `FailureSpec.v`).

### Well-formed command lines (`PropInvocation.v`)

* C06-C08, C10, C14-C16, C18, C19, C55: one refinement theorem. `Invocation.v` has abstract invocations
  (settings in one of the spellings, clusters, long flags, positional words, words after `--`), a renderer
  and an evaluator that never looks at text. `InvocationProofs.v` proves that parsing the rendering of any
  well-formed invocation has the evaluated outcome; the properties are corollaries. C08 (both names of one
  list option mixed) and C18 (values that look like identifiers) are refuted in general.
* C55 for arbitrary argument vectors (`PropShift.v`, OrderSpec.v, ShiftProofs.v): the reading of one name (C74) splits
  at every place where no option name waits for its value, so a complete setting can be exchanged with what stands
  behind it; flags and words do not depend on where the emptied arguments are. Not covered: a separate value that
  looks like an option, and which error is reported when both vectors are rejected.
* C11 without exceptions (`PropUnknown.v`, UnknownSpec.v, UnknownProofs.v): `consumed` says what flags in the order of their
  declaration can make of one argument (letters of a cluster, a long name, also one left over from a cluster); every argument of an
  accepted vector that no option reads is consumed. For one argument and flags only the rule `used_up` is exact in both directions.
* C09 for flags (`PropUnused.v`, OrderSpec.v `unused`, UnusedProofs.v): with a flag that nobody gives, every run has the outcome
  (up to message texts), variables and file system of the interface without it. Clusters must not contain a second dash.
* C18 for arbitrary argument vectors (`PropOrder.v`, OrderSpec.v, OrderProofs.v): the readings of C74 of two options
  commute unless the name of one is directly followed by something that looks like the other, those of two flags
  commute unless a cluster contains a second dash (refuted: `-x-bb`) or the null character; hence for all
  permutations of the declarations.

### All argument vectors (`PropScan.v`)

  For whole programs (`PropOrderRuns.v`, OrderRuns.v): two programs with the declarations in another order return from
  parse() together, with the same values (C18_programs); the readings of C78 put on top of C18_any_vector.
  In the same way C09 and C55 (`PropRuns.v`, RunsSpec.v, RunsLift.v): C09_programs_flag, C09_programs_option, C55_programs.
* C09, C11, C12, C13, C17, C20, C54: invariants of the scanning functions for arbitrary argument vectors,
  without any well-formedness. C13 (short flags behind `--`), C17 (empty words), C11 (a dash inside a
  cluster), C20 (list overflow with assertions, empty enumerations, empty vector), C54 are refuted in
  general. `PropTail.v` (TailProofs.v): exactly which words behind `--` are left alone, and that taking a letter from
  one of them can make a long flag in front of `--` unknown.

### Validators (`PropValidators.v`)

* C32-C34 direct over all values; conversion from a wider type is modelled and refutes C32 there.
* C35 exact rule of the code, compared with the documented one (refuted: no dot is required).
* C36-C38 on the abstract file system, for all file systems and paths. C36 refuted for directories, C37 for
  `open_or_create`, C38 for an existing `dummy.txt`.

### File validators on POSIX paths (`PropPosix.v`)

* C83 `leads` (`PosixSpec.v`) are the rules of pathname resolution; the resolver obeys them with at most 40 links.
  On file systems without links the validators agree with `Validators.v`, for paths without ".." that end in a name.
  `Fs.v` treats "file/" like "file", which is not what the system does (`C83_trailing_slash_refuted`); this is the
  place where `Validators.v` is unfaithful for reasons other than what it leaves out.
* C84 exact effects (`probed`): which file is written, which entry is removed, for every state. Refuted: no trace
  (dangling links), refused files are kept, nothing outside of an output directory changes.
* C85 first look of the output validators is outside of the try block: `std::filesystem::filesystem_error` leaves them
  exactly if resolution is refused. Inside parse() it becomes a validation error (`format_parse.hpp` 689-699).
* C86 the exact condition (`stuck`) for the assertion in the destructor of the guard. `strict` says whether
  `remove_all` reports ENOTDIR (libstdc++ since GCC 12).
* Simplifications: one name per entry, effective permissions, no umask, no concurrent changes, directories are removed
  with everything below or not at all, opening does not block.

### Test helpers (`PropTestFiles.v`)

* C102 `read_access` and `write_access` exactly, by what a path resolves to. Refuted: asking changes nothing (the file is opened with
  `std::ios::out`, so its content is lost; a missing file is made; an entry `sharg_test_write_access` of a directory is removed).
* C103 `tmp_filename`: the constructor exactly (four reasons to throw, and then nothing changed), the place of the path, and `session`
  (TestFilesSpec.v): any sequence of constructions, moves, assignments, destructions and changes in the directories of the objects.
  By induction over sessions nothing that was there is touched, all that is new lies in the directories, and after the last destruction
  the file system is the old one, unless a destructor met a directory without permissions (the session says that some entries are
  gone, in any order). Refuted: with move assignment (defaulted, the directory of the target stays behind); the path
  lies in the directory (an absolute name replaces it). Trusted: mkdtemp as in glibc, the names it tries are any list of texts without
  slash; moved-from paths are empty (libstdc++); nobody else writes in between; temp_directory_path is a given text.

* C104 (`PropTestRuns.v`) a test program is a list of tests, each a list of statements (expectation, fatal failure, std::exit, signal, death
  test); the flag of the guardian is carried through, and copied into the process of a death test. Proved for all programs: silent if no
  test ends the process; if one does, failure and its name; success only if everything ran and holds; the assertions hold. Refuted:
  no undefined behaviour (std::exit in a static destructor). Trusted: googletest calls SetUp and TearDown once each and catches exceptions;
  exit called during exit continues with the new status (glibc).
* C105 `EXPECT_THROW_MSG` holds exactly for the class or a derived one, with that what(); `derived` is a relation on the table of class heads in TestRunsSpec.v.
  Refuted: the whole text is compared (NUL). The texts googletest makes (type names, differences) are parameters.

### The parser object (`PropParser.v`)

* C21-C26 invariants over arbitrary programs (sequences of calls, exceptions caught, any build mode, any
  validators). C22, C24 refuted, with the part that holds (C22 by a simulation argument); `C24_exact`: which calls lead to both.
* C92 (`PropDecl.v`): the declaration phase completely. `DeclSpec.v` says, from the list of calls alone, which names are
  taken, which objections there are and in which order; after any program (including moves and calls of parse()) the next
  declaration gets exactly this verdict with this message. Not modelled: the constraints of the templates.
* C27 the exact rule of `is_option_set` for every argument vector; it is the right one for options on
  well-formed command lines, refuted otherwise.
* C28, C29, C31 a declarative reading of the argument vector (`pieces`) that exists and is unique; parse()
  is a function of it. C31 refuted for programs with an option of their own named `version-check`.
* C30 the fixed regular expression `^[a-zA-Z0-9_-]+$` as a character class.
* C52 object identities; refuted after anything was added; C52_exact tells what parse() does after any history of calls and
  moves, including moves back to an earlier address (MoveSpec.v: `lodgers`, `ruined`, `at_home`).
* C56 declarations by `add_*` calls, then `parse()`: end to end with C07.

### Error messages (`PropDiagnosis.v`)

* C72 for every exception of the scanner: what the message says holds of the argument vector, in terms of
  `DiagnosisSpec.v` only (which arguments mention an option, which text was given, what it means). The relation
  `taken` in `DiagnosisOptions.v` describes what is left of the vector after each option. The clause for unknown
  flags counts mentions; it assumes no NUL byte and no dash inside a cluster. Refuted for flags given twice.
* C73 bounds on the number of words computed from the vector alone.

### The meaning of a vector (`PropReading.v`)

* C74 `understood` (`ReadingSpec.v`) reads a vector by relations on texts and values, without the scanner's state
  or functions; it is proved equivalent to acceptance with exactly these values, for arbitrary vectors (C01-C16
  restrict the vector to a grammar). Uniqueness and refusal follow. Skipped out-of-range list elements with NDEBUG
  (C02) and lists given by both names (C08) are visible in the reading.

### Whole runs (`PropProgram.v`)

* C20 for single calls in arbitrary states: no loop of the model is cut off; only parse() exits. For parse() after
  arbitrary declarations with the library's own pages and version check (`backend_of`): a return, an exit or an
  exception of the library, if the texts, the machine and the declarations meet the conditions of C44/C46, C62 and C20.
* C78 `pieces` (C28-C31) and `understood` (C74) composed: returning and printing are characterised by relations on
  the vector. `announced` is the set of options known, which includes options whose declaration was rejected.
* C79 `same_interface` says what two lists of declarations have to share.
* `PropAny.v` restates C27, C28, C29, C31 and C79 for programs in which declarations were rejected (`announces`: the texts known as
  options are determined by the calls alone, C92).

### Refused vectors (`PropFailure.v`)

* C80 `refused` (`FailureSpec.v`) is the counterpart of `understood`: how far a vector is read before the first error,
  the kind of the error and the values left behind, as relations on texts and values; equivalent to the scanner
  throwing. Every vector is understood or refused, never both, if no number outside the range can be given to a list
  (the finding C02). `C80_program` composes it with `pieces` for whole runs of parse(). The text of the message is not
  part of it (C72, C73).

### Subcommands of subcommands (`PropNested.v`)

* C81 `descends` (`NestedSpec.v`) reads the vector level by level with `pieces` (C28-C31); the worlds between the
  levels are those parse() left, whether it returned or threw. The run of the whole program is proved to be the run on
  the innermost parser. Conversely a parser at the bottom arises in no other way (`C81_complete`).

### Floating point numbers (`PropFloat.v`)

* C75 which characters `std::from_chars` reads and which number they denote is written out (`Charconv.v`) and
  proved equivalent to a grammar (`FloatSpec.v`); rounding that number to the type is a parameter.
* C76 the replacement calls `strtod` and looks at `errno`, which is a state that outlives the call. Agreement with
  the library is proved under conditions each of which is shown to be needed: after one number out of range no
  number is accepted any more in the process (`C76_poisoned`, for all sequences); double and long double are
  read with the accuracy and the range of float; leading blanks and 0x are accepted.
  `C76_reads`, `C76_accepted` and `C76_range` say exactly what is read, by a grammar of strtod's numbers (StrtoSpec.v),
  and `C76_agrees_exact` in which cases both functions give the same result.
* C77 functions of the replacement the parser does not use: buffer overflow from 100 characters on, hexadecimal
  format loses the last two digits, `to_chars` stays in its range.

### Floating point values (`PropFloatShow.v`)

The numbers of a type are those of `FloatRoundSpec.v` (`grid`, rational numbers); nothing there mentions the algorithms of
`FloatNum.v`.

* C87 rounding is to nearest-even (`rounds_to`, all three types, with subnormal numbers); `operator<<` shows the nearest
  decimal of six significant digits. Numbers given with at most six digits survive showing and reading, also subnormal ones
  (the proof needs that no two such decimals round to one normal number); refuted for more digits. `C87_exact`: exactly the values some text of at most six digits is read as.
* C88 exact behaviour of ranges and lists, also if the validator has another floating point type than the option. Refuted:
  the message (`std::to_string`, six digits behind the point) can show a value inside the range shown; 0.1 is refused by a
  validator with the literal 0.1 on a float option.
* C89 the value is converted to the type of the validator when it is called: truncated (proved exactly), undefined behaviour
  for NaN, infinities and large numbers. Refuted by 20.9 for the range from 1 to 20.
* C90 which arguments are out of range is proved exactly; the message (`numeric_limits::min()` is the least positive normal
  number) is refuted.

Simplifications: narrowing of a finite double beyond the range of float is undefined in C++, infinity here; NaN has no sign
and payload; rounding mode to nearest; `FLT_EVAL_METHOD` 0.

### Pages (`PropHelp.v`)

* C39, C57 the page is exactly the layout of a list of entries computed by an independent filter.
* C40-C42 the layout of words: proved for documented markup, refuted for other uses of the backslash. `PropWidth.v` counts what is
  missing for every text (C41_exact).
  `PropTerm.v` says for every term where its description begins, and for exactly which terms C42 is true.
  `PropWrap.v` (WrapSpec.v, WrapFilled.v): a paragraph is `filled` (no break where the next word fits) and `aligned` (lines begin below one
  another; refuted after a first word that is too long), on terminals too (`C40_seen`), and not printed at all exactly if a word ends within markup.
* C106 `PropFont.v` (FontSpec.v, FontProofs.v): `seen` is what a terminal shows of the output (characters with their fonts), `marked`
  what the markup asks for; both are independent of to_text. Texts, entries of options, titles. Blanks are left out (an indentation within a font is underlined).
* C107 `PropLibVersion.v` (LibVersion.v, LibVersionSpec.v, LibVersionProofs.v): the macros of version.hpp as functions of the four numbers;
  `C107_pinned` ties them to the constants the other models use. The preprocessor itself is not modelled.
* C108 `PropHtmlFont.v` (HtmlFontSpec.v, HtmlFontProofs.v): `shown` reads the tags of strong and em as a browser does, `tagged` reads the markup;
  other tags and entities of HTML are not part of this specification (C45's theorems remove every tag, so they do not tell strong from em).
* C43-C45 HTML: escaping is proved, pages are well nested if the texts are (`C44_exact`, HtmlNested.v: and only then); refuted for texts with `<`, `&`. `C45_exact` (HtmlShown.v) gives the
  exact set: a text is shown literally iff it has no `<` and no reference to a character (`browser` recognises tags and
  references in one pass; a reference split by markup is none).
* C46 no exception for texts without dangling backslash and synopses with a blank; refuted otherwise.  `PropPage.v`: for each
  page the exact condition on the texts it shows (`PageSpec.v`), and the only outcomes otherwise.
* C58 the default printed is read back by the option; refuted for char, lists of 8 bit integers, paths.
  `PropDefault.v` has the equivalence for every type of element, lists, messages of the developer, required options.
* C59 refuted for texts starting with a roff control character.
* C60 exact mapping, refuted for short-only options and flags. `PropTdl.v`: all names of a description, and exactly when they are distinct.
* C65 the values of the entries of a tool description: proved for booleans, integers, characters, strings and
  positional options, refuted for lists, enumerations and paths.

### Version check (`PropVersion.v`)

* C47-C49 the decision as a state machine over histories of runs, with other programs writing files other
  than the cookie in between. C47 (files), C48 (after "always"), C49 (unwritable directories) refuted in part.
  `C48_exact` (`PropDays.v`): with a usable directory every history goes the course of `DaysSpec.v`, an automaton whose state is a time
  and a word (no files, no texts): who is asked, when a request is made, what is kept; determined by `C48_determined`.
  `C49_temporary`: the same where the temporary directory has to serve; `C49_forgotten`: where the chosen directory cannot be written to,
  every run is like the first and nothing but a stray file in the working directory changes.
* C50 comparison against a specification on numbers; refuted for components of 2^31 and more and for
  one-line files. `PropVersionEnd.v`: the messages for every file and all numbers (`seen`, `sharg_line`). `C50_address`: the address in the message.
  `PropWording.v` (WordingSpec.v): all texts the version check can write, line by line, and who gets to see them; one of them does not say how to switch it off.
* C51, C63, C64 the command line: characters, non-interference, shell words. C63 and C64 refuted in part;
  C64_exact (`PropVersionEnd.v`) is the equivalence.
* C61, C62 answers and outcomes; refuted for RETURN, missing terminal, missing HOME or temporary directory,
  assertions. C62_exact (`PropVersionEnd.v`): which of four endings a run has, for every state of the files in which
  nothing is inside of a directory that is not there (`rooted`; needed because `fs` is any map from keys to nodes).
 `C61_offered`: the answers offered in the text of the question against what they do.
* C91 (`PropAge.v`) `get_time_diff_to_current` with the doubles of `FloatNum.v`: the exact threshold for every line of a
  cookie; written times are compared exactly, which discharges the hypothesis `clock_ok` of C48 and C49. Refuted: times in
  the future and `inf` silence the check; the replacement of `from_chars` is off by up to 64 seconds; a stale `errno` makes
  every answer old.

* C94 (`PropOutline.v`): whole pages. `OutlineSpec.v` says, from the declarations and the meta data alone, which titles,
  paragraphs, labelled lines and entries a page has (`outline`), and how a terminal, a browser and man(1) show each of them.
  Proved: the words of the pages for the terminal (any width), in HTML and for man are the words of the header followed by
  those of the outline, nothing more and nothing less; the copyright page is exact to the character; names and explanations
  of tool descriptions are exact. C78 says that this is the page a program prints.

* C95 (`PropPromise.v`): the texts of `get_help_page_message` (`help_of`). `PromiseSpec.v` has the sentences (`promise`), with
  numerals and separated lists given by relations. Proved: the sentences; that a text determines the validator among those
  of a type (`clear`); that messages repeat the listing of the text; that chains are described in order. Refuted where
  listings are ambiguous.

* C96 (`PropFiles.v`): the validators for files and directories, case by case. `FilesSpec.v` says where a path leads
  (`leads`, a relation), what is there, whether there is room for a new entry, and in a table which verdict, message and
  effect follow. The rows include those of C36 to C38 that are surprising (an existing output file is removed; it is
  removed even if it is refused; without permission to remove it is emptied; in debug builds the program aborts).

* C97 (`PropElements.v`): which overload of a validator runs. A `std::filesystem::path` is a range of paths and a
  `std::string` a range of characters; where the range overload is viable it is the better match. `ElementsSpec.v` gives the
  elements of a path by a relation. Proved: exactly these are compared with the pattern of a `regex_validator`; paths in a
  list are compared as a whole; lists of paths ignore repeated slashes; validators of numbers compare the characters of a
  text. Refuted: that a path is compared as a whole (the validator of the tutorial refuses `data/seasons.tsv`; the validator
  for absolute paths of the documentation refuses every path if the variable is a path).
* C98 (`PropStatic.v`): what the compiler decides. `Static.v` models C++ types (a class is the list of facts the constraints ask
  for), the concepts, and overload resolution (viable candidates; better conversion, function before template, more constrained
  template). `StaticSpec.v` says without candidates how a type is read (`reads`). Proved: the winner of a resolution in general, the overload for
  every type, when a call is ambiguous, which plain types are admitted and that they compile, that `Values.v` reads and names a type in
  the branch of the chosen overload, and that `Validators.v` goes through elements exactly when the range overload wins.
  Refuted: an admitted type compiles (`std::set<int>`, `std::string_view`, named and streamed, derived from `std::string`); `long long` is
  called a 64 bit integer. Trusted: the rules of C++20 as written in `Static.v`; the facts of standard types listed there.
* C99 (`PropConfig.v`): the table of `config.hpp` is written down in `ConfigSpec.v` (kinds, parameters, marks). X: a design error in
  every state. Effect: for each pair of kind and parameter, two permitted configurations differing in it only either can or cannot
  change what arguments are read as (any interface around it) and any page; both directions proved, hence the table is exact, except for
  `required` of flags (refuted). Refuted as well: design error for `required` of positional options, the full stop after a default message.
* C100 (`PropText.v`): the functions of `Base.v` that specifications and model share (character classes, decimal numbers, pieces of
  texts, calls in a row) are the documented ones. `TextSpec.v` contains tables of characters and Horner's rule and imports nothing of
  the model, so a mistake in `Base.v` cannot hide in both places.
* C101 (`PropInfo.v`, InfoSpec.v, InfoProofs.v): parser.info over all sequences of calls. `says_only` lists the members and their
  initial values as the header does; `last_written` is the last assignment; `lived` is any sequence of calls on a parser with
  variables and files changing in between, and every run is one (`C101_runs`). `C101_sub_parser` finds the one parse() that made
  the sub-parser and the calls made on it, so that the same theorems apply to it, level by level.

### Regular expressions (`PropRegex.v`)

* C93 `Regex.v` models the scanner and the compiler of libstdc++ token by token (ECMAScript grammar, `char`, "C" locale).
  The automaton is replaced by an expression, and the search through the automaton by derivatives: which texts match is
  the same, since no back references or captures are read. `RegexSpec.v` has a syntax of expressions, what each says about
  a text (a relation), and how each is written. Proved: every expression that is written down and stays below the
  limit of 100000 states (`load`) is read back, matches exactly the texts it describes and is found exactly where it occurs;
  twelve families of texts that are no expressions are rejected. Refuted: `\cA` (the letter A in libstdc++). The functions `name_matches` and `match_version`, used
  everywhere else, are the answers of `std::regex` to the patterns in the code. The languages of the patterns of
  documentation and tests are given explicitly. `regex_validator` and a whole run of the parser follow.
  Answered `Unknown` by the model (the oracle of `regex_validator` remains for these): back references, look-ahead, word
  boundaries, collating symbols and equivalence classes, more than 100000 states. Not modelled: recursion depth and running time of the
  matcher (long texts can exhaust the stack), the texts of `std::regex_error`.

### Overlapping runs of the version check (`PropOverlap.v`)

Every access to the file system is one step; steps of any number of runs and arbitrary actions of other
programs are interleaved by an arbitrary schedule. C66 connects this with the single-run model and bounds the
number of steps. C67-C70 are invariants of all schedules (`sat` in `VersionStepsProofs.v`: every step keeps an
invariant of the file system). C70: what cannot happen is proved, what can (lost, garbled and repeated answers)
is shown by schedules. C71 every beginning of the answer of the server.

### Time (`PropWaiting.v`)

* C82 `Waiting.v` gives the events of a check (VersionCheck.v) a duration and models futures, moves and destructors of
  any number of parsers. What is not there: scheduling of the detached thread, failure to start it, parsers of static
  storage duration (their destructors would run after `std::exit`). Full claims about parse() and unfinished requests
  refuted.

## 4. Trusted base

* Coq's kernel, including its virtual machine (`vm_compute`) for examples and refutations.
* `Print Assumptions` of each theorem is printed during the build: "Closed under the global context" for
  all of them, i.e. no axioms. (`ZArith`/`Lia` load `Coq.ssr.ssrunder`, which contains module parameters;
  no theorem uses them.)
* The reading of the C++ code, and of the C++ standard library behaviour written into the model (cited at
  each definition): `from_chars`, stream extraction of paths, `getline`, `substr`/`insert`/`replace`,
  `std::sort`/`unique`, `filesystem` queries, `ofstream`.
* Oracles, universally quantified in every theorem: validators (any function), rounding and printing of
  floating point numbers (outside of C87-C90, where they are `Ieee.v` and `FloatNum.v`), `std::regex` (in C19 to C34 any function; the real one is `Regex.v`, C93), the age of a cookie (`ve_recent`; the one of the code is `Age.v`), `std::system`,
  the converters of the TDL library, terminal size and kind, licence text.

## 5. Not modelled

Overload resolution beyond the sets of C98 (`Static.v`: constraints, `parse_option_value`, validators, names; classes are given by
the facts the constraints ask for, and conversions between classes are left out), locales
other than "C", Windows, the TDL library itself, scheduling of the thread that makes the request
(overlapping runs share one view of the permissions), memory exhaustion,
floating point environments other than the default, sizes beyond 2^32 in the layout code, symbolic links and permissions of directories on the way to
a file (outside of `Posix.v`), narrowing of 64 bit integers by the TDL library (`IntValue`), user-defined `operator<<`/`operator>>`,
the line "SeqAn version" of programs that include SeqAn (format_base.hpp 555-558).
