{
 "C02": "False in builds with NDEBUG: an out-of-range element of a list disappears silently (without NDEBUG: assertion failure). Proved without NDEBUG and for element types without a range. C08_exact and C02_positional_exact give the contents of lists exactly in both build modes; C02_lost counts what is lost. C02_element: an element is what a variable of its type would be, whatever that held.",
 "C04": "False: paths with blanks or a leading quote are cut or rejected by stream extraction. The accepted texts are characterised exactly.",
 "C05": "Proved for non-empty tables; with an empty table the error path throws std::out_of_range instead.",
 "C08": "False if short and long identifier are mixed (the long ones overwrite the short ones). Proved when each list option is given through one identifier. C08_exact gives the contents for every well-formed command line: the values given by the long name if there are any, else those given by the short name.",
 "C11": "False for a dash inside a cluster: -x-foo is accepted like -x --foo if both flags are declared, and -x- sets another flag without long name. Proved for all other arguments (without NUL bytes). C11_consumed: in every accepted vector each argument in front that no option reads is used up by the flags in the order of their declaration or is a word, without exceptions; C11_alone_exact: exactly which arguments a program with flags only accepts.",
 "C13": "False: short flags are searched behind '--' as well, and special requests (--help, ...) are honoured there. Proved for the scanner and for whole runs of parse(), for words that are not empty, do not look like a cluster containing a declared short flag and are no special requests. C13_exact: the words that are left alone are exactly those without a letter of a flag that is not given as a short flag in front; C13_front_refuted: taking such a letter makes --long in front unknown.",
 "C17": "False: empty words are skipped. Proved instead: they are ignored, as if absent.",
 "C18": "False for accepted input when a value looks like another option (C18_declaration_order_refuted), and for flags when a cluster contains a second dash (C18_dash_refuted). Proved for every other argument vector (C18_any_vector): any number of declarations in any other order, accepted by one order exactly if by the other, with the same values, provided no option name is directly followed by an argument looking like another option, what the options leave contains no cluster with a second dash or null character, and validators do not modify the file system; C18_declaration_order_partial is the special case of well-formed invocations. C18_programs lifts this to whole programs: declarations, parse(), with version check requests and the other library options in between.",
 "C19": "Proved for well-formed invocations (validators run) and all argument vectors (message). The number in the message is wrong for list positional options.",
 "C20": "Every call terminates, for all states, with the library's pages and version check; only parse() ends the program. Documented outcomes of the scanner and of parse() proved for non-empty enumerations, behaved validators, (without NDEBUG) no lists of numbers, page texts as in C44/C46 and a machine as in C62; the excluded cases are refuted.",
 "C32": "Proved for values of the validator's own type. False for options of a wider type, which are narrowed before the comparison; C32_exact says what is compared.",
 "C35": "The exact rule of the code is proved; the documented rule is sufficient but not necessary (no dot is required before the extension). Names with bytes above 127 are undefined behaviour.",
 "C36": "input_directory_validator proved; input_file_validator proved for paths that are not directories, and false for directories, which are accepted (C36_input_file_exact).",
 "C37": "create_new proved. open_or_create deletes existing files; C37_open_or_create_exact says what is left in every case.",
 "C38": "Proved unless the directory contains an entry dummy.txt, which is deleted; C38_existing_exact says what is left in every case.",
 "C53": "The claim is false for integers and paths (the text may be converted in part), proved for the other types; C53_exact says for all types what is stored.",
 "C54": "False: the blank before 'and' is missing. The printed text is characterised exactly.",
 "C22": "False: identifiers and option texts of a rejected declaration stay registered. Proved: nothing else changes, and nobody notices who does not use these names; rejected positional options leave no trace.",
 "C24": "False: subcommands can be added after positional options. Proved for the other order; C24_exact says exactly which sequences of calls give a parser with both.",
 "C27": "False for flags in clusters, values looking like a flag, and the other spelling of an option. The exact rule of the code is proved for every argument vector; it is the right one for options on well-formed command lines.",
 "C31": "Proved for interfaces that do not declare an option version-check of their own (this is accepted, see the refuted theorem).",
 "C52": "False: operations keep pointing to the old object. Proved for moves before anything was added and after parse(); C52_exact gives the result of parse() after any moves.",
 "C39": "Proved for -h, -hh and tool descriptions (every text, every sequence of declarations); exported html and man pages leave out advanced entries contrary to the documentation (refuted), the entries they do list are characterised.",
 "C40": "Words kept always, width for documented markup; lines are filled, and aligned if the first word fits; the same holds of what is seen on a terminal; not printed exactly if a word ends within markup (dangling backslash). Refuted: text after a null character is lost, undocumented markup makes lines too wide, terms are never wrapped, the line after a first word that is too long begins one column further right.",
 "C41": "Proved for the documented markup (\\fB, \\fI, \\fP, \\-); refuted for other uses of the backslash in both directions. C41_exact counts what is missing for every text that can be shown and has no \\f\\ in it.",
 "C42": "Proved for terms without markup and for all terms of at least five characters (all names of options); refuted for short terms with markup and empty descriptions. C42_exact: the claim is true of a term exactly if it has no markup or at least five of its characters are seen.",
 "C44": "Proved for texts without angle brackets and with balanced markup; refuted otherwise. C44_exact: among pages whose texts have no angle brackets, exactly those with balanced markup everywhere are well nested.",
 "C45": "Proved for texts without < and & and for the title; refuted in general. C45_exact: exactly the texts without < and without a reference to a character are shown literally.",
 "C46": "Proved for texts without dangling backslashes and synopses with a blank; refuted otherwise. The exact condition for each page (help, short help, version, HTML, man) and the only ways to fail are proved (C46_*_exact, C46_failures).",
 "C58": "Proved for integers, bool, named enumerations; strings and paths are shown quoted such that the value can be read back. Refuted for char, lists of 8 bit integers and paths. C58_exact, C58_lists and C58_string_lists say for every type of element (floating point: C87) and every value whether the text shown is read as the value again; C58_message and C58_required what is shown otherwise.",
 "C59": "The part that holds is C39_man_page_partial; refuted for texts that start with a control character.",
 "C60": "Exact characterisation of the mapping and of all names, and of when the names are distinct; refuted for short-only options, flags, advanced flags, and options called like a positional option.",
 "C47": "Proved: no request, question, message or cookie in any opted-out run, and a stored NEVER silences all runs without an explicit option. False: with notifications switched off the configuration directories are created and dummy.txt (a whole directory of that name too) is deleted.",
 "C48": "Proved for histories in which nobody answers 'always', and for the day after any question. False after 'always': the stored time is not renewed, so from the next day on every run sends a request. Reading back a time stamp: the condition clock_ok, proved for the code in C91. C48_exact describes every history with a usable configuration directory run by run; C48_after_always says when exactly requests are made after 'always'.",
 "C49": "Proved as long as the configuration directory stays usable, or the temporary directory where the former cannot be made (C49_temporary). False if the directory chosen is not writable: the decision is stored in the working directory and never read; then every run is like the first one (C49_forgotten, exactly). With a usable directory C48_exact is the complete course, including this decision.",
 "C50": "The claim about numbers holds below 2^31 and, in debug mode, for files with two lines, and is refuted otherwise; C50_release_exact and C50_debug_exact give the messages for every file and all numbers (those of 2^31 and more count as 0, the only line of a file counts for Sharg too). C50_address: the message names the address exactly if the program has one. C50_wording: in every run only the five texts written out in WordingSpec.v are shown, the question only on a terminal, the notice to users only in release builds and those to developers only in debug builds; C50_switch_off: all notices say how to switch them off except the one about an application newer than registered (refuted for it).",
 "C61": "Proved except for the defaults: RETURN skips although 'always' is announced as the default, and without a terminal no check is made although the comment says so. C61_offered: every answer in the text of the question does what its words say.",
 "C62": "Proved if HOME is set, the temporary directory exists and (without NDEBUG) there is no dummy.txt; refuted without each of these, even with notifications switched off. C62_exact says for every state of the files which of the four endings a run has (files only inside of directories that are there).",
 "C63": "Non-interference proved; the Sharg version is not sent contrary to the documentation.",
 "C64": "Proved if HOME and the temporary directory contain no characters special to the shell; refuted otherwise; C64_exact is the equivalence for every request.",
 "C65": "False for lists and enumerations (described as boolean false) and paths (quoted). Proved for booleans, integers, characters, strings and positional options, floating point numbers; what lists, enumerations, user types and paths get instead is proved as well.",
 "C66": "",
 "C67": "",
 "C68": "Proved; an 'always' given to another run does count (refuted for consent of the run's own user only).",
 "C69": "",
 "C70": "Decisions and times come from some run (proved, times of ten digits); answers can be lost or garbled by an overlapping run, and a question can be asked twice (refuted).",
 "C71": "Proved for release builds; in debug builds the version registered may look older than it is (refuted).",
 "C72": "Proved for all kinds of errors and messages; a declared flag given twice (or by both names) is called unknown (refuted). The clause on flags assumes no NUL byte and no dash inside a cluster.",
 "C73": "",
 "C74": "Exact in both directions for wf_decls (the rules verify_identifiers and the positional checks enforce).",
 "C75": "Exact in both directions, for every rounding; the pattern std::from_chars reads is written out from the C++ standard.",
 "C76": "Agreement proved for texts without leading blank and 0x whose value is not changed by float (or type float) as long as no earlier number was out of range; each of these conditions is needed (refuted). Never undefined behaviour as called by the parser. C76_reads and C76_accepted give exactly what is read and with which value (blanks, signs, hexadecimal numbers with their powers); C76_agrees_exact the exact cases of agreement for texts read before any number was out of range.",
 "C77": "Ranges of fewer than 100 characters and to_chars proved; longer ranges overflow the buffer, the hexadecimal format loses the last two digits and the scientific format accepts an exponent mark anywhere (refuted, with general theorems saying what happens instead).",
 "C78": "Both equivalences proved. That only declared options are known holds if no declaration was rejected and is refuted otherwise.",
 "C80": "Exact in both directions, for the scanner and for whole runs. That every vector is either understood or refused needs the conditions of C20 on the declarations and is refuted without.",
 "C81": "Proved for all depths; C81_complete: a parser at the bottom exists only when each level met its subcommand before any error of the scan for subcommands (descends), so that condition is exact. The name does not determine the way: dashes may be part of a name (refuted).",
 "C82": "Bound, exact wait, accounting and opting out proved. parse() waits for the commands that look for a program (refuted); slow requests, std::exit and moving onto a parser that made a request leave requests unfinished (refuted).",
 "C83": "Resolution is equivalent to an inductive set of rules; agreement with the plain model proved, in debug builds with a recent libstdc++ where only directories are on the way. A slash behind a file name is dropped by the plain model (refuted).",
 "C84": "Exact effects proved. A dangling link is accepted by create_new, its target stays and the link is removed (refuted); refused unwritable files and links are removed (refuted); dummy.txt being a link, a file outside of the directory is emptied (refuted).",
 "C85": "Input validators: proved. Output validators let filesystem_error out exactly if the first look at the path is refused (loop of links, unsearchable directory), before anything is changed.",
 "C86": "Exact condition proved; with a recent libstdc++ a path through a file (\"a.txt/x\", \"a.txt/\") ends the process instead of being reported (C86_path_through_file).",
 "C87": "Rounding and showing are exact for all three types. Reading back the shown default: proved for values given with at most six significant digits, zeros, infinities, NaN; false for values with more digits; C87_exact: exactly the values which can be given with at most six significant digits are read back.",
 "C88": "Exact for validators and options of floating point types, same or different. The claim about messages is false (1e-7 outside of [1e-8, 2e-8] is reported as 0.000000 not in [0.000000,0.000000]); double validators on float options refuse 0.1 with a message that shows equality. On integer options the value is rounded to the floating point type first: exact for integers that fit into the mantissa, wrong beyond.",
 "C89": "False: the value is truncated to the integer type of the validator; what is compared and reported is proved exactly, and for which numbers the behaviour is undefined.",
 "C90": "Which arguments are refused is proved exactly. The range in the message is wrong: it starts at the smallest positive number (shown as 0.000000), negative numbers are accepted.",
 "C91": "Exact for the standard library's from_chars (every line, exact threshold). With the replacement times below 2^31 are read up to 64 seconds wrong, and after a number out of range (errno) nothing is recent. That lines other than times are old is false for times in the future and inf.",
 "C92": "Complete: verdict and message of every declaration after every history of calls.",
 "C93": "Exact for every expression of the grammar below 100000 states (back references, look-ahead, word boundaries and collating symbols excluded). That the documented pattern for absolute paths accepts every absolute path with an extension is false.",
 "C94": "Complete for texts without characters that the kind of page would take for markup of its own (escape characters, markup of HTML, line breaks and requests in man pages).",
 "C95": "Exact sentences for all validators. That equal texts mean equal checks is false for values and extensions with commas, for the empty word, for floating point numbers beyond six digits and for patterns that contain the words between two patterns; proved otherwise.",
 "C96": "Complete tables for 7 bit file names and file systems that are trees (no links, no \"..\").",
 "C97": "Refuted for single paths with a pattern (the elements of the path are compared) and for texts with a range of numbers (the codes of the characters are compared); the exact behaviour is proved.",
 "C98": "Refuted in general: the constraint admits std::set<int>, std::string_view, enumerations both named and streamed and classes derived from std::string, which no overload (or no single one) reads; and long long is shown under its own name. Proved for all types made of numbers, texts, paths and lists; the chosen overload is exact for every class given by its facts.",
 "C99": "The table is proved exactly for every kind and parameter except required of flags, which has no effect anywhere (refuted); two sentences of config.hpp are refuted as well.",
 "C100": "The functions of the C and C++ standard libraries the model uses, against tables and a definition of decimal notation that share nothing with the model.",
 "C55": "Well-formed command lines: any interleaving (C55_interleaving). Arbitrary argument vectors: an option with its value may be exchanged with any arguments behind it which neither mention that name nor end with the name of an option (C55_any_vector; C55_case_open shows the last condition is needed). C55_programs lifts this to whole programs, with requests for pages and for the version check in between.",
 "C09": "Options: equality of the whole runs with and without the option, for every argument vector. Flags (C09_unmentioned_flag): same outcome, variables and file system with and without a flag that nobody gives; C09_case_dash shows that -a-brief gives the flag brief. Whole programs: C09_programs_flag and C09_programs_option (declarations, parse(), options of the library in between). There the names of an unused option must not occur behind \"--\" either: parse() looks for --help and the like in all arguments and skips the value of every declared option, so declaring -t changes the meaning of \"-- -t --help\" (C09_case_behind).",
 "C101": "A new parser says nothing but its name (section 1, everything else empty); after any calls parser.info is the last thing assigned; a sub-parser takes over only the name its parser has when parse() makes it, and the calls it lives through are those made on it afterwards, so the statements apply to it in turn.",
 "C102": "read_access: exactly the readable entries at the end of the links. write_access: exactly what can be opened for writing, with the change opening makes; of a directory without an entry sharg_test_write_access: nothing changes. Refuted: asking changes nothing (content of the file is lost).",
 "C103": "The constructor either throws and changes nothing or makes one new empty directory, and succeeds while a name is free; a plain name lies in it. Over all sessions of constructions, moves, assignments, destructions and work inside: existing entries are untouched, everything new is in a directory of an object, all is gone after the last destructor. Refuted: with move assignment (the directory of the target stays), and for absolute names.",
 "C104": "For every list of tests: nothing is said and the status is the result of the expectations if no test ends the process; std::exit in a test gives failure and its name, whatever the status; success means that all tests ran and hold. Refuted: the run is defined (std::exit in a static destructor).",
 "C105": "EXPECT_THROW_MSG holds exactly if an object of the class or a derived one is thrown and what() is the text; one failure at most; the documented exceptions are those parser_error catches. Refuted: the whole text is compared (what() ends at NUL).",
 "C106": "The font of every character, proved for every text that is printed (C106_fonts); as roff shows it if each font is ended before the next. Refuted otherwise: fonts add up, and go on in the next text.",
 "C107": "Order of numbers proved for minor versions and patches below 100, refuted beyond; texts identify every release; candidates have the number of their release and are no version to the version check.",
 "C108": "The font of every character of converted texts without '<' (C108_fonts); as roff shows it if each font is ended before the next. Refuted otherwise, and for fonts that are not ended."
}