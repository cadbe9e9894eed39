{"id": "C01", "title": "Integer option values mean exactly what their decimal text says", "statement": "For an option (or positional option) bound to an integer variable, the text given on the command line is accepted if and only if it is an optional '-' (signed types only) followed by one or more decimal digits denoting a number inside the range of the type; the variable then holds exactly that number. Printing any in-range number in decimal and passing it back yields the same number. Every other text makes parse() throw user_input_error.", "quantifier": "for every integer width and signedness and every argument string", "why_tests_cant": "the set of strings is infinite and the range boundary differs per type; tests try a handful of literals", "anchors": ["include/sharg/detail/format_parse.hpp: parse_option_value (arithmetic overload)", "include/sharg/detail/format_parse.hpp: throw_on_input_error"]}
{"id": "C02", "title": "No value given to a list option is silently dropped", "statement": "Whenever parse() returns normally, a list option (or list positional option) holds one element for every value the user supplied for it, in order; a value that cannot be represented makes parse() throw.", "quantifier": "for every element type, every list of values and both build modes (with and without NDEBUG)", "why_tests_cant": "the loss only shows for out-of-range elements in release builds; unit tests of the list case use in-range values and cannot enumerate all values", "anchors": ["include/sharg/detail/format_parse.hpp: parse_option_value (container overload)", "include/sharg/detail/format_parse.hpp: throw_on_input_error"]}
{"id": "C03", "title": "Bool option values are exactly 0, 1, true, false", "statement": "A bool-valued option accepts precisely the four spellings 0, 1, true, false with the obvious meaning; every other text makes parse() throw user_input_error and leaves the variable unchanged.", "quantifier": "for every argument string", "why_tests_cant": "infinitely many other strings must be rejected", "anchors": ["include/sharg/detail/format_parse.hpp: parse_option_value (bool overload)"]}
{"id": "C04", "title": "A file-system path argument is stored verbatim", "statement": "For an option bound to a std::filesystem::path, any non-empty argument string is accepted and the stored path is that string.", "quantifier": "for every non-empty argument string", "why_tests_cant": "spaces, quotes and leading blanks interact with stream extraction; tests use plain names", "anchors": ["include/sharg/detail/format_parse.hpp: parse_option_value (istreamable overload)"]}
{"id": "C05", "title": "Enumeration values: name lookup, completeness of the error message, print/parse round trip", "statement": "For a named enumeration, an argument is accepted iff it is one of the registered names and then denotes that name's value; otherwise the error lists every registered name exactly once in a deterministic order (by value, then by name). Printing any value that has a name and parsing the result gives the value back.", "quantifier": "for every name table, every argument and every enumeration value", "why_tests_cant": "tables are user supplied; ordering and aliasing combinations are unbounded", "anchors": ["include/sharg/detail/format_parse.hpp: parse_option_value (named_enumeration overload)", "include/sharg/enumeration_names.hpp: operator<<"]}
{"id": "C06", "title": "All documented spellings of an option are equivalent", "statement": "'-o v', '-ov', '-o=v', '--opt v' and '--opt=v' have the same effect on every variable and on the outcome of parse(), wherever they occur on the command line, whatever else is given.", "quantifier": "for every declared interface, every value v that the joined spellings can express, and every surrounding command line", "why_tests_cant": "the surrounding context is unbounded", "anchors": ["include/sharg/detail/format_parse.hpp: find_option_id", "include/sharg/detail/format_parse.hpp: identify_and_retrieve_option_value"]}
{"id": "C07", "title": "Rendering an intended invocation and parsing it gives the intended assignment", "statement": "Take any declared interface and any intended invocation (a sequence of option settings in any spelling, flag clusters, long flags, positional values, then optionally '--' and further positional values). Writing it down as an argument vector and parsing it has exactly the effect the invocation describes: each option gets its values in order, each mentioned flag becomes true, positional options get the remaining values in order, with the same error when a value is bad, missing or superfluous.", "quantifier": "for every interface accepted by add_option/add_flag/add_positional_option and every well-formed invocation over it", "why_tests_cant": "the space of interfaces and invocations is unbounded; the parser rescans and edits a shared argument vector, so interactions cannot be sampled exhaustively", "anchors": ["include/sharg/detail/format_parse.hpp: parse", "include/sharg/detail/format_parse.hpp: get_option", "include/sharg/detail/format_parse.hpp: get_flag", "include/sharg/detail/format_parse.hpp: get_positional_option", "include/sharg/parser.hpp: parse"]}
{"id": "C08", "title": "A list option collects all of its values in command line order", "statement": "A list option holds, after a successful parse, exactly the values given for it on the command line, left to right, and its default content is discarded iff at least one value was given.", "quantifier": "for every list of values, every mix of short and long spelling and every surrounding command line", "why_tests_cant": "order and mixing of spellings is combinatorial", "anchors": ["include/sharg/detail/format_parse.hpp: get_option_by_id (container)", "include/sharg/detail/format_parse.hpp: get_option"]}
{"id": "C09", "title": "Options that are not mentioned keep their value", "statement": "If no argument before '--' mentions an option's identifiers, parsing leaves the variable of that option untouched and does not run its validator; variables not bound to the parser are never touched.", "quantifier": "for every interface and every argument vector", "why_tests_cant": "requires quantifying over all command lines that do not mention the option", "anchors": ["include/sharg/detail/format_parse.hpp: get_option", "include/sharg/detail/format_parse.hpp: get_option_by_id"]}
{"id": "C10", "title": "Required and repeated options are diagnosed", "statement": "A required option that is not given makes parse() throw required_option_missing; a non-list option given more than once (same identifier twice, or once by each identifier) makes parse() throw option_declared_multiple_times (unless an earlier error is reported); a list option may be repeated.", "quantifier": "for every interface and every argument vector", "why_tests_cant": "positions and other arguments are arbitrary", "anchors": ["include/sharg/detail/format_parse.hpp: get_option", "include/sharg/detail/format_parse.hpp: get_option_by_id"]}
{"id": "C11", "title": "Unknown options are always rejected", "statement": "If an argument before '--' starts with '-' (and is not just '-'), is not the value of a preceding option, does not start with a declared option identifier and is not composed of declared flags, parse() never returns normally.", "quantifier": "for every interface and every argument vector containing such an argument", "why_tests_cant": "the unknown argument may occur anywhere among arbitrary others", "anchors": ["include/sharg/detail/format_parse.hpp: check_for_unknown_ids", "include/sharg/detail/format_parse.hpp: flag_is_set"]}
{"id": "C12", "title": "A successful parse has consumed every argument", "statement": "When parse() returns normally every non-empty argument has been used as an option, an option value, a flag or a positional value: with k single positional options and no list positional, exactly k non-empty positional words were present.", "quantifier": "for every interface and argument vector", "why_tests_cant": "unbounded number and position of surplus words", "anchors": ["include/sharg/detail/format_parse.hpp: check_for_left_over_args", "include/sharg/detail/format_parse.hpp: get_positional_option"]}
{"id": "C13", "title": "Everything after '--' is positional", "statement": "Arguments after the first '--' are never interpreted as options, flags or special requests; they are delivered verbatim to the positional options.", "quantifier": "for every interface and every argument vector", "why_tests_cant": "any flag letter and any later word could be affected", "anchors": ["include/sharg/detail/format_parse.hpp: flag_is_set(char)", "include/sharg/detail/format_parse.hpp: parse", "include/sharg/parser.hpp: determine_format_and_subcommand", "include/sharg/parser.hpp: detailed description (POSIX conventions)"]}
{"id": "C14", "title": "Flag clusters are equivalent to separate flags", "statement": "'-abc' has the same effect as '-a -b -c' for declared flags a, b, c, in any order and anywhere on the command line.", "quantifier": "for every set of flags, every cluster and every surrounding command line", "why_tests_cant": "clusters are combinatorial", "anchors": ["include/sharg/detail/format_parse.hpp: flag_is_set(char)", "include/sharg/detail/format_parse.hpp: get_flag"]}
{"id": "C15", "title": "Flags report exactly whether they were given", "statement": "After a successful parse, a flag variable is true iff the flag was given in its short or long form before '--'; giving a flag twice is not accepted silently.", "quantifier": "for every set of flags and every argument vector", "why_tests_cant": "needs all argument vectors", "anchors": ["include/sharg/detail/format_parse.hpp: flag_is_set", "include/sharg/detail/format_parse.hpp: get_flag"]}
{"id": "C16", "title": "Positional options are filled in declaration order", "statement": "The i-th non-list positional option receives the i-th positional word; a list positional option receives all remaining words in order; fewer words than positional options makes parse() throw too_few_arguments, surplus words make it throw too_many_arguments.", "quantifier": "for every number of positional options and every list of words", "why_tests_cant": "unbounded lists", "anchors": ["include/sharg/detail/format_parse.hpp: get_positional_option", "include/sharg/detail/format_parse.hpp: check_for_left_over_args"]}
{"id": "C17", "title": "Empty positional arguments are delivered", "statement": "An empty string passed as an argument (e.g. from a quoted empty shell variable) is delivered to a positional option like any other word.", "quantifier": "for every argument vector containing empty strings", "why_tests_cant": "the empty string doubles as the 'already consumed' marker, so the effect depends on position and count", "anchors": ["include/sharg/detail/format_parse.hpp: get_positional_option", "include/sharg/detail/format_parse.hpp: check_for_left_over_args"]}
{"id": "C18", "title": "The order in which options are declared does not matter", "statement": "Exchanging the declaration order of two options (with different variables) changes neither the outcome of parse() on accepted input nor the values stored.", "quantifier": "for every pair of declarations and every argument vector", "why_tests_cant": "depends on whether some value looks like another option; tests fix one order", "anchors": ["include/sharg/detail/format_parse.hpp: parse", "include/sharg/detail/format_parse.hpp: get_option"]}
{"id": "C19", "title": "Validators guard every value the program sees", "statement": "If parse() returns normally, every option given on the command line and every positional option holds a value accepted by its validator; the validator runs once, on the final value, iff the option was given; if it throws, parse() throws validation_error whose message names the option and carries the validator's message.", "quantifier": "for every validator (any predicate, with any side effect), interface and argument vector", "why_tests_cant": "validators are arbitrary user code", "anchors": ["include/sharg/detail/format_parse.hpp: get_option", "include/sharg/detail/format_parse.hpp: get_positional_option"]}
{"id": "C20", "title": "parse() always ends in a documented way", "statement": "parse() never loops forever and never invokes undefined behaviour or a failed internal assertion: it either returns, exits after printing a page, or throws a sharg exception.", "quantifier": "for every parser built with the public functions, every argument vector and every environment", "why_tests_cant": "absence of undefined behaviour over all inputs", "anchors": ["include/sharg/parser.hpp: parse", "include/sharg/detail/format_parse.hpp: parse", "include/sharg/detail/version_check.hpp: get_path"]}
{"id": "C21", "title": "Registered identifiers are unique, well-formed and not reserved", "statement": "At any time, the short and long identifiers of all successfully added options and flags are pairwise different, contain only letters, digits, '@', '_' and (not in first place) '-', and none is one of the reserved identifiers h, hh, help, advanced-help, export-help, version, copyright.", "quantifier": "for every history of calls of the public functions, including failing ones", "why_tests_cant": "histories are unbounded", "anchors": ["include/sharg/parser.hpp: verify_identifiers", "include/sharg/parser.hpp: id_exists", "include/sharg/parser.hpp: used_ids"]}
{"id": "C22", "title": "A rejected declaration leaves no trace", "statement": "If add_option, add_flag or add_positional_option throws, the parser behaves as if the call had not been made.", "quantifier": "for every parser state and every rejected call", "why_tests_cant": "needs comparison of all later behaviours", "anchors": ["include/sharg/parser.hpp: verify_identifiers", "include/sharg/parser.hpp: verify_option_config", "include/sharg/parser.hpp: add_flag"]}
{"id": "C23", "title": "A list positional option is unique and last", "statement": "At any time at most one positional option is a list, and no positional option was added after it.", "quantifier": "for every history of calls", "why_tests_cant": "histories are unbounded", "anchors": ["include/sharg/parser.hpp: add_positional_option", "include/sharg/parser.hpp: verify_positional_option_config"]}
{"id": "C24", "title": "Positional options and subcommands exclude each other", "statement": "A parser never has both positional options and subcommands.", "quantifier": "for every history of calls", "why_tests_cant": "depends on the order of calls", "anchors": ["include/sharg/parser.hpp: verify_positional_option_config", "include/sharg/parser.hpp: add_subcommands"]}
{"id": "C25", "title": "parse() runs at most once and freezes the interface", "statement": "After the first call of parse() - however it ended - every further parse() throws design_error, and every add_option/add_flag/add_positional_option/add_section/add_subsection/add_line/add_list_item throws design_error, all without changing the parser or any variable.", "quantifier": "for every history of calls", "why_tests_cant": "histories are unbounded", "anchors": ["include/sharg/parser.hpp: parse", "include/sharg/parser.hpp: check_parse_not_called"]}
{"id": "C26", "title": "The subcommand list is the sorted union of everything added", "statement": "After any sequence of add_subcommands calls (and the constructor argument) the subcommand list is strictly increasing and contains exactly the names ever added.", "quantifier": "for every sequence of lists of names", "why_tests_cant": "unbounded sequences, duplicates", "anchors": ["include/sharg/parser.hpp: add_subcommands"]}
{"id": "C27", "title": "is_option_set tells whether an option was given", "statement": "After parse(), is_option_set(id) is true iff the option or flag with that identifier was given on the command line; before parse(), for unknown identifiers and for one-letter strings it throws design_error.", "quantifier": "for every interface, identifier and argument vector", "why_tests_cant": "interaction with values, clusters and other spellings", "anchors": ["include/sharg/parser.hpp: is_option_set", "include/sharg/detail/format_parse.hpp: find_option_id"]}
{"id": "C28", "title": "Special requests are recognised and shielded", "statement": "-h, --help, -hh, --advanced-help, --version, --copyright and --export-help FORMAT select the respective page wherever they occur, except as the value of a separated option or after a subcommand; if several are given the last one wins; with no argument at all the short help is selected; otherwise the arguments are parsed.", "quantifier": "for every interface and every argument vector", "why_tests_cant": "position and combination are arbitrary", "anchors": ["include/sharg/parser.hpp: determine_format_and_subcommand"]}
{"id": "C29", "title": "Subcommand hand-over is lossless", "statement": "If the first word that is neither an option, a separated option value nor dash-prefixed is a subcommand, then the sub-parser receives exactly the arguments from that word on, unchanged and in order, the top-level parser sees exactly the arguments before it, the sub-parser is named app-sub, and the chain of executable names is extended; any other such word makes parse() throw user_input_error.", "quantifier": "for every subcommand set, interface and argument vector, and every nesting depth", "why_tests_cant": "unbounded vectors and nesting", "anchors": ["include/sharg/parser.hpp: determine_format_and_subcommand (found_subcommand)", "include/sharg/parser.hpp: get_sub_parser"]}
{"id": "C30", "title": "Only well-named applications get past parse()", "statement": "parse() throws design_error unless the application name and all subcommand names are non-empty and consist of letters, digits, '_' and '-'; a sub-parser created by a parser that passed this check passes it too.", "quantifier": "for every name", "why_tests_cant": "infinitely many names", "anchors": ["include/sharg/parser.hpp: verify_app_and_subcommand_names", "include/sharg/parser.hpp: app_name_regex"]}
{"id": "C31", "title": "--version-check and --export-help values are checked and not passed on", "statement": "--version-check accepts exactly 0, 1, true, false and --export-help exactly html, man, ctd, cwl (separated, the latter also joined by '='); anything else throws validation_error, a missing value throws too_few_arguments, and neither the option nor its value reaches the application's options.", "quantifier": "for every interface and argument vector", "why_tests_cant": "arbitrary context", "anchors": ["include/sharg/parser.hpp: determine_format_and_subcommand"]}
{"id": "C32", "title": "arithmetic_range_validator accepts exactly the closed interval", "statement": "The validator accepts a value iff min <= value <= max, and a list iff it accepts every element; the message names the offending value and the range.", "quantifier": "for every value type, bounds and value (including values of a wider type than the validator)", "why_tests_cant": "boundaries and conversions over all integers", "anchors": ["include/sharg/validators.hpp: arithmetic_range_validator"]}
{"id": "C33", "title": "value_list_validator accepts exactly the listed values", "statement": "The validator accepts a value iff it equals one of the listed values, and a list iff it accepts every element.", "quantifier": "for every list and value", "why_tests_cant": "unbounded", "anchors": ["include/sharg/validators.hpp: value_list_validator"]}
{"id": "C34", "title": "Chained validators are a conjunction evaluated left to right", "statement": "v1 | v2 accepts iff both accept; v2 does not run if v1 throws; the reported message is the first failing one; chaining is associative.", "quantifier": "for all validators and values", "why_tests_cant": "arbitrary user validators", "anchors": ["include/sharg/validators.hpp: validator_chain_adaptor"]}
{"id": "C35", "title": "File validators accept exactly the listed file extensions", "statement": "A file validator with a non-empty extension list accepts a file name iff (ignoring case) the part after some dot - not counting a leading dot - equals one of the listed extensions.", "quantifier": "for every extension list and file name", "why_tests_cant": "infinitely many names", "anchors": ["include/sharg/validators.hpp: validate_filename", "include/sharg/validators.hpp: case_insensitive_string_ends_with"]}
{"id": "C36", "title": "Validating input files and directories does not modify the file system", "statement": "input_file_validator and input_directory_validator accept iff the path exists, is a readable regular file (directory respectively) and has a valid extension, and never change the file system.", "quantifier": "for every file system state and path", "why_tests_cant": "needs all file system states", "anchors": ["include/sharg/validators.hpp: input_file_validator", "include/sharg/validators.hpp: input_directory_validator", "include/sharg/validators.hpp: validate_readability"]}
{"id": "C37", "title": "Validating an output file does not destroy data", "statement": "output_file_validator leaves every pre-existing file with its content in place; in create_new mode it rejects existing files, and after acceptance the file system is as before.", "quantifier": "for every file system state, mode, path and extension list", "why_tests_cant": "needs all file system states", "anchors": ["include/sharg/validators.hpp: output_file_validator", "include/sharg/validators.hpp: validate_writeability", "include/sharg/detail/safe_filesystem_entry.hpp: ~safe_filesystem_entry"]}
{"id": "C38", "title": "Validating an output directory does not destroy data", "statement": "output_directory_validator accepts iff the directory exists or can be created and a file can be created inside, and leaves the file system as it was.", "quantifier": "for every file system state and path", "why_tests_cant": "needs all file system states", "anchors": ["include/sharg/validators.hpp: output_directory_validator"]}
{"id": "C39", "title": "Hidden and advanced entries appear on exactly the documented pages", "statement": "On -h exactly the entries that are neither hidden nor advanced are listed, in declaration order; on -hh exactly those not hidden; on pages exported with --export-help exactly those not hidden.", "quantifier": "for every sequence of declarations", "why_tests_cant": "unbounded sequences", "anchors": ["include/sharg/detail/format_base.hpp: store_help_page_element", "include/sharg/config.hpp: advanced", "include/sharg/config.hpp: hidden", "include/sharg/detail/format_html.hpp", "include/sharg/detail/format_man.hpp", "include/sharg/detail/format_tdl.hpp"]}
{"id": "C40", "title": "Help text wrapping loses nothing and respects the width", "statement": "The help page prints all words of a text in order, separated by white space only, and no line is wider than the layout width unless it consists of a single word that does not fit.", "quantifier": "for every text and layout", "why_tests_cant": "unbounded texts", "anchors": ["include/sharg/detail/format_help.hpp: print_text"]}
{"id": "C41", "title": "The computed text width equals the printed width", "statement": "text_width of a text equals the number of columns the text occupies when printed without terminal escapes.", "quantifier": "for every text", "why_tests_cant": "escape sequences in arbitrary positions", "anchors": ["include/sharg/detail/format_help.hpp: text_width", "include/sharg/detail/format_help.hpp: to_text"]}
{"id": "C42", "title": "List item descriptions start in the right column", "statement": "On a help page the description of every list item starts at the same column, on a new line iff the term is too long.", "quantifier": "for every term and description", "why_tests_cant": "unbounded terms", "anchors": ["include/sharg/detail/format_help.hpp: print_list_item"]}
{"id": "C43", "title": "XML escaping is faithful", "statement": "Escaping a text yields a text without raw quotes, angle brackets and stray ampersands, and unescaping restores the original.", "quantifier": "for every text", "why_tests_cant": "infinitely many texts", "anchors": ["include/sharg/detail/format_base.hpp: escape_special_xml_chars"]}
{"id": "C44", "title": "Exported HTML is well nested", "statement": "The HTML page opens and closes its paragraph, list and document elements in a properly nested way, whatever entries the help page has.", "quantifier": "for every sequence of help page elements", "why_tests_cant": "state machine over unbounded sequences", "anchors": ["include/sharg/detail/format_html.hpp: maybe_close_list", "include/sharg/detail/format_html.hpp: maybe_close_paragraph", "include/sharg/detail/format_html.hpp: print_line", "include/sharg/detail/format_html.hpp: print_list_item", "include/sharg/detail/format_html.hpp: print_footer"]}
{"id": "C45", "title": "Exported HTML shows texts literally", "statement": "Texts containing characters special to HTML are escaped so that the page shows them literally.", "quantifier": "for every text", "why_tests_cant": "infinitely many texts", "anchors": ["include/sharg/detail/format_html.hpp: to_html"]}
{"id": "C46", "title": "Printing the help page never fails", "statement": "For every application meta data, -h prints a page and exits; it does not throw.", "quantifier": "for every meta data (synopsis, description, examples, texts)", "why_tests_cant": "meta data is arbitrary text", "anchors": ["include/sharg/detail/format_base.hpp: print_synopsis", "include/sharg/detail/format_help.hpp: to_text"]}
{"id": "C47", "title": "The version check honours opt-outs", "statement": "No server request is made if the developer switched notifications off, or SHARG_NO_VERSION_CHECK is set, or the user passed --version-check 0, or the stored decision is NEVER; in the first three cases the cookie is not touched, and with notifications switched off nothing in the file system is touched.", "quantifier": "for every environment, cookie content and file system", "why_tests_cant": "environment states are unbounded", "anchors": ["include/sharg/detail/version_check.hpp: decide_if_check_is_performed", "include/sharg/detail/version_check.hpp: get_path", "include/sharg/parser.hpp: run_version_check"]}
{"id": "C48", "title": "At most one server request per day", "statement": "Over any history of program runs without an explicit --version-check, two server requests are at least one day apart.", "quantifier": "for every history of runs at arbitrary times with arbitrary user answers", "why_tests_cant": "history property", "anchors": ["include/sharg/detail/version_check.hpp: decide_if_check_is_performed", "include/sharg/detail/version_check.hpp: write_cookie", "doc/about/update_notifications/index.md (at most one request per day)"]}
{"id": "C49", "title": "A NEVER decision is permanent", "statement": "Once the user answered 'never', no later run without explicit --version-check performs a server request or asks again.", "quantifier": "for every later history of runs", "why_tests_cant": "history property", "anchors": ["include/sharg/detail/version_check.hpp: decide_if_check_is_performed"]}
{"id": "C50", "title": "Version comparison is numeric and component-wise", "statement": "An update message is shown iff the version known to the server is (numerically, component by component) newer than the running one; malformed version files are ignored.", "quantifier": "for every version string and version file", "why_tests_cant": "infinitely many strings", "anchors": ["include/sharg/detail/version_check.hpp: get_numbers_from_version_string", "include/sharg/detail/version_check.hpp: operator()"]}
{"id": "C51", "title": "The server command cannot be injected through name or version", "statement": "The shell command line contains the application name and version only restricted to letters, digits, '_', '-' and '.'.", "quantifier": "for every application name accepted by parse() and every version string", "why_tests_cant": "infinitely many strings", "anchors": ["include/sharg/detail/version_check.hpp: version_checker", "include/sharg/detail/version_check.hpp: operator()"]}
{"id": "C52", "title": "A parser can be moved", "statement": "Moving a parser after declaring options does not change what a later parse() does.", "quantifier": "for every history of calls and any move", "why_tests_cant": "object identity and captured pointers", "anchors": ["include/sharg/parser.hpp: parser(parser &&)", "include/sharg/parser.hpp: add_option"]}
{"id": "C53", "title": "A failed parse leaves variables of failed options unchanged", "statement": "If the value of an option cannot be parsed, the variable of that option keeps its previous value.", "quantifier": "for every type, value and store", "why_tests_cant": "partial conversions depend on the text", "anchors": ["include/sharg/detail/format_parse.hpp: parse_option_value"]}
{"id": "C54", "title": "Unknown flag clusters are reported legibly", "statement": "The error for an unknown cluster -abc lists '-a, -b and -c'.", "quantifier": "for every cluster", "why_tests_cant": "unbounded clusters", "anchors": ["include/sharg/detail/format_base.hpp: expand_multiple_flags"]}
{"id": "C55", "title": "Settings of different options, flags and positional words may be interleaved freely", "statement": "Two command lines that give every option the same values in the same order, mention the same flags and contain the same positional words in the same order have the same effect on every variable and the same outcome, however the pieces are interleaved and whichever spelling is used.", "quantifier": "for every interface and every pair of well-formed command lines with the same pieces", "why_tests_cant": "the number of interleavings grows factorially and each changes what the scanner sees while it erases arguments", "anchors": ["include/sharg/detail/format_parse.hpp: parse", "include/sharg/detail/format_parse.hpp: get_option_by_id", "include/sharg/detail/format_parse.hpp: get_positional_option"]}
{"id": "C56", "title": "Declarations and command line determine the variables", "statement": "A program that declares options, flags and positional options with add_*, in any order and with any failing attempts at positional options, and then calls parse() with a well-formed command line without special requests, gets exactly the variables and the outcome that the description of the command line dictates (values converted and validated, flags set, words distributed, errors for missing, repeated and unknown things).", "quantifier": "for every history of declarations, every initial variables and file system, every well-formed command line", "why_tests_cant": "the interplay of the deferred operations, the pre-scan for special requests and the format's own scan is only sampled by tests; the statement ranges over all interfaces and command lines at once", "anchors": ["include/sharg/parser.hpp:241-440", "include/sharg/parser.hpp:808-964", "include/sharg/detail/format_parse.hpp:88-155"]}
{"id": "C57", "title": "Positional options are numbered on the help page", "statement": "The n-th positional option declared is listed as ARGUMENT-n, in declaration order, together with its type and description.", "quantifier": "for every sequence of declarations", "why_tests_cant": "unbounded sequences", "anchors": ["include/sharg/detail/format_base.hpp:300-360", "include/sharg/parser.hpp: add_positional_option"]}
{"id": "C58", "title": "The default shown on the help page is the default", "statement": "Giving an option the default value printed on its help page has the same effect as not giving the option.", "quantifier": "for every type, value and configuration", "why_tests_cant": "tests compare pages with fixed texts; whether the text shown is accepted as an argument depends on two independent pieces of code (printing, conversion) over all values", "anchors": ["include/sharg/detail/format_base.hpp: get_default_message", "include/sharg/detail/format_parse.hpp: parse_option_value"]}
{"id": "C59", "title": "Man pages show every text", "statement": "Every text given by the application is shown on the man page.", "quantifier": "for every text", "why_tests_cant": "infinitely many texts, and the tests do not run a man page reader", "anchors": ["include/sharg/detail/format_man.hpp: print_line", "include/sharg/detail/format_man.hpp: print_list_item"]}
{"id": "C60", "title": "Tool descriptions map every parameter to its command line name", "statement": "Every option and flag listed in a tool description is mapped to an identifier by which the parser accepts it; advanced entries are tagged advanced.", "quantifier": "for every sequence of declarations", "why_tests_cant": "unbounded sequences; the tests use long names only", "anchors": ["include/sharg/detail/format_tdl.hpp: add_option_or_positional", "include/sharg/detail/format_tdl.hpp: add_flag"]}
{"id": "C61", "title": "The answer to the question about version checks is honoured", "statement": "When the question is asked, 'a' and 'n' are remembered and 'a' and 'y' (and only these) lead to a check now; RETURN selects the announced default; without a terminal the documented default applies; --version-check 1 checks without changing the stored decision.", "quantifier": "for every answer, stored decision, time and file system", "why_tests_cant": "reading from a terminal is excluded from coverage (LCOV_EXCL)", "anchors": ["include/sharg/detail/version_check.hpp: decide_if_check_is_performed"]}
{"id": "C62", "title": "The version check never makes parse() fail", "statement": "Whatever the state of HOME, the configuration directory and the directory for temporary files, the version check returns normally: parse() neither throws nor aborts because of it.", "quantifier": "for every environment and file system state", "why_tests_cant": "environment and file system states are unbounded; the tests use a writable home directory", "anchors": ["include/sharg/detail/version_check.hpp: get_path", "include/sharg/detail/safe_filesystem_entry.hpp", "include/sharg/parser.hpp: run_version_check"]}
{"id": "C63", "title": "A server request reveals only what the documentation lists", "statement": "The address visited depends on the application name, its version, the Sharg version, the operating system and the CPU type only, and contains all of them.", "quantifier": "for every two runs on arbitrary file systems, at arbitrary times, with arbitrary answers", "why_tests_cant": "non-interference relates pairs of runs", "anchors": ["include/sharg/detail/version_check.hpp: operator()", "doc/about/update_notifications/index.md (Privacy Implications)"]}
{"id": "C64", "title": "The name of the version file is a single harmless word of the shell command", "statement": "The path handed to the download program is one word without characters special to the shell.", "quantifier": "for every value of HOME and of the directory for temporary files", "why_tests_cant": "infinitely many strings", "anchors": ["include/sharg/detail/version_check.hpp: operator()", "include/sharg/detail/version_check.hpp: get_path"]}
{"id": "C65", "title": "Tool descriptions state the default of every parameter", "statement": "The value recorded for a parameter in a tool description is the value its variable has, in a form the parser accepts.", "quantifier": "for every sequence of declarations, types and values", "why_tests_cant": "unbounded declarations and values; the tests compare fixed files", "anchors": ["include/sharg/detail/format_tdl.hpp: to_tdl", "include/sharg/detail/format_tdl.hpp: add_option"]}
{"id": "C66", "title": "A run of the version check never waits for another one", "statement": "A run that nobody disturbs behaves as the single-run model says, and every run is over after a bounded number of its own steps, whatever other runs and programs do in between.", "quantifier": "for every number of runs, every interleaving of their accesses to the file system, and every change other programs make in between", "why_tests_cant": "interleavings; tests run one check at a time", "anchors": ["include/sharg/detail/version_check.hpp: get_path, decide_if_check_is_performed, write_cookie, operator()"]}
{"id": "C67", "title": "Opting out holds under any interference", "statement": "A run whose check is switched off by the developer, the environment or the user says, asks and requests nothing, and no step of it touches a file apart from the configuration directories and dummy.txt.", "quantifier": "for every interleaving with other runs and arbitrary other programs", "why_tests_cant": "interleavings and arbitrary file system changes", "anchors": ["include/sharg/detail/version_check.hpp: decide_if_check_is_performed", "parser.hpp: run_version_check"]}
{"id": "C68", "title": "Nobody is contacted without consent, also when runs overlap", "statement": "If no run of the application was ever answered with 'always', a run contacts the server only if it was told to by --version-check 1 or by its own user.", "quantifier": "for every number of overlapping runs of any applications and every interleaving", "why_tests_cant": "interleavings; the cookie may be emptied or half written by another run", "anchors": ["include/sharg/detail/version_check.hpp: decide_if_check_is_performed", "doc/about/update_notifications/index.md"]}
{"id": "C69", "title": "A decision in force is respected by overlapping runs and survives them", "statement": "While 'never' is stored, or a question less than a day old, runs of the application do nothing unless told to, and the stored decision is not lost, whatever other applications do.", "quantifier": "for every number of overlapping runs of any applications of one user and every interleaving", "why_tests_cant": "interleavings", "anchors": ["include/sharg/detail/version_check.hpp: decide_if_check_is_performed, write_cookie"]}
{"id": "C70", "title": "Overlapping runs remember what was said", "statement": "After overlapping runs the cookie contains the time of one of them and a decision somebody took, and an answer given is not lost.", "quantifier": "for every number of overlapping runs and every interleaving", "why_tests_cant": "interleavings of truncation and writing", "anchors": ["include/sharg/detail/version_check.hpp: write_cookie, ask_user"]}
{"id": "C71", "title": "The answer of the server may be read while it is being downloaded", "statement": "Messages based on the beginning of the server's answer are true of the whole answer.", "quantifier": "for every answer and every place where it is cut", "why_tests_cant": "the download runs in a detached thread; every cut position", "anchors": ["include/sharg/detail/version_check.hpp: operator(), call_server"]}
{"id": "C72", "title": "Every error message of the scanner is justified", "statement": "When parsing fails, what the message says is the case: a required option reported missing is not mentioned (beyond arguments an earlier option uses), an option reported given twice is mentioned by two arguments, a value reported missing is missing, a text reported unreadable was given and is not a representation of a value (or out of range), an identifier reported unknown is not declared or left over, a validator blamed rejects, and the numbers of words are as reported.", "quantifier": "for every well-formed interface, every argument vector and every initial state", "why_tests_cant": "all argument vectors; in particular interactions between options, flags and words", "anchors": ["include/sharg/detail/format_parse.hpp: parse, get_option, get_option_by_id, flag_is_set, check_for_unknown_ids, get_positional_option, check_for_left_over_args"]}
{"id": "C73", "title": "The number of positional words decides between too few and too many", "statement": "Too few/too many arguments is reported only if the number of words in the argument vector (counted without running the parser) cannot fit the declared positional options, and success implies that it fits.", "quantifier": "for every well-formed interface, every argument vector", "why_tests_cant": "all argument vectors", "anchors": ["include/sharg/detail/format_parse.hpp: get_positional_option, check_for_left_over_args"]}
{"id": "C74", "title": "The meaning of an arbitrary argument vector", "statement": "Parsing accepts an argument vector exactly if it can be read as follows, and the variables then hold exactly the values read: options in declaration order, each by its short then its long name from left to right in the spellings joined, '=' and separate, with everything used blanked; then flags in declaration order, the short name out of the first cluster containing it anywhere, the long name before '--'; what then remains before '--' must not start with a dash; the non-empty remaining arguments are the words, one per positional option and all remaining ones for a list. A vector has at most one reading; without one it is refused.", "quantifier": "for every well-formed interface, every argument vector, every initial state and file system", "why_tests_cant": "all argument vectors, including ones outside any documented grammar", "anchors": ["include/sharg/detail/format_parse.hpp: parse, get_option, get_option_by_id, identify_and_retrieve_option_value, flag_is_set, check_for_unknown_ids, get_positional_option, check_for_left_over_args"]}
{"id": "C75", "title": "Floating point values mean exactly what their text says", "statement": "With the conversion of the standard library, a floating point option accepts exactly the texts of the grammar: optional minus sign, digits with an optional point and at least one digit, optional exponent; or inf, infinity, nan in any case. The value is the rounding of the one number the text denotes; 'out of range' is reported exactly if the number the text starts with is out of range; blanks, plus signs and hexadecimal numbers are refused.", "quantifier": "for every text, every floating point type and every rounding function", "why_tests_cant": "infinitely many texts; the unit test has about twenty", "anchors": ["include/sharg/detail/format_parse.hpp:403-413", "include/sharg/std/charconv", "test/unit/std/charconv_float_test.cpp"]}
{"id": "C76", "title": "The replacement of floating point from_chars agrees with the standard library", "statement": "Where the standard library has no conversion of floating point numbers, the replacement gives the same result for every text, independently of earlier conversions, and never reads or writes out of bounds.", "quantifier": "for every sequence of texts without null characters, every floating point type and every rounding function", "why_tests_cant": "the unit test never converts after a number out of range, compares with float accuracy only and has no texts with blanks or 0x", "anchors": ["include/sharg/std/charconv:72-180"]}
{"id": "C77", "title": "Ranges, formats and printing in the replacement of charconv", "statement": "A range inside a longer text is converted like the text alone; the hexadecimal format gives the value of the hexadecimal digits; the scientific format requires an exponent; to_chars writes the whole text or nothing, within the given range.", "quantifier": "for every text, every context and every memory", "why_tests_cant": "the unit test converts one range of four characters and no hexadecimal text", "anchors": ["include/sharg/std/charconv:44-180"]}
{"id": "C78", "title": "What a whole run means", "statement": "parse() returns with given values exactly if the arguments after the program name split, without error, into requests and arguments of the interface, no page is requested, the version check passes, and the arguments of the interface mean these values; the program ends with a given output exactly if a page is requested and this is that page, and then no variable has changed. The splitting depends only on the declared options and subcommands.", "quantifier": "for every program of declarations (accepted or rejected) followed by parse(), every argument vector, all values and files, every page printer and version check", "why_tests_cant": "every unit test has one interface and one vector; the interplay of requests, options and rejected declarations is unbounded", "anchors": ["include/sharg/parser.hpp:241-344", "include/sharg/parser.hpp:414-440", "include/sharg/parser.hpp:808-945"]}
{"id": "C79", "title": "Descriptions do not influence parsing", "statement": "Two programs whose options, flags and positional options are each the same in the same order, however they are interleaved, described, hidden or marked advanced, and whatever help texts are added, give the variables the same values, leave the same files and have the same result, except for the page printed if one is requested.", "quantifier": "for all pairs of programs and all argument vectors", "why_tests_cant": "a statement about pairs of programs", "anchors": ["include/sharg/parser.hpp:241-344", "include/sharg/detail/format_parse.hpp:60-173", "include/sharg/config.hpp"]}
{"id": "C80", "title": "What a refused vector has done", "statement": "parse() throws an error of a given kind and leaves given values and files behind exactly if the vector, read option by option, then flag by flag, then word by word, goes wrong for the first time in the corresponding way; the values read before are kept, a list is left with the elements read so far, a number with something behind it is stored. No vector is both accepted and refused; every vector is one of them if the declarations are sound. Missing and repeated options leave flags and positional options alone, unknown options leave positional options alone.", "quantifier": "for every interface, argument vector, store and file system", "why_tests_cant": "tests check that an exception is thrown, for single vectors, not what was done before", "anchors": ["include/sharg/detail/format_parse.hpp:60-173", "include/sharg/detail/format_parse.hpp:380-760", "include/sharg/parser.hpp:414-440"]}
{"id": "C81", "title": "Subcommands of subcommands", "statement": "However deep subcommands are nested and whatever exceptions the levels above threw, each level gets exactly the arguments up to the next subcommand: together with the subcommands they are the argument vector, in order. The innermost parser is the one made for its subcommand, knows the executable and all subcommands before it, is named after all of them, makes no version check, finds the values the levels above left, and parses the remaining arguments as C78 says.", "quantifier": "for every depth, every program on each level and every argument vector", "why_tests_cant": "tests nest once, with single vectors that parse", "anchors": ["include/sharg/parser.hpp:414-470", "include/sharg/parser.hpp:799-866"]}
{"id": "C82", "title": "Time the version check takes", "statement": "All time a program spends on the version check is that for looking for wget and curl, that the user takes to answer, and at most three seconds per request in destructors; a parser that made a request and was not moved waits in its destructor for exactly the rest of the request, three seconds at most. Opting out and sub-parsers cost no time. Requests that take three seconds at most are done once all parsers are destroyed. The check never delays parse() itself.", "quantifier": "for all sequences of checks, moves, work and destructions and all durations of commands", "why_tests_cant": "tests cannot wait for slow or hanging servers and do not measure", "anchors": ["include/sharg/parser.hpp:202-207", "include/sharg/parser.hpp:1114-1125", "include/sharg/detail/version_check.hpp:38-45", "include/sharg/detail/version_check.hpp:126-220"]}
{"id": "C83", "title": "File validators on POSIX paths: resolution and the plain case", "statement": "Paths are resolved by the rules of POSIX pathname resolution (symbolic links, \"..\", trailing slashes, search permission, limit on links). Where there are no links and all directories may be searched, on paths without \"..\" that end in a name, the four file validators give the verdicts and leave the files that C36-C38 describe.", "quantifier": "for every file system, working directory, path, list of extensions and build mode", "why_tests_cant": "tests use single paths in a temporary directory without links", "anchors": ["include/sharg/validators.hpp:411-459", "include/sharg/validators.hpp:563-586", "include/sharg/validators.hpp:721-746", "include/sharg/validators.hpp:823-846", "include/sharg/validators.hpp:908-941"]}
{"id": "C84", "title": "What the file validators look at and touch", "statement": "Input validators look through links and change nothing. The output file validator changes nothing but the file written to and the entry named by the path; create_new accepts exactly paths that name nothing, whose directory is writable and whose entry can be removed, and leaves no trace. The output directory validator accepts a missing directory exactly if it can be made and leaves no trace; an existing one is tested by a file in it, and nothing outside of it changes.", "quantifier": "for every sane file system with links, working directory, path, list of extensions and build mode", "why_tests_cant": "tests do not look at what is left of links, targets and refused files", "anchors": ["include/sharg/validators.hpp:411-459", "include/sharg/validators.hpp:721-746", "include/sharg/validators.hpp:908-941", "include/sharg/detail/safe_filesystem_entry.hpp:53-66"]}
{"id": "C85", "title": "Errors of the file system inside the file validators", "statement": "Whatever the state of the file system, a file validator that refuses a path throws a validation_error; no std::filesystem::filesystem_error leaves it.", "quantifier": "for every file system, working directory, path, list of extensions and build mode", "why_tests_cant": "tests cannot easily produce permission errors (they run as root in CI) or loops of links", "anchors": ["include/sharg/validators.hpp:563-586", "include/sharg/validators.hpp:721-746", "include/sharg/validators.hpp:823-846", "include/sharg/validators.hpp:908-941"]}
{"id": "C86", "title": "The assertion of the guard of the test file", "statement": "In builds with assertions the output file validator ends the process exactly if the guard of its test file cannot clean up: the test file was opened but its entry may not be removed, or it was not opened and the entry exists and may not be removed, or the path leads through something that is not a directory (libstdc++ 12 and later).", "quantifier": "for every sane file system, working directory, path, mode and list of extensions", "why_tests_cant": "a failed assertion ends the test; tests are built in one mode with one library", "anchors": ["include/sharg/detail/safe_filesystem_entry.hpp:53-59", "include/sharg/validators.hpp:439-459"]}
{"id": "C87", "title": "Floating point values: reading and showing", "statement": "A floating point option is set to the number of its type nearest to the number denoted by the argument, the one with the even mantissa of two equally near. The default on the help page is the nearest decimal number with at most six significant digits, and giving the shown text as an argument yields the same value.", "quantifier": "for every type (float, double, 80 bit long double), every number text, every value of the type", "why_tests_cant": "there are 2^64 doubles and unboundedly many texts; tests compare a handful up to a tolerance", "anchors": ["include/sharg/detail/format_parse.hpp:401-418", "include/sharg/detail/to_string.hpp:38-79", "include/sharg/detail/format_base.hpp:196-235"]}
{"id": "C88", "title": "Ranges and lists of floating point numbers", "statement": "A floating point range validator accepts exactly the numbers between its bounds, refuses NaN, and names value and bounds in its message; a value list accepts exactly numbers equal to one of its entries.", "quantifier": "for every pair of bounds, list of values, value or list of values of the option, including infinities, NaN, -0 and subnormal numbers", "why_tests_cant": "special values and values next to the bounds are not tested; no test uses float options with double validators", "anchors": ["include/sharg/validators.hpp:76-151", "include/sharg/validators.hpp:172-265"]}
{"id": "C89", "title": "Integer validators on floating point options", "statement": "A range or list validator with integer arguments, put on a floating point option, compares the given number itself with its bounds or entries and has defined behaviour for every argument.", "quantifier": "for every integer type of the validator, bounds or entries, and floating point value", "why_tests_cant": "the unit tests use arithmetic_range_validator{1, 20} on a double with 10.9 and 0.9 only, where truncation does not show", "anchors": ["include/sharg/validators.hpp:104-132", "include/sharg/validators.hpp:228-255", "test/unit/parser/format_parse_validators_test.cpp:606-610"]}
{"id": "C90", "title": "Floating point arguments out of range", "statement": "A floating point argument is refused as out of range exactly if its number is too large for the type or too small to differ from zero, and the range in the message contains exactly the accepted numbers.", "quantifier": "for every type, every argument and old value", "why_tests_cant": "limits lie between two adjacent representable numbers, tests do not reach them; no test of the message", "anchors": ["include/sharg/detail/format_parse.hpp:401-418", "include/sharg/detail/format_parse.hpp:447-473"]}
{"id": "C91", "title": "The age of the stored answer", "statement": "The stored answer counts as recent exactly if less than 86400 seconds have passed since the stored time, for times written by the program with any supported standard library; anything else in the cookie counts as old.", "quantifier": "for every first line of the cookie, every current time below 2^53, the library's from_chars and its replacement, errno set or not", "why_tests_cant": "unit tests use times a day or more apart; the accuracy of double and float, and texts like nan, inf or 1e999 in the file, are not exercised", "anchors": ["include/sharg/detail/version_check.hpp:304-330", "include/sharg/detail/version_check.hpp:461-471", "include/sharg/std/charconv:75-175"]}
{"id": "C92", "title": "Every declaration in order is accepted, every other one is rejected with the reason", "statement": "A declaration is accepted exactly if parse() was not called, its names are well-formed and were not checked before, and its settings do not contradict each other; otherwise a design_error names the first reason that applies. The texts parse() takes for options are those of the options whose names were in order.", "quantifier": "for every program using a parser (any sequence of declarations, accepted or not, moves, calls of parse()), every declaration", "why_tests_cant": "the unit tests reject one declaration at a time; what an earlier rejected declaration does to later ones, and the order of the checks, is a property of call sequences", "anchors": ["include/sharg/parser.hpp:241-344", "include/sharg/parser.hpp:972-1080"]}
{"id": "C93", "title": "A regex_validator accepts exactly the texts its pattern describes", "statement": "For every pattern of the supported grammar, the validator accepts a text exactly if the whole text is described by the pattern, and otherwise throws with the text and the pattern in the message; a text that is no pattern is reported as an error for every value. The patterns used inside the library for application names and version numbers accept exactly the names and versions they are documented to accept.", "quantifier": "for every regular expression (any nesting of groups, alternatives, repetitions, classes and anchors), every text", "why_tests_cant": "patterns and texts are both unbounded; the tests use six patterns with about ten texts", "anchors": ["include/sharg/validators.hpp:975-1037", "include/sharg/parser.hpp:735", "include/sharg/parser.hpp:1087-1105", "include/sharg/detail/version_check.hpp:76", "include/sharg/detail/version_check.hpp:93", "include/sharg/detail/version_check.hpp:431"]}
{"id": "C94", "title": "The outline of a page decides all of its words", "statement": "Help pages, version pages, short help, HTML pages and man pages show the header and then, part by part and in order, the words of one outline (synopsis, description, subcommands, positional arguments, options, common options, examples, version, legal) and nothing else; the copyright page is the documented text to the character; the tool description receives the same explanations.", "quantifier": "for every application (all meta data, declarations, values, subcommands), every terminal width, terminal or not, every kind of page", "why_tests_cant": "pages are functions of unboundedly many texts; the tests compare about fifteen complete pages with expected text", "anchors": ["include/sharg/detail/format_base.hpp:230-655", "include/sharg/detail/format_help.hpp:60-520", "include/sharg/detail/format_html.hpp:40-245", "include/sharg/detail/format_man.hpp:40-160", "include/sharg/detail/format_tdl.hpp:60-400"]}
{"id": "C95", "title": "The help text of a validator says what is checked", "statement": "The text a validator adds to the help page has the documented sentence with exactly the bounds, values, extensions or pattern that are checked; validators described by the same text accept the same values; the range, list or pattern in an error message is the one on the help page; a chain is described by its members in the order in which they are applied.", "quantifier": "for every validator shipped with the library, every choice of its parameters, all chains of any shape, every value", "why_tests_cant": "the parameters and the chains are unbounded; the tests compare some twenty texts and never relate two validators or a text and a verdict", "anchors": ["include/sharg/validators.hpp:78-151", "include/sharg/validators.hpp:174-268", "include/sharg/validators.hpp:440-470", "include/sharg/validators.hpp:520-598", "include/sharg/validators.hpp:639-775", "include/sharg/validators.hpp:792-952", "include/sharg/validators.hpp:975-1142"]}
{"id": "C96", "title": "Verdict, message and effect of the file and directory validators in every case", "statement": "For every path the four validators report exactly the reason that applies (nothing there, not a file, not a directory, no permission, wrong or no extension), naming the path as given; the reading validators change nothing; the writing validators leave the disk unchanged, remove the file at the path, or empty it, exactly as the table says; lists are checked one path after the other, up to the first refusal.", "quantifier": "for every state of the file system, every path (any number of slashes and dots), every list of extensions, both modes, debug and release builds, lists of any length", "why_tests_cant": "file systems and paths are unbounded and the failing combinations need permissions the test runner usually has", "anchors": ["include/sharg/validators.hpp:368-470", "include/sharg/validators.hpp:563-598", "include/sharg/validators.hpp:721-775", "include/sharg/validators.hpp:823-857", "include/sharg/validators.hpp:908-952", "include/sharg/detail/safe_filesystem_entry.hpp:29-100"]}
{"id": "C97", "title": "What a validator compares if the value is a path, a text or a truth value", "statement": "A validator given a value of another type than its own checks the value the user typed: a pattern is compared with the whole path, a list of paths with the path up to repeated slashes, a range of numbers with the number. (The code compares a pattern with every element of a single path, and a range of numbers with the code of every character of a text.)", "quantifier": "for every pattern, path, text, range of numbers and integer type of the validator", "why_tests_cant": "overload resolution chooses the range overload silently; the tests use patterns with std::string variables only", "anchors": ["include/sharg/validators.hpp:104-129", "include/sharg/validators.hpp:228-253", "include/sharg/validators.hpp:997-1022", "doc/tutorial/parser/solution6.cpp:85", "test/snippet/validators_chaining.cpp:14"]}
{"id": "C98", "title": "What the compiler decides: variables of options, overloads, type names, validators", "statement": "Every variable the constraint of add_option admits can be read: exactly one overload of parse_option_value is chosen, the one meant for its type; the type is shown under the name of its width; the table in sharg::custom::parsing goes before a function found by lookup; a validator may be given exactly the variables whose value or elements convert to its own type. (The constraint also admits types for which no overload, or no single one, exists; long long is shown under its own name.)", "quantifier": "for every arithmetic type, text, path, list, and every class or enumeration given by what the constraints ask of it", "why_tests_cant": "a type that is admitted and does not compile cannot be part of a test program; the tests instantiate a handful of types", "anchors": ["include/sharg/concept.hpp:37-92", "include/sharg/detail/concept.hpp:37-44", "include/sharg/parser.hpp:238-241", "include/sharg/detail/format_parse.hpp:288-439", "include/sharg/detail/format_base.hpp:38-106", "include/sharg/enumeration_names.hpp:86-238", "include/sharg/validators.hpp:104-121"]}
{"id": "C99", "title": "Every parameter of sharg::config has its documented effect for every kind, and no other", "statement": "For options, flags and positional options: a parameter the table in config.hpp marks with X is rejected with a sharg::design_error whatever was declared before; one marked with a tick can be set and can make a difference, either when arguments are read or on a page; one marked as not intended makes none anywhere. (The code ignores 'required' for flags; it accepts 'required' for positional options although the text says design_error; it does not append the documented full stop to a default message.)", "quantifier": "for every state of the parser, kind, parameter, pair of configurations differing in that parameter only, interface around it, argument list and page format", "why_tests_cant": "that a parameter never has an effect is a statement about all interfaces, arguments and pages; the tests set each parameter in a few combinations", "anchors": ["include/sharg/config.hpp:20-138", "include/sharg/parser.hpp:1020-1065", "include/sharg/detail/format_parse.hpp:660-800", "include/sharg/detail/format_base.hpp:275-356", "include/sharg/detail/format_tdl.hpp:155-314"]}
{"id": "C100", "title": "Characters, numbers and pieces of texts are those of the standard", "statement": "The classes of characters names, values and markup are checked with are those of the C locale; numbers in messages, limits and defaults are written in the usual decimal notation without leading zeros, and in no other way; substr, erase, find, starts_with and toupper act on exactly the documented characters; lists are shown with brackets and commas; stored calls are made in their order and the first that throws is the last.", "quantifier": "for every character, integer, text, list and sequence of calls", "why_tests_cant": "all integers and texts; a wrong class or digit would change the expectation of a test in the same way as the code if both use the same function", "anchors": ["include/sharg/parser.hpp:985-1016", "include/sharg/detail/format_parse.hpp:166-282", "include/sharg/detail/format_parse.hpp:449-475", "include/sharg/detail/format_man.hpp:62-105", "include/sharg/detail/to_string.hpp:34-52", "include/sharg/validators.hpp:382-396", "include/sharg/validators.hpp:474-490", "include/sharg/exceptions.hpp:39-209"]}
{"id": "C101", "title": "What a parser says about itself is what the program wrote there", "statement": "A new parser knows nothing about the program but its name: all texts of parser.info are empty, there are no lists, and the section of the manual is 1. Afterwards parser.info is what the program assigned last, whatever else is called: declarations, parse(), moves, calls on the sub-parser. A sub-parser is made by one call of parse(); it takes over the name its parser has at that time, followed by a dash and the subcommand, and nothing else (no version, author, date or address); only what is assigned through get_sub_parser() afterwards changes that, on every level.", "quantifier": "for every parser, sequence of calls, and depth of subcommands, with variables and files changing in between", "why_tests_cant": "all sequences of calls; the tests look at the printed pages of a few programs that set every member first", "anchors": ["include/sharg/auxiliary.hpp:46-112", "include/sharg/parser.hpp:181-190", "include/sharg/parser.hpp:713", "include/sharg/parser.hpp:838-846", "include/sharg/parser.hpp:448-455"]}
{"id": "C102", "title": "The test helpers tell whether a path can be read or written", "statement": "read_access is true exactly when the path leads, through all links, to an entry with read permission. write_access is true exactly when the path can be opened for writing, or is a directory in which entries can be made. Asking changes nothing.", "quantifier": "for every file system, working directory and path", "why_tests_cant": "the tests call the helpers to decide whether to skip themselves, on one file system; links, missing search permission and existing content are never tried", "anchors": ["test/include/sharg/test/file_access.hpp:21-26", "test/include/sharg/test/file_access.hpp:29-51"]}
{"id": "C103", "title": "Temporary files of the tests leave nothing behind", "statement": "Constructing a tmp_filename either throws and changes nothing or makes a new empty directory of a name that was free; the path lies in that directory. Whatever a test constructs, moves, assigns, destroys and writes in the directories of its objects, entries that existed before are not touched, everything new lies in the directory of some object, and when the last object is destroyed the file system is as before.", "quantifier": "for every file system, temporary directory, file name, choice of names by mkdtemp, and sequence of operations", "why_tests_cant": "all sequences of moves and assignments; the tests of the class construct, move once and look whether the directory is gone", "anchors": ["test/include/sharg/test/tmp_filename.hpp:68-137", "test/unit/test/tmp_filename_test.cpp"]}
{"id": "C104", "title": "A test program that stops early is not a success", "statement": "A test program reports success only if all its tests ran and all expectations hold. If a test calls std::exit, the program ends with a failure and names that test, whatever status the test asked for; expected exits, whose process calls std::exit on purpose, are not reported. No run has undefined behaviour.", "quantifier": "for every list of tests and statements, builds with and without assertions", "why_tests_cant": "the guard works when the test program is ending: a test of it would end the tests; the case is excluded from coverage", "anchors": ["test/include/sharg/test/test_fixture.hpp:78-88", "test/include/sharg/test/test_fixture.hpp:124-239", "test/include/sharg/test/test_fixture.hpp:243-246"]}
{"id": "C105", "title": "EXPECT_THROW_MSG accepts the exception it names and nothing else", "statement": "The expectation holds exactly if the statement throws an exception of the named class, or of a class derived from it, with the given text; otherwise one failure is reported. The documented exceptions of the library are those that a handler for parser_error catches.", "quantifier": "for every class, text and outcome of the statement", "why_tests_cant": "a failing expectation fails the test program, so only the passing side is ever exercised", "anchors": ["test/include/sharg/test/expect_throw_msg.hpp:17-53", "include/sharg/exceptions.hpp:39-217"]}
{"id": "C106", "title": "Fonts of the help page on a terminal", "statement": "On a terminal every character of a text is shown in the font its markup asks for: bold after \\fB, underlined after \\fI, as usual after \\fP, wherever lines are broken; where the output is no terminal nothing is written for fonts. (Fonts add up if one is switched to before the other has ended, and go on in the next text if not ended.)", "quantifier": "for every text whose words do not end within markup, every layout, indentation and font before the text", "why_tests_cant": "the tests compare captured output, which is no terminal: what the branches that switch fonts write is compared with nothing", "anchors": ["include/sharg/detail/format_help.hpp:220-273", "include/sharg/detail/format_help.hpp:327-374"]}
{"id": "C107", "title": "The version of the library", "statement": "The number of a version is smaller than that of another exactly if the version is older; the text of a version says which release or candidate it is, and the version check reads the text of a release as its numbers and that of a candidate as no version. (Numbers of three digits break the order, and a candidate has the number of its release.)", "quantifier": "for every major, minor and patch version and number of the candidate", "why_tests_cant": "each build has one version; the macros are never expanded for another", "anchors": ["include/sharg/version.hpp:16-64", "include/sharg/detail/version_check.hpp:476-488"]}
{"id": "C108", "title": "Fonts of the HTML page", "statement": "In a browser every character of a text is shown in the font its markup asks for: bold after \\fB, emphasised after \\fI, and after \\fP in the font before. (Where one font is switched to within another this is neither what a terminal nor what man shows, and a font that is not ended goes on after the text.)", "quantifier": "for every text without '<' that to_html converts", "why_tests_cant": "no text in the tests of the HTML page contains markup; only the names of options are compared, which are bold", "anchors": ["include/sharg/detail/format_html.hpp:173-231"]}
