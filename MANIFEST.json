{
 "claims": [
  {
   "property": "C01",
   "status": "proved",
   "theorems": [
    "C01_integer_option",
    "C01_integer_conversion",
    "C01_round_trip"
   ],
   "note": ""
  },
  {
   "property": "C02",
   "status": "partial",
   "theorems": [
    "C02_positional_exact",
    "C02_nothing_lost",
    "C02_lost",
    "C02_element",
    "C02_element_stream",
    "C02_no_value_dropped_refuted",
    "C02_no_value_dropped_partial"
   ],
   "note": "False in builds with NDEBUG: an out-of-range element of a list disappears silently (without NDEBUG: assertion failure). Proved without NDEBUG and for element types without a range. C08_exact and C02_positional_exact give the contents of lists exactly in both build modes; C02_lost counts what is lost. C02_element: an element is what a variable of its type would be, whatever that held."
  },
  {
   "property": "C03",
   "status": "proved",
   "theorems": [
    "C03_bool_option"
   ],
   "note": ""
  },
  {
   "property": "C04",
   "status": "partial",
   "theorems": [
    "C04_path_verbatim_refuted",
    "C04_path_option_partial"
   ],
   "note": "False: paths with blanks or a leading quote are cut or rejected by stream extraction. The accepted texts are characterised exactly."
  },
  {
   "property": "C05",
   "status": "partial",
   "theorems": [
    "C05_enum_conversion",
    "C05_enum_round_trip",
    "C05_enum_option",
    "C05_empty_enum_refuted"
   ],
   "note": "Proved for non-empty tables; with an empty table the error path throws std::out_of_range instead."
  },
  {
   "property": "C06",
   "status": "proved",
   "theorems": [
    "C06_spellings_equivalent"
   ],
   "note": ""
  },
  {
   "property": "C07",
   "status": "proved",
   "theorems": [
    "C07_render_parse"
   ],
   "note": ""
  },
  {
   "property": "C08",
   "status": "partial",
   "theorems": [
    "C08_list_collects_partial",
    "C08_mixed_names_refuted",
    "C08_exact"
   ],
   "note": "False if short and long identifier are mixed (the long ones overwrite the short ones). Proved when each list option is given through one identifier. C08_exact gives the contents for every well-formed command line: the values given by the long name if there are any, else those given by the short name."
  },
  {
   "property": "C09",
   "status": "proved",
   "theorems": [
    "C09_programs_flag",
    "C09_programs_option",
    "C09_unmentioned_option",
    "C09_unbound_variables",
    "C09_unmentioned_flag"
   ],
   "note": "Options: equality of the whole runs with and without the option, for every argument vector. Flags (C09_unmentioned_flag): same outcome, variables and file system with and without a flag that nobody gives; C09_case_dash shows that -a-brief gives the flag brief. Whole programs: C09_programs_flag and C09_programs_option (declarations, parse(), options of the library in between). There the names of an unused option must not occur behind \"--\" either: parse() looks for --help and the like in all arguments and skips the value of every declared option, so declaring -t changes the meaning of \"-- -t --help\" (C09_case_behind)."
  },
  {
   "property": "C10",
   "status": "proved",
   "theorems": [
    "C10_accepted_single_option",
    "C10_required_missing",
    "C10_repeated",
    "C10_required_mentioned"
   ],
   "note": ""
  },
  {
   "property": "C11",
   "status": "partial",
   "theorems": [
    "C11_unknown_rejected_partial",
    "C11_dash_in_cluster_refuted",
    "C11_trailing_dash_refuted",
    "C11_consumed",
    "C11_alone_exact"
   ],
   "note": "False for a dash inside a cluster: -x-foo is accepted like -x --foo if both flags are declared, and -x- sets another flag without long name. Proved for all other arguments (without NUL bytes). C11_consumed: in every accepted vector each argument in front that no option reads is used up by the flags in the order of their declaration or is a word, without exceptions; C11_alone_exact: exactly which arguments a program with flags only accepts."
  },
  {
   "property": "C12",
   "status": "proved",
   "theorems": [
    "C12_everything_consumed"
   ],
   "note": ""
  },
  {
   "property": "C13",
   "status": "partial",
   "theorems": [
    "C13_special_request_refuted",
    "C13_program_partial",
    "C13_tail_verbatim_partial",
    "C13_short_flag_refuted",
    "C13_exact",
    "C13_front_refuted"
   ],
   "note": "False: short flags are searched behind '--' as well, and special requests (--help, ...) are honoured there. Proved for the scanner and for whole runs of parse(), for words that are not empty, do not look like a cluster containing a declared short flag and are no special requests. C13_exact: the words that are left alone are exactly those without a letter of a flag that is not given as a short flag in front; C13_front_refuted: taking such a letter makes --long in front unknown."
  },
  {
   "property": "C14",
   "status": "proved",
   "theorems": [
    "C14_clusters"
   ],
   "note": ""
  },
  {
   "property": "C15",
   "status": "proved",
   "theorems": [
    "C15_flags"
   ],
   "note": ""
  },
  {
   "property": "C16",
   "status": "proved",
   "theorems": [
    "C16_positionals",
    "C16_word_count"
   ],
   "note": ""
  },
  {
   "property": "C17",
   "status": "partial",
   "theorems": [
    "C17_empty_word_refuted",
    "C17_empty_words_ignored"
   ],
   "note": "False: empty words are skipped. Proved instead: they are ignored, as if absent."
  },
  {
   "property": "C18",
   "status": "partial",
   "theorems": [
    "C18_declaration_order_partial",
    "C18_declaration_order_refuted",
    "C18_any_vector",
    "C18_dash_refuted",
    "C18_programs"
   ],
   "note": "False for accepted input when a value looks like another option (C18_declaration_order_refuted), and for flags when a cluster contains a second dash (C18_dash_refuted). Proved for every other argument vector (C18_any_vector): any number of declarations in any other order, accepted by one order exactly if by the other, with the same values, provided no option name is directly followed by an argument looking like another option, what the options leave contains no cluster with a second dash or null character, and validators do not modify the file system; C18_declaration_order_partial is the special case of well-formed invocations. C18_programs lifts this to whole programs: declarations, parse(), with version check requests and the other library options in between."
  },
  {
   "property": "C19",
   "status": "partial",
   "theorems": [
    "C19_validated",
    "C19_message",
    "C19_list_positional_number_refuted"
   ],
   "note": "Proved for well-formed invocations (validators run) and all argument vectors (message). The number in the message is wrong for list positional options."
  },
  {
   "property": "C20",
   "status": "partial",
   "theorems": [
    "C20_empty_vector_refuted",
    "C20_calls_terminate",
    "C20_only_parse_exits",
    "C20_parse_documented_partial",
    "C20_scan_terminates",
    "C20_scan_documented_partial",
    "C20_shipped_validators_behave",
    "C20_list_overflow_refuted",
    "C20_empty_enum_refuted"
   ],
   "note": "Every call terminates, for all states, with the library's pages and version check; only parse() ends the program. Documented outcomes of the scanner and of parse() proved for non-empty enumerations, behaved validators, (without NDEBUG) no lists of numbers, page texts as in C44/C46 and a machine as in C62; the excluded cases are refuted."
  },
  {
   "property": "C21",
   "status": "proved",
   "theorems": [
    "C21_identifiers"
   ],
   "note": ""
  },
  {
   "property": "C22",
   "status": "partial",
   "theorems": [
    "C22_only_names",
    "C22_positional",
    "C22_unnoticed_partial",
    "C22_name_refuted",
    "C22_option_refuted",
    "C22_flag_refuted",
    "C22_short_name_refuted"
   ],
   "note": "False: identifiers and option texts of a rejected declaration stay registered. Proved: nothing else changes, and nobody notices who does not use these names; rejected positional options leave no trace."
  },
  {
   "property": "C23",
   "status": "proved",
   "theorems": [
    "C23_list_last"
   ],
   "note": ""
  },
  {
   "property": "C24",
   "status": "partial",
   "theorems": [
    "C24_positional_partial",
    "C24_order_refuted",
    "C24_exact"
   ],
   "note": "False: subcommands can be added after positional options. Proved for the other order; C24_exact says exactly which sequences of calls give a parser with both."
  },
  {
   "property": "C25",
   "status": "proved",
   "theorems": [
    "C25_frozen"
   ],
   "note": ""
  },
  {
   "property": "C26",
   "status": "proved",
   "theorems": [
    "C26_subcommands"
   ],
   "note": ""
  },
  {
   "property": "C27",
   "status": "partial",
   "theorems": [
    "C27_answers_any",
    "C27_rejected",
    "C27_answers",
    "C27_options_partial",
    "C27_other_name_refuted",
    "C27_cluster_refuted",
    "C27_value_refuted",
    "C27_reserved_refuted"
   ],
   "note": "False for flags in clusters, values looking like a flag, and the other spelling of an option. The exact rule of the code is proved for every argument vector; it is the right one for options on well-formed command lines."
  },
  {
   "property": "C28",
   "status": "proved",
   "theorems": [
    "C28_any",
    "C28_pieces_exist",
    "C28_pieces_unique",
    "C28_parse"
   ],
   "note": ""
  },
  {
   "property": "C29",
   "status": "proved",
   "theorems": [
    "C29_handover_any",
    "C29_unknown_word_any",
    "C29_no_sub_parser_any",
    "C29_handover",
    "C29_front",
    "C29_sub_program",
    "C29_unknown_word",
    "C29_no_sub_parser"
   ],
   "note": ""
  },
  {
   "property": "C30",
   "status": "proved",
   "theorems": [
    "C30_names"
   ],
   "note": ""
  },
  {
   "property": "C31",
   "status": "partial",
   "theorems": [
    "C31_values_any",
    "C31_not_passed_on_any",
    "C31_values",
    "C31_accepted",
    "C31_not_passed_on",
    "C31_own_option_refuted"
   ],
   "note": "Proved for interfaces that do not declare an option version-check of their own (this is accepted, see the refuted theorem)."
  },
  {
   "property": "C32",
   "status": "partial",
   "theorems": [
    "C32_arithmetic_range_partial",
    "C32_exact",
    "C32_wider_type_refuted"
   ],
   "note": "Proved for values of the validator's own type. False for options of a wider type, which are narrowed before the comparison; C32_exact says what is compared."
  },
  {
   "property": "C33",
   "status": "proved",
   "theorems": [
    "C33_value_list",
    "C33_value_list_path"
   ],
   "note": ""
  },
  {
   "property": "C34",
   "status": "proved",
   "theorems": [
    "C34_chain_sequential",
    "C34_chain_associative",
    "C34_chain_conjunction"
   ],
   "note": ""
  },
  {
   "property": "C35",
   "status": "partial",
   "theorems": [
    "C35_extension_exact",
    "C35_extension_partial",
    "C35_dotted_extension",
    "C35_extension_refuted",
    "C35_non_ascii_refuted"
   ],
   "note": "The exact rule of the code is proved; the documented rule is sufficient but not necessary (no dot is required before the extension). Names with bytes above 127 are undefined behaviour."
  },
  {
   "property": "C36",
   "status": "partial",
   "theorems": [
    "C36_input_file_partial",
    "C36_input_file_exact",
    "C36_input_directory",
    "C36_input_file_refuted"
   ],
   "note": "input_directory_validator proved; input_file_validator proved for paths that are not directories, and false for directories, which are accepted (C36_input_file_exact)."
  },
  {
   "property": "C37",
   "status": "partial",
   "theorems": [
    "C37_create_new_unchanged",
    "C37_create_new_accepts",
    "C37_new_file_partial",
    "C37_others_untouched",
    "C37_existing_file_deleted",
    "C37_open_or_create_exact",
    "C37_existing_file_refuted",
    "C37_rejected_file_refuted"
   ],
   "note": "create_new proved. open_or_create deletes existing files; C37_open_or_create_exact says what is left in every case."
  },
  {
   "property": "C38",
   "status": "partial",
   "theorems": [
    "C38_output_directory_partial",
    "C38_others_untouched",
    "C38_existing_exact",
    "C38_output_directory_refuted"
   ],
   "note": "Proved unless the directory contains an entry dummy.txt, which is deleted; C38_existing_exact says what is left in every case."
  },
  {
   "property": "C39",
   "status": "partial",
   "theorems": [
    "C39_help_page",
    "C39_html_page_partial",
    "C39_man_page_partial",
    "C39_tool_description",
    "C39_not_listed",
    "C39_export_refuted"
   ],
   "note": "Proved for -h, -hh and tool descriptions (every text, every sequence of declarations); exported html and man pages leave out advanced entries contrary to the documentation (refuted), the entries they do list are characterised."
  },
  {
   "property": "C40",
   "status": "partial",
   "theorems": [
    "C40_wrapping_partial",
    "C40_terminal_partial",
    "C40_screen_partial",
    "C40_null_refuted",
    "C40_width_refuted",
    "C40_unwrapped_refuted",
    "C40_filled",
    "C40_aligned",
    "C40_dangling",
    "C40_seen",
    "C40_column_refuted"
   ],
   "note": "Words kept always, width for documented markup; lines are filled, and aligned if the first word fits; the same holds of what is seen on a terminal; not printed exactly if a word ends within markup (dangling backslash). Refuted: text after a null character is lost, undocumented markup makes lines too wide, terms are never wrapped, the line after a first word that is too long begins one column further right."
  },
  {
   "property": "C41",
   "status": "partial",
   "theorems": [
    "C41_width_partial",
    "C41_small_refuted",
    "C41_large_refuted",
    "C41_pieces",
    "C41_one_way",
    "C41_exact",
    "C41_slash_font_refuted"
   ],
   "note": "Proved for the documented markup (\\fB, \\fI, \\fP, \\-); refuted for other uses of the backslash in both directions. C41_exact counts what is missing for every text that can be shown and has no \\f\\ in it."
  },
  {
   "property": "C42",
   "status": "partial",
   "theorems": [
    "C42_plain_terms_partial",
    "C42_long_terms_partial",
    "C42_option_names",
    "C42_column_refuted",
    "C42_new_line_refuted",
    "C42_no_description_refuted",
    "C42_exact"
   ],
   "note": "Proved for terms without markup and for all terms of at least five characters (all names of options); refuted for short terms with markup and empty descriptions. C42_exact: the claim is true of a term exactly if it has no markup or at least five of its characters are seen."
  },
  {
   "property": "C43",
   "status": "proved",
   "theorems": [
    "C43_escape"
   ],
   "note": ""
  },
  {
   "property": "C44",
   "status": "partial",
   "theorems": [
    "C44_nested_partial",
    "C44_tags_refuted",
    "C44_unclosed_refuted",
    "C44_exact"
   ],
   "note": "Proved for texts without angle brackets and with balanced markup; refuted otherwise. C44_exact: among pages whose texts have no angle brackets, exactly those with balanced markup everywhere are well nested."
  },
  {
   "property": "C45",
   "status": "partial",
   "theorems": [
    "C45_literal_partial",
    "C45_special_refuted",
    "C45_title",
    "C45_exact"
   ],
   "note": "Proved for texts without < and & and for the title; refuted in general. C45_exact: exactly the texts without < and without a reference to a character are shown literally."
  },
  {
   "property": "C46",
   "status": "partial",
   "theorems": [
    "C46_help_page_partial",
    "C46_short_help_partial",
    "C46_version_partial",
    "C46_man_page_partial",
    "C46_copyright",
    "C46_documented",
    "C46_quoted",
    "C46_synopsis_refuted",
    "C46_backslash_refuted",
    "C46_default_refuted",
    "C46_html_refuted",
    "C46_help_exact",
    "C46_html_exact",
    "C46_man_exact",
    "C46_short_help_exact",
    "C46_version_exact",
    "C46_failures"
   ],
   "note": "Proved for texts without dangling backslashes and synopses with a blank; refuted otherwise. The exact condition for each page (help, short help, version, HTML, man) and the only ways to fail are proved (C46_*_exact, C46_failures)."
  },
  {
   "property": "C47",
   "status": "partial",
   "theorems": [
    "C47_opt_out",
    "C47_never",
    "C47_untouched_refuted",
    "C47_deleted_refuted"
   ],
   "note": "Proved: no request, question, message or cookie in any opted-out run, and a stored NEVER silences all runs without an explicit option. False: with notifications switched off the configuration directories are created and dummy.txt (a whole directory of that name too) is deleted."
  },
  {
   "property": "C48",
   "status": "partial",
   "theorems": [
    "C48_exact",
    "C48_determined",
    "C48_after_always",
    "C48_day_after_question",
    "C48_day_between_partial",
    "C48_always_refuted"
   ],
   "note": "Proved for histories in which nobody answers 'always', and for the day after any question. False after 'always': the stored time is not renewed, so from the next day on every run sends a request. Reading back a time stamp: the condition clock_ok, proved for the code in C91. C48_exact describes every history with a usable configuration directory run by run; C48_after_always says when exactly requests are made after 'always'."
  },
  {
   "property": "C49",
   "status": "partial",
   "theorems": [
    "C49_forgotten",
    "C49_temporary",
    "C49_never_partial",
    "C49_asked_again_refuted"
   ],
   "note": "Proved as long as the configuration directory stays usable, or the temporary directory where the former cannot be made (C49_temporary). False if the directory chosen is not writable: the decision is stored in the working directory and never read; then every run is like the first one (C49_forgotten, exactly). With a usable directory C48_exact is the complete course, including this decision."
  },
  {
   "property": "C50",
   "status": "partial",
   "theorems": [
    "C50_release_partial",
    "C50_debug_partial",
    "C50_no_file",
    "C50_large_refuted",
    "C50_one_line_refuted",
    "C50_lines",
    "C50_release_exact",
    "C50_debug_exact",
    "C50_address",
    "C50_wording",
    "C50_switch_off",
    "C50_switch_off_refuted"
   ],
   "note": "The claim about numbers holds below 2^31 and, in debug mode, for files with two lines, and is refuted otherwise; C50_release_exact and C50_debug_exact give the messages for every file and all numbers (those of 2^31 and more count as 0, the only line of a file counts for Sharg too). C50_address: the message names the address exactly if the program has one. C50_wording: in every run only the five texts written out in WordingSpec.v are shown, the question only on a terminal, the notice to users only in release builds and those to developers only in debug builds; C50_switch_off: all notices say how to switch them off except the one about an application newer than registered (refuted for it)."
  },
  {
   "property": "C51",
   "status": "proved",
   "theorems": [
    "C51_command"
   ],
   "note": ""
  },
  {
   "property": "C52",
   "status": "partial",
   "theorems": [
    "C52_exact",
    "C52_move_partial",
    "C52_lost_refuted",
    "C52_dangling_refuted"
   ],
   "note": "False: operations keep pointing to the old object. Proved for moves before anything was added and after parse(); C52_exact gives the result of parse() after any moves."
  },
  {
   "property": "C53",
   "status": "partial",
   "theorems": [
    "C53_exact",
    "C53_unchanged_refuted",
    "C53_unchanged_partial"
   ],
   "note": "The claim is false for integers and paths (the text may be converted in part), proved for the other types; C53_exact says for all types what is stored."
  },
  {
   "property": "C54",
   "status": "partial",
   "theorems": [
    "C54_cluster_text_partial",
    "C54_cluster_text_refuted"
   ],
   "note": "False: the blank before 'and' is missing. The printed text is characterised exactly."
  },
  {
   "property": "C55",
   "status": "proved",
   "theorems": [
    "C55_interleaving",
    "C55_programs",
    "C55_any_vector"
   ],
   "note": "Well-formed command lines: any interleaving (C55_interleaving). Arbitrary argument vectors: an option with its value may be exchanged with any arguments behind it which neither mention that name nor end with the name of an option (C55_any_vector; C55_case_open shows the last condition is needed). C55_programs lifts this to whole programs, with requests for pages and for the version check in between."
  },
  {
   "property": "C56",
   "status": "proved",
   "theorems": [
    "C56_end_to_end"
   ],
   "note": ""
  },
  {
   "property": "C57",
   "status": "proved",
   "theorems": [
    "C57_numbering"
   ],
   "note": ""
  },
  {
   "property": "C58",
   "status": "partial",
   "theorems": [
    "C58_exact",
    "C58_lists",
    "C58_string_lists",
    "C58_message",
    "C58_required",
    "C58_default_partial",
    "C58_quotes",
    "C58_char_refuted",
    "C58_list_refuted",
    "C58_path_refuted"
   ],
   "note": "Proved for integers, bool, named enumerations; strings and paths are shown quoted such that the value can be read back. Refuted for char, lists of 8 bit integers and paths. C58_exact, C58_lists and C58_string_lists say for every type of element (floating point: C87) and every value whether the text shown is read as the value again; C58_message and C58_required what is shown otherwise."
  },
  {
   "property": "C59",
   "status": "partial",
   "theorems": [
    "C59_period_refuted",
    "C59_validator_refuted"
   ],
   "note": "The part that holds is C39_man_page_partial; refuted for texts that start with a control character."
  },
  {
   "property": "C60",
   "status": "partial",
   "theorems": [
    "C60_mapping_partial",
    "C60_short_refuted",
    "C60_advanced_flag_refuted",
    "C60_names",
    "C60_distinct",
    "C60_position_refuted"
   ],
   "note": "Exact characterisation of the mapping and of all names, and of when the names are distinct; refuted for short-only options, flags, advanced flags, and options called like a positional option."
  },
  {
   "property": "C61",
   "status": "partial",
   "theorems": [
    "C61_answer",
    "C61_always",
    "C61_explicit",
    "C61_return_refuted",
    "C61_no_terminal_refuted",
    "C61_offered"
   ],
   "note": "Proved except for the defaults: RETURN skips although 'always' is announced as the default, and without a terminal no check is made although the comment says so. C61_offered: every answer in the text of the question does what its words say."
  },
  {
   "property": "C62",
   "status": "partial",
   "theorems": [
    "C62_never_fails_partial",
    "C62_no_home_refuted",
    "C62_no_tmp_refuted",
    "C62_assertion_refuted",
    "C62_exact",
    "C62_one_ending"
   ],
   "note": "Proved if HOME is set, the temporary directory exists and (without NDEBUG) there is no dummy.txt; refuted without each of these, even with notifications switched off. C62_exact says for every state of the files which of the four endings a run has (files only inside of directories that are there)."
  },
  {
   "property": "C63",
   "status": "partial",
   "theorems": [
    "C63_same_address",
    "C63_sharg_version_refuted"
   ],
   "note": "Non-interference proved; the Sharg version is not sent contrary to the documentation."
  },
  {
   "property": "C64",
   "status": "partial",
   "theorems": [
    "C64_one_word_partial",
    "C64_home_refuted",
    "C64_exact"
   ],
   "note": "Proved if HOME and the temporary directory contain no characters special to the shell; refuted otherwise; C64_exact is the equivalence for every request."
  },
  {
   "property": "C65",
   "status": "partial",
   "theorems": [
    "C65_defaults_partial",
    "C65_list_refuted",
    "C65_path_refuted"
   ],
   "note": "False for lists and enumerations (described as boolean false) and paths (quoted). Proved for booleans, integers, characters, strings and positional options, floating point numbers; what lists, enumerations, user types and paths get instead is proved as well."
  },
  {
   "property": "C66",
   "status": "proved",
   "theorems": [
    "C66_alone",
    "C66_wait_free"
   ],
   "note": ""
  },
  {
   "property": "C67",
   "status": "proved",
   "theorems": [
    "C67_opt_out"
   ],
   "note": ""
  },
  {
   "property": "C68",
   "status": "partial",
   "theorems": [
    "C68_consent",
    "C68_only_own_refuted"
   ],
   "note": "Proved; an 'always' given to another run does count (refuted for consent of the run's own user only)."
  },
  {
   "property": "C69",
   "status": "proved",
   "theorems": [
    "C69_quiet"
   ],
   "note": ""
  },
  {
   "property": "C70",
   "status": "partial",
   "theorems": [
    "C70_decisions",
    "C70_times",
    "C70_kept_refuted",
    "C70_word_refuted",
    "C70_both_refuted",
    "C70_asked_twice_refuted"
   ],
   "note": "Decisions and times come from some run (proved, times of ten digits); answers can be lost or garbled by an overlapping run, and a question can be asked twice (refuted)."
  },
  {
   "property": "C71",
   "status": "partial",
   "theorems": [
    "C71_release",
    "C71_debug_refuted"
   ],
   "note": "Proved for release builds; in debug builds the version registered may look older than it is (refuted)."
  },
  {
   "property": "C72",
   "status": "partial",
   "theorems": [
    "C72_justified",
    "C72_repeated_flag_refuted"
   ],
   "note": "Proved for all kinds of errors and messages; a declared flag given twice (or by both names) is called unknown (refuted). The clause on flags assumes no NUL byte and no dash inside a cluster."
  },
  {
   "property": "C73",
   "status": "proved",
   "theorems": [
    "C73_word_count",
    "C73_too_many",
    "C73_too_few",
    "C73_success"
   ],
   "note": ""
  },
  {
   "property": "C74",
   "status": "proved",
   "theorems": [
    "C74_meaning",
    "C74_unique",
    "C74_refused"
   ],
   "note": "Exact in both directions for wf_decls (the rules verify_identifiers and the positional checks enforce)."
  },
  {
   "property": "C75",
   "status": "proved",
   "theorems": [
    "C75_accepted",
    "C75_unique",
    "C75_overflow",
    "C75_begins",
    "C75_decimal"
   ],
   "note": "Exact in both directions, for every rounding; the pattern std::from_chars reads is written out from the C++ standard."
  },
  {
   "property": "C76",
   "status": "partial",
   "theorems": [
    "C76_agrees_partial",
    "C76_defined",
    "C76_poisoned",
    "C76_errno_refuted",
    "C76_precision_refuted",
    "C76_infinite_refuted",
    "C76_blank_refuted",
    "C76_hex_refuted",
    "C76_agrees_refuted",
    "C76_reads",
    "C76_unique",
    "C76_accepted",
    "C76_range",
    "C76_agrees_exact",
    "C76_more"
   ],
   "note": "Agreement proved for texts without leading blank and 0x whose value is not changed by float (or type float) as long as no earlier number was out of range; each of these conditions is needed (refuted). Never undefined behaviour as called by the parser. C76_reads and C76_accepted give exactly what is read and with which value (blanks, signs, hexadecimal numbers with their powers); C76_agrees_exact the exact cases of agreement for texts read before any number was out of range."
  },
  {
   "property": "C77",
   "status": "partial",
   "theorems": [
    "C77_inside_partial",
    "C77_inside_refuted",
    "C77_overflow",
    "C77_hex",
    "C77_hex_refuted",
    "C77_fixed",
    "C77_scientific_partial",
    "C77_scientific_refuted",
    "C77_to_chars"
   ],
   "note": "Ranges of fewer than 100 characters and to_chars proved; longer ranges overflow the buffer, the hexadecimal format loses the last two digits and the scientific format accepts an exponent mark anywhere (refuted, with general theorems saying what happens instead)."
  },
  {
   "property": "C78",
   "status": "partial",
   "theorems": [
    "C78_reading",
    "C78_page",
    "C78_library",
    "C78_announced",
    "C78_announced_refuted"
   ],
   "note": "Both equivalences proved. That only declared options are known holds if no declaration was rejected and is refuted otherwise."
  },
  {
   "property": "C79",
   "status": "proved",
   "theorems": [
    "C79_programs_any",
    "C79_interface",
    "C79_programs"
   ],
   "note": ""
  },
  {
   "property": "C80",
   "status": "partial",
   "theorems": [
    "C80_meaning",
    "C80_unique",
    "C80_exclusive",
    "C80_decided",
    "C80_decided_refuted",
    "C80_kinds",
    "C80_untouched",
    "C80_program"
   ],
   "note": "Exact in both directions, for the scanner and for whole runs. That every vector is either understood or refused needs the conditions of C20 on the declarations and is refuted without."
  },
  {
   "property": "C81",
   "status": "partial",
   "theorems": [
    "C81_inner",
    "C81_lossless",
    "C81_name",
    "C81_meaning",
    "C81_complete",
    "C81_name_refuted"
   ],
   "note": "Proved for all depths; C81_complete: a parser at the bottom exists only when each level met its subcommand before any error of the scan for subcommands (descends), so that condition is exact. The name does not determine the way: dashes may be part of a name (refuted)."
  },
  {
   "property": "C82",
   "status": "partial",
   "theorems": [
    "C82_events",
    "C82_bound",
    "C82_account",
    "C82_exact",
    "C82_no_request",
    "C82_served",
    "C82_off",
    "C82_idle",
    "C82_sub",
    "C82_parse_refuted",
    "C82_slow_refuted",
    "C82_exit_refuted",
    "C82_move_refuted"
   ],
   "note": "Bound, exact wait, accounting and opting out proved. parse() waits for the commands that look for a program (refuted); slow requests, std::exit and moving onto a parser that made a request leave requests unfinished (refuted)."
  },
  {
   "property": "C83",
   "status": "partial",
   "theorems": [
    "C83_resolution",
    "C83_path",
    "C83_refused",
    "C83_deterministic",
    "C83_input_file",
    "C83_input_directory",
    "C83_output_file",
    "C83_output_directory",
    "C83_trailing_slash_refuted"
   ],
   "note": "Resolution is equivalent to an inductive set of rules; agreement with the plain model proved, in debug builds with a recent libstdc++ where only directories are on the way. A slash behind a file name is dropped by the plain model (refuted)."
  },
  {
   "property": "C84",
   "status": "partial",
   "theorems": [
    "C84_input_file",
    "C84_input_directory",
    "C84_output_file",
    "C84_create_new_accepts",
    "C84_create_new_trace_partial",
    "C84_create_new_link",
    "C84_create_new_trace_refuted",
    "C84_frame",
    "C84_refused_kept_refuted",
    "C84_existing_directory",
    "C84_dummy",
    "C84_missing_directory",
    "C84_outside_refuted"
   ],
   "note": "Exact effects proved. A dangling link is accepted by create_new, its target stays and the link is removed (refuted); refused unwritable files and links are removed (refuted); dummy.txt being a link, a file outside of the directory is emptied (refuted)."
  },
  {
   "property": "C85",
   "status": "partial",
   "theorems": [
    "C85_input",
    "C85_output_file_partial",
    "C85_output_directory_partial",
    "C85_output_refuted"
   ],
   "note": "Input validators: proved. Output validators let filesystem_error out exactly if the first look at the path is refused (loop of links, unsearchable directory), before anything is changed."
  },
  {
   "property": "C86",
   "status": "proved",
   "theorems": [
    "C86_assert"
   ],
   "note": "Exact condition proved; with a recent libstdc++ a path through a file (\"a.txt/x\", \"a.txt/\") ends the process instead of being reported (C86_path_through_file)."
  },
  {
   "property": "C87",
   "status": "partial",
   "theorems": [
    "C87_rounding",
    "C87_shown",
    "C87_read_back_partial",
    "C87_exact",
    "C87_special",
    "C87_read_back_refuted"
   ],
   "note": "Rounding and showing are exact for all three types. Reading back the shown default: proved for values given with at most six significant digits, zeros, infinities, NaN; false for values with more digits; C87_exact: exactly the values which can be given with at most six significant digits are read back."
  },
  {
   "property": "C88",
   "status": "partial",
   "theorems": [
    "C88_range",
    "C88_nan",
    "C88_values",
    "C88_message_numbers",
    "C88_message_refuted",
    "C88_converted",
    "C88_integers",
    "C88_integers_refuted",
    "C88_same_text_refuted",
    "C88_list",
    "C88_list_refuted"
   ],
   "note": "Exact for validators and options of floating point types, same or different. The claim about messages is false (1e-7 outside of [1e-8, 2e-8] is reported as 0.000000 not in [0.000000,0.000000]); double validators on float options refuse 0.1 with a message that shows equality. On integer options the value is rounded to the floating point type first: exact for integers that fit into the mantissa, wrong beyond."
  },
  {
   "property": "C89",
   "status": "partial",
   "theorems": [
    "C89_range_partial",
    "C89_list_partial",
    "C89_undefined",
    "C89_no_whole_part",
    "C89_accepts_outside_refuted",
    "C89_message_refuted",
    "C89_undefined_refuted"
   ],
   "note": "False: the value is truncated to the integer type of the validator; what is compared and reported is proved exactly, and for which numbers the behaviour is undefined."
  },
  {
   "property": "C90",
   "status": "partial",
   "theorems": [
    "C90_refused",
    "C90_message_refuted",
    "C90_small_refuted"
   ],
   "note": "Which arguments are refused is proved exactly. The range in the message is wrong: it starts at the smallest positive number (shown as 0.000000), negative numbers are accepted."
  },
  {
   "property": "C91",
   "status": "partial",
   "theorems": [
    "C91_clock",
    "C91_line",
    "C91_no_number",
    "C91_again_refuted",
    "C91_replacement_partial",
    "C91_replacement_refuted",
    "C91_replacement_early_refuted",
    "C91_replacement_late_refuted",
    "C91_errno"
   ],
   "note": "Exact for the standard library's from_chars (every line, exact threshold). With the replacement times below 2^31 are read up to 64 seconds wrong, and after a number out of range (errno) nothing is recent. That lines other than times are old is false for times in the future and inf."
  },
  {
   "property": "C92",
   "status": "proved",
   "theorems": [
    "C92_verdict",
    "C92_one_reason",
    "C92_in_order",
    "C92_announced"
   ],
   "note": "Complete: verdict and message of every declaration after every history of calls."
  },
  {
   "property": "C93",
   "status": "partial",
   "theorems": [
    "C93_match",
    "C93_search",
    "C93_malformed",
    "C93_control_refuted",
    "C93_plain",
    "C93_names",
    "C93_versions",
    "C93_version_search",
    "C93_email",
    "C93_path",
    "C93_path_refuted",
    "C93_seasons",
    "C93_inside",
    "C93_any",
    "C93_chr",
    "C93_validator",
    "C93_validator_list",
    "C93_validator_malformed",
    "C93_option"
   ],
   "note": "Exact for every expression of the grammar below 100000 states (back references, look-ahead, word boundaries and collating symbols excluded). That the documented pattern for absolute paths accepts every absolute path with an extension is false."
  },
  {
   "property": "C94",
   "status": "proved",
   "theorems": [
    "C94_help",
    "C94_version",
    "C94_short_help",
    "C94_html",
    "C94_man",
    "C94_copyright",
    "C94_tool"
   ],
   "note": "Complete for texts without characters that the kind of page would take for markup of its own (escape characters, markup of HTML, line breaks and requests in man pages)."
  },
  {
   "property": "C95",
   "status": "partial",
   "theorems": [
    "C95_text",
    "C95_same_partial",
    "C95_message",
    "C95_all_checked",
    "C95_chain",
    "C95_parentheses",
    "C95_commas_refuted",
    "C95_empty_refuted",
    "C95_extensions_refuted",
    "C95_floats_refuted",
    "C95_chains_refuted"
   ],
   "note": "Exact sentences for all validators. That equal texts mean equal checks is false for values and extensions with commas, for the empty word, for floating point numbers beyond six digits and for patterns that contain the words between two patterns; proved otherwise."
  },
  {
   "property": "C96",
   "status": "proved",
   "theorems": [
    "C96_paths",
    "C96_name",
    "C96_input_file",
    "C96_input_directory",
    "C96_output_file",
    "C96_output_directory",
    "C96_lists"
   ],
   "note": "Complete tables for 7 bit file names and file systems that are trees (no links, no \"..\")."
  },
  {
   "property": "C97",
   "status": "partial",
   "theorems": [
    "C97_elements",
    "C97_every_path",
    "C97_path",
    "C97_path_list",
    "C97_says",
    "C97_option",
    "C97_path_refuted",
    "C97_tutorial",
    "C97_absolute",
    "C97_path_values",
    "C97_text",
    "C97_text_refuted",
    "C97_truth"
   ],
   "note": "Refuted for single paths with a pattern (the elements of the path are compared) and for texts with a range of numbers (the codes of the characters are compared); the exact behaviour is proved."
  },
  {
   "property": "C98",
   "status": "partial",
   "theorems": [
    "C98_best",
    "C98_overload",
    "C98_ambiguous",
    "C98_accepted",
    "C98_compiles",
    "C98_admitted",
    "C98_parsable",
    "C98_compiles_refuted",
    "C98_agrees",
    "C98_covers",
    "C98_lists",
    "C98_names",
    "C98_names_refuted",
    "C98_every_name",
    "C98_shown",
    "C98_qualified",
    "C98_unnamed",
    "C98_table",
    "C98_numbers",
    "C98_texts",
    "C98_chain",
    "C98_number_overload",
    "C98_file_overload",
    "C98_regex_looks",
    "C98_range_looks",
    "C98_values_look"
   ],
   "note": "Refuted in general: the constraint admits std::set<int>, std::string_view, enumerations both named and streamed and classes derived from std::string, which no overload (or no single one) reads; and long long is shown under its own name. Proved for all types made of numbers, texts, paths and lists; the chosen overload is exact for every class given by its facts."
  },
  {
   "property": "C99",
   "status": "partial",
   "theorems": [
    "C99_rejected",
    "C99_accepted",
    "C99_parsing",
    "C99_pages",
    "C99_table_partial",
    "C99_required_flag_refuted",
    "C99_required_positional_refuted",
    "C99_full_stop_refuted"
   ],
   "note": "The table is proved exactly for every kind and parameter except required of flags, which has no effect anywhere (refuted); two sentences of config.hpp are refuted as well."
  },
  {
   "property": "C100",
   "status": "proved",
   "theorems": [
    "C100_classes",
    "C100_case_mapping",
    "C100_numbers",
    "C100_digits",
    "C100_pieces",
    "C100_find",
    "C100_texts",
    "C100_lists",
    "C100_errors",
    "C100_calls"
   ],
   "note": "The functions of the C and C++ standard libraries the model uses, against tables and a definition of decimal notation that share nothing with the model."
  },
  {
   "property": "C101",
   "status": "proved",
   "theorems": [
    "C101_new",
    "C101_last_written",
    "C101_runs",
    "C101_sub_parser"
   ],
   "note": "A new parser says nothing but its name (section 1, everything else empty); after any calls parser.info is the last thing assigned; a sub-parser takes over only the name its parser has when parse() makes it, and the calls it lives through are those made on it afterwards, so the statements apply to it in turn."
  },
  {
   "property": "C102",
   "status": "partial",
   "theorems": [
    "C102_read",
    "C102_write_file",
    "C102_write_directory",
    "C102_unchanged_refuted"
   ],
   "note": "read_access: exactly the readable entries at the end of the links. write_access: exactly what can be opened for writing, with the change opening makes; of a directory without an entry sharg_test_write_access: nothing changes. Refuted: asking changes nothing (content of the file is lost)."
  },
  {
   "property": "C103",
   "status": "partial",
   "theorems": [
    "C103_constructor",
    "C103_succeeds",
    "C103_path",
    "C103_inside_refuted",
    "C103_untouched",
    "C103_elsewhere",
    "C103_lifetime",
    "C103_assign_refuted"
   ],
   "note": "The constructor either throws and changes nothing or makes one new empty directory, and succeeds while a name is free; a plain name lies in it. Over all sessions of constructions, moves, assignments, destructions and work inside: existing entries are untouched, everything new is in a directory of an object, all is gone after the last destructor. Refuted: with move assignment (the directory of the target stays), and for absolute names."
  },
  {
   "property": "C104",
   "status": "partial",
   "theorems": [
    "C104_complete",
    "C104_early",
    "C104_success",
    "C104_assertions",
    "C104_defined_refuted"
   ],
   "note": "For every list of tests: nothing is said and the status is the result of the expectations if no test ends the process; std::exit in a test gives failure and its name, whatever the status; success means that all tests ran and hold. Refuted: the run is defined (std::exit in a static destructor)."
  },
  {
   "property": "C105",
   "status": "partial",
   "theorems": [
    "C105_holds",
    "C105_what",
    "C105_once",
    "C105_documented",
    "C105_kinds",
    "C105_message_refuted"
   ],
   "note": "EXPECT_THROW_MSG holds exactly if an object of the class or a derived one is thrown and what() is the text; one failure at most; the documented exceptions are those parser_error catches. Refuted: the whole text is compared (what() ends at NUL)."
  },
  {
   "property": "C106",
   "status": "partial",
   "theorems": [
    "C106_fonts",
    "C106_as_in_man",
    "C106_file",
    "C106_items",
    "C106_sections",
    "C106_subsections",
    "C106_as_in_man_refuted",
    "C106_ends_refuted"
   ],
   "note": "The font of every character, proved for every text that is printed (C106_fonts); as roff shows it if each font is ended before the next. Refuted otherwise: fonts add up, and go on in the next text."
  },
  {
   "property": "C107",
   "status": "partial",
   "theorems": [
    "C107_order",
    "C107_text",
    "C107_read",
    "C107_candidate",
    "C107_order_refuted",
    "C107_number_refuted"
   ],
   "note": "Order of numbers proved for minor versions and patches below 100, refuted beyond; texts identify every release; candidates have the number of their release and are no version to the version check."
  },
  {
   "property": "C108",
   "status": "partial",
   "theorems": [
    "C108_fonts",
    "C108_as_in_man",
    "C108_as_in_man_refuted",
    "C108_ends_refuted"
   ],
   "note": "The font of every character of converted texts without '<' (C108_fonts); as roff shows it if each font is ended before the next. Refuted otherwise, and for fonts that are not ended."
  }
 ]
}
