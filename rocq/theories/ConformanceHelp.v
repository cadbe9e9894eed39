(** Tests, not proofs: expectations of the repository's unit tests for pages, evaluated in the
    model.  Transcribed from test/unit/detail/format_help_test.cpp, format_html_test.cpp, format_man_test.cpp and
    test/unit/parser/subcommand_test.cpp, for builds without the TDL library. *)
From Verif Require Import Base Fs Values Validators ValidatorsHelp FormatParse Parser HelpExport VersionCheck Samples HelpSamples Conformance.

Definition basic_options_str : string :=
"  Common options
    -h, --help
          Prints the help page.
    -hh, --advanced-help
          Prints the help page including advanced options.
    --version
          Prints the version information.
    --copyright
          Prints the copyright/license information.
    --export-help (std::string)
          Export the help page information. Value must be one of [html, man].
".
Definition version_of (sub : string) : string :=
  "VERSION" +s+ nl +s+ "    Last update:" +s+ nl +s+ "    test_parser" +s+ sub +s+ " version:" +s+ nl +s+ "    Sharg version: 1.1.2-rc.1" +s+ nl.
Definition version_str : string := version_of "".
Definition title : string :=
"test_parser
===========
".

(** the fields of the member info, as assigned by the tests *)
Record about := {
  a_short : string; a_author : string; a_email : string; a_date : string; a_url : string; a_version : string; a_cr : string; a_long_cr : string;
  a_cite : string; a_man : string; a_desc : list string; a_syn : list string; a_ex : list string }.
Definition nothing : about :=
  {| a_short := ""; a_author := ""; a_email := ""; a_date := ""; a_url := ""; a_version := ""; a_cr := ""; a_long_cr := "";
     a_cite := ""; a_man := ""; a_desc := []; a_syn := []; a_ex := [] |}.
Definition inform (a : about) : call * expectation :=
  (CInfo {| m_app_name := "test_parser"; m_version := a_version a; m_short_description := a_short a; m_author := a_author a; m_email := a_email a;
            m_date := a_date a; m_url := a_url a; m_short_copyright := a_cr a; m_long_copyright := a_long_cr a; m_citation := a_cite a;
            m_man_page_title := a_man a; m_man_page_section := 1; m_description := a_desc a; m_synopsis := a_syn a; m_examples := a_ex a |}, Fine).

Definition with_short (v : string) (a : about) : about := {| a_short := v; a_author := a_author a; a_email := a_email a; a_date := a_date a; a_url := a_url a; a_version := a_version a; a_cr := a_cr a; a_long_cr := a_long_cr a; a_cite := a_cite a; a_man := a_man a; a_desc := a_desc a; a_syn := a_syn a; a_ex := a_ex a |}.
Definition with_author (v : string) (a : about) : about := {| a_short := a_short a; a_author := v; a_email := a_email a; a_date := a_date a; a_url := a_url a; a_version := a_version a; a_cr := a_cr a; a_long_cr := a_long_cr a; a_cite := a_cite a; a_man := a_man a; a_desc := a_desc a; a_syn := a_syn a; a_ex := a_ex a |}.
Definition with_email (v : string) (a : about) : about := {| a_short := a_short a; a_author := a_author a; a_email := v; a_date := a_date a; a_url := a_url a; a_version := a_version a; a_cr := a_cr a; a_long_cr := a_long_cr a; a_cite := a_cite a; a_man := a_man a; a_desc := a_desc a; a_syn := a_syn a; a_ex := a_ex a |}.
Definition with_date (v : string) (a : about) : about := {| a_short := a_short a; a_author := a_author a; a_email := a_email a; a_date := v; a_url := a_url a; a_version := a_version a; a_cr := a_cr a; a_long_cr := a_long_cr a; a_cite := a_cite a; a_man := a_man a; a_desc := a_desc a; a_syn := a_syn a; a_ex := a_ex a |}.
Definition with_url (v : string) (a : about) : about := {| a_short := a_short a; a_author := a_author a; a_email := a_email a; a_date := a_date a; a_url := v; a_version := a_version a; a_cr := a_cr a; a_long_cr := a_long_cr a; a_cite := a_cite a; a_man := a_man a; a_desc := a_desc a; a_syn := a_syn a; a_ex := a_ex a |}.
Definition with_version (v : string) (a : about) : about := {| a_short := a_short a; a_author := a_author a; a_email := a_email a; a_date := a_date a; a_url := a_url a; a_version := v; a_cr := a_cr a; a_long_cr := a_long_cr a; a_cite := a_cite a; a_man := a_man a; a_desc := a_desc a; a_syn := a_syn a; a_ex := a_ex a |}.
Definition with_cr (v : string) (a : about) : about := {| a_short := a_short a; a_author := a_author a; a_email := a_email a; a_date := a_date a; a_url := a_url a; a_version := a_version a; a_cr := v; a_long_cr := a_long_cr a; a_cite := a_cite a; a_man := a_man a; a_desc := a_desc a; a_syn := a_syn a; a_ex := a_ex a |}.
Definition with_long_cr (v : string) (a : about) : about := {| a_short := a_short a; a_author := a_author a; a_email := a_email a; a_date := a_date a; a_url := a_url a; a_version := a_version a; a_cr := a_cr a; a_long_cr := v; a_cite := a_cite a; a_man := a_man a; a_desc := a_desc a; a_syn := a_syn a; a_ex := a_ex a |}.
Definition with_cite (v : string) (a : about) : about := {| a_short := a_short a; a_author := a_author a; a_email := a_email a; a_date := a_date a; a_url := a_url a; a_version := a_version a; a_cr := a_cr a; a_long_cr := a_long_cr a; a_cite := v; a_man := a_man a; a_desc := a_desc a; a_syn := a_syn a; a_ex := a_ex a |}.
Definition with_man (v : string) (a : about) : about := {| a_short := a_short a; a_author := a_author a; a_email := a_email a; a_date := a_date a; a_url := a_url a; a_version := a_version a; a_cr := a_cr a; a_long_cr := a_long_cr a; a_cite := a_cite a; a_man := v; a_desc := a_desc a; a_syn := a_syn a; a_ex := a_ex a |}.
Definition with_desc (v : list string) (a : about) : about := {| a_short := a_short a; a_author := a_author a; a_email := a_email a; a_date := a_date a; a_url := a_url a; a_version := a_version a; a_cr := a_cr a; a_long_cr := a_long_cr a; a_cite := a_cite a; a_man := a_man a; a_desc := v; a_syn := a_syn a; a_ex := a_ex a |}.
Definition with_syn (v : list string) (a : about) : about := {| a_short := a_short a; a_author := a_author a; a_email := a_email a; a_date := a_date a; a_url := a_url a; a_version := a_version a; a_cr := a_cr a; a_long_cr := a_long_cr a; a_cite := a_cite a; a_man := a_man a; a_desc := a_desc a; a_syn := v; a_ex := a_ex a |}.
Definition with_ex (v : list string) (a : about) : about := {| a_short := a_short a; a_author := a_author a; a_email := a_email a; a_date := a_date a; a_url := a_url a; a_version := a_version a; a_cr := a_cr a; a_long_cr := a_long_cr a; a_cite := a_cite a; a_man := a_man a; a_desc := a_desc a; a_syn := a_syn a; a_ex := v |}.

Definition checked_by (v : shipped) (c : config) : config := explained (help_of v) (validated (check_of false v) c).
Definition optd (x : addr) (t : vty) (s : chr) (l d : string) : call * expectation := opt x t (described d (ids s l)).
Definition posd (x : addr) (t : vty) (d : string) : call * expectation := (CAddPositional x t (described d none), Fine).
Definition prints (s : string) : call * expectation := parses (Prints s).

(** ** format_help_test.cpp *)

Example short_help :
  let page := title +s+
"    ./some_binary_name synopsis
    Try -h or --help for more information.
" in
  forallb (fun a => passes a [VInt 0] [inform (with_syn ["./some_binary_name synopsis"] nothing); opt 0 int (required (sh "i")); prints page] [])
    [[]; ["--version-check"; "0"]] = true.
Proof. vm_compute. reflexivity. Qed.

Example quote_strings :
  passes ["-h"] [VStr ""; VStr "Some string"; VList [VStr "Some"; VStr "other"; VStr "string"]]
    [opt 0 (Scalar TString) (ids "a" "string1"); opt 1 (Scalar TString) (ids "b" "string2"); opt 1 (Scalar TString) (defaulted "Quoted" (ids "c" "string3"));
     opt 2 (ListOf TString) (ids "d" "string4"); opt 2 (ListOf TString) (defaulted "None" (ids "e" "string5")); pos 2 (ListOf TString);
     prints (title +s+
"
POSITIONAL ARGUMENTS
    ARGUMENT-1 (List of std::string)
          Default: [""Some"", ""other"", ""string""]

OPTIONS
    -a, --string1 (std::string)
          Default: """"
    -b, --string2 (std::string)
          Default: ""Some string""
    -c, --string3 (std::string)
          Default: ""Quoted""
    -d, --string4 (List of std::string)
          Default: [""Some"", ""other"", ""string""]
    -e, --string5 (List of std::string)
          Default: None

"
 +s+ basic_options_str +s+ nl +s+ version_str)] [] = true.
Proof. vm_compute. reflexivity. Qed.

Example quote_paths :
  passes ["-h"] [VPath ""; VPath "/some/path"; VList [VPath "/some"; VPath "/other"; VPath "/path"]]
    [opt 0 (Scalar TPath) (ids "a" "path1"); opt 1 (Scalar TPath) (ids "b" "path2"); opt 1 (Scalar TPath) (defaulted "/usr/bin/" (ids "c" "path3"));
     opt 2 (ListOf TPath) (ids "d" "path4"); opt 2 (ListOf TPath) (defaulted "None" (ids "e" "path5")); pos 2 (ListOf TPath);
     prints (title +s+
"
POSITIONAL ARGUMENTS
    ARGUMENT-1 (List of std::filesystem::path)
          Default: [""/some"", ""/other"", ""/path""]

OPTIONS
    -a, --path1 (std::filesystem::path)
          Default: """"
    -b, --path2 (std::filesystem::path)
          Default: ""/some/path""
    -c, --path3 (std::filesystem::path)
          Default: ""/usr/bin/""
    -d, --path4 (List of std::filesystem::path)
          Default: [""/some"", ""/other"", ""/path""]
    -e, --path5 (List of std::filesystem::path)
          Default: None

"
 +s+ basic_options_str +s+ nl +s+ version_str)] [] = true.
Proof. vm_compute. reflexivity. Qed.

Definition plain : string := title +s+ nl +s+ "OPTIONS" +s+ nl +s+ nl +s+ basic_options_str +s+ nl +s+ version_str.
Example no_information : passes ["-h"] [] [prints plain] [] && passes ["-hh"] [] [prints plain] [] = true.
Proof. vm_compute. reflexivity. Qed.

Example with_short_copyright_test :
  passes ["-h"] [] [inform (with_cr "short" nothing); prints (plain +s+ nl +s+
"LEGAL
    test_parser Copyright: short
    SeqAn Copyright: 2006-2024 Knut Reinert, FU-Berlin; released under the
    3-clause BSDL.
")] [] = true.
Proof. vm_compute. reflexivity. Qed.

Example with_long_copyright_test :
  passes ["-h"] [] [inform (with_long_cr "long" nothing); prints (plain +s+ nl +s+
"LEGAL
    SeqAn Copyright: 2006-2024 Knut Reinert, FU-Berlin; released under the
    3-clause BSDL.
    For full copyright and/or warranty information see --copyright.
")] [] = true.
Proof. vm_compute. reflexivity. Qed.

Example with_citation_test :
  passes ["-h"] [] [inform (with_cite "citation" nothing); prints (plain +s+ nl +s+
"LEGAL
    SeqAn Copyright: 2006-2024 Knut Reinert, FU-Berlin; released under the
    3-clause BSDL.
    In your academic works please cite: citation
")] [] = true.
Proof. vm_compute. reflexivity. Qed.

Example with_author_test :
  passes ["-h"] [] [inform (with_author "author" nothing); prints (plain +s+ nl +s+
"LEGAL
    Author: author
    SeqAn Copyright: 2006-2024 Knut Reinert, FU-Berlin; released under the
    3-clause BSDL.
")] [] = true.
Proof. vm_compute. reflexivity. Qed.

Example with_email_test :
  passes ["-h"] [] [inform (with_email "email" nothing); prints (plain +s+ nl +s+
"LEGAL
    Contact: email
    SeqAn Copyright: 2006-2024 Knut Reinert, FU-Berlin; released under the
    3-clause BSDL.
")] [] = true.
Proof. vm_compute. reflexivity. Qed.

Example empty_version_call : passes ["--version"] [] [prints (title +s+ nl +s+ version_str)] [] = true.
Proof. vm_compute. reflexivity. Qed.

Example version_call :
  passes ["--version"] [VInt 5; VBool false; VList []]
    [inform (with_url "https://seqan.de" nothing); opt 0 int (sh "i"); flag 1 (sh "f"); pos 2 (ListOf TString);
     prints (title +s+ nl +s+ version_str +s+ nl +s+
"URL
    https://seqan.de
")] [] = true.
Proof. vm_compute. reflexivity. Qed.

Example do_not_print_hidden_options : passes ["-h"] [VInt 5; VBool false] [opt 0 int (hidden (sh "i")); flag 1 (hidden (sh "f")); prints plain] [] = true.
Proof. vm_compute. reflexivity. Qed.

Definition advanced_set_up : list (call * expectation) :=
  [(CAddSection "default section" false, Fine); (CAddSubsection "default subsection" false, Fine);
   opt 0 int (required (described "this is a int option." (ids "i" "int"))); flag 2 (required (described "this is a flag." (ids "g" "goo")));
   (CAddListItem "-s, --some" "list item." false, Fine); (CAddLine "some line." true false, Fine);
   (CAddSection "advanced section" true, Fine); (CAddSubsection "advanced subsection" true, Fine);
   opt 1 (Scalar uint8) (advanced (described "this is a int option." (ids "j" "jnt")));
   flag 2 (advanced (described "this is a flag." (ids "f" "flag")));
   (CAddListItem "-s, --some" "list item." true, Fine); (CAddLine "some line." true true, Fine)].
Definition default_part : string :=
"
OPTIONS

DEFAULT SECTION

  default subsection
    -i, --int (signed 32 bit integer)
          this is a int option.
    -g, --goo
          this is a flag.
    -s, --some
          list item.
    some line.

".
Definition advanced_part : string :=
"ADVANCED SECTION

  advanced subsection
    -j, --jnt (unsigned 8 bit integer)
          this is a int option. Default: 2
    -f, --flag
          this is a flag.
    -s, --some
          list item.
    some line.

".
Example advanced_options :
  passes ["-h"] [VInt 5; VInt 2; VBool false] (advanced_set_up ++ [prints (title +s+ default_part +s+ basic_options_str +s+ nl +s+ version_str)]) [] &&
  passes ["-hh"] [VInt 5; VInt 2; VBool false]
    (advanced_set_up ++ [prints (title +s+ default_part +s+ advanced_part +s+ basic_options_str +s+ nl +s+ version_str)]) [] = true.
Proof. vm_compute. reflexivity. Qed.

(** the enumeration of the tests, in the order in which std::unordered_map happens to list it *)
Definition foo : ety := TEnum "foo" [("three", 2%Z); ("two", 1%Z); ("one", 0%Z)].
Example full_information :
  passes ["-h"] [VInt 5; VEnum 0; VInt 0; VBool false; VInt 1; VList []]
    [inform (with_syn ["./some_binary_name synopsis"; "./some_binary_name synopsis2"] (with_desc ["description"; "description2"]
               (with_short "so short" (with_ex ["example"; "example2"] nothing))));
     opt 0 int (defaulted "A number" (described "this is a int option." (ids "i" "int")));
     opt 1 (Scalar foo) (checked_by (ValidValues foo [VEnum 2; VEnum 1; VEnum 0]) (described "this is an enum option." (ids "e" "enum")));
     opt 2 (Scalar (TInt true 8)) (required (described "this is another int option." (ids "r" "required-int")));
     (CAddSection "Flags" false, Fine); (CAddSubsection "SubFlags" false, Fine); (CAddLine "here come all the flags" false false, Fine);
     flag 3 (described "this is a flag." (ids "f" "flag")); posd 4 (Scalar (TInt true 8)) "this is not a list.";
     posd 5 (ListOf TString) "this is a positional option.";
     prints (
"test_parser - so short
======================

SYNOPSIS
    ./some_binary_name synopsis
    ./some_binary_name synopsis2

DESCRIPTION
    description

    description2

POSITIONAL ARGUMENTS
    ARGUMENT-1 (signed 8 bit integer)
          this is not a list.
    ARGUMENT-2 (List of std::string)
          this is a positional option. Default: []

OPTIONS
    -i, --int (signed 32 bit integer)
          this is a int option. Default: A number
    -e, --enum (foo)
          this is an enum option. Default: one. Value must be one of [three,
          two, one].
    -r, --required-int (signed 8 bit integer)
          this is another int option.

FLAGS

  SubFlags
    here come all the flags
    -f, --flag
          this is a flag.

" +s+ basic_options_str +s+ "
EXAMPLES
    example

    example2

" +s+ version_str)] [] = true.
Proof. vm_compute. reflexivity. Qed.

Definition rule1 : string := srep 80 "=" +s+ nl.
Definition rule2 : string := srep 80 "-" +s+ nl.
Definition licence_part : string :=
  rule1 +s+ "This program contains SeqAn code licensed under the following terms:" +s+ nl +s+ rule2 +s+ "licence" +s+ nl.
Example copyright :
  passes ["--copyright"] [] [prints (rule1 +s+ "Copyright information for test_parser:" +s+ nl +s+ rule2 +s+
"test_parser copyright information not available.
" +s+ licence_part)] [] &&
  passes ["--copyright"] [] [inform (with_cr ("short copyright line 1" +s+ nl +s+ "short copyright line 2") nothing);
     prints (rule1 +s+ "Copyright information for test_parser:" +s+ nl +s+ rule2 +s+
"test_parser full copyright information not available. Displaying short copyright information instead:
short copyright line 1
short copyright line 2
" +s+ licence_part)] [] &&
  passes ["--copyright"] [] [inform (with_long_cr ("long copyright line 1" +s+ nl +s+ "long copyright line 2") nothing);
     prints (rule1 +s+ "Copyright information for test_parser:" +s+ nl +s+ rule2 +s+
"long copyright line 1
long copyright line 2
" +s+ licence_part)] [] = true.
Proof. vm_compute. reflexivity. Qed.

Example subcommand_parser :
  passes_sub ["-h"] ["sub1"; "sub2"] [VBool false; VInt 0]
    [inform (with_desc ["description"] nothing); flag 0 (described "A flag." (ids "f" "foo")); optd 1 int "o" "option" "An option.";
     prints (title +s+
"
DESCRIPTION
    description

SUBCOMMANDS
    This program must be invoked with one of the following subcommands:
    - sub1
    - sub2
    See the respective help page for further details (e.g. by calling
    test_parser sub1 -h).

    The following options belong to the top-level parser and need to be
    specified before the subcommand key word. Every argument after the
    subcommand key word is passed on to the corresponding sub-parser.

OPTIONS
    -f, --foo
          A flag.
    -o, --option (signed 32 bit integer)
          An option. Default: 0

" +s+ basic_options_str +s+ nl +s+ version_str)] [] = true.
Proof. vm_compute. reflexivity. Qed.

(** ** subcommand_test.cpp *)

Definition option_part : string :=
"
OPTIONS
    -o (std::string)
          Default: """"

".
Definition top_full_help : string := title +s+
"
SUBCOMMANDS
    This program must be invoked with one of the following subcommands:
    - build
    See the respective help page for further details (e.g. by calling
    test_parser build -h).

    The following options belong to the top-level parser and need to be
    specified before the subcommand key word. Every argument after the
    subcommand key word is passed on to the corresponding sub-parser.
" +s+ option_part +s+ basic_options_str +s+ nl +s+ version_str.
Definition sub_title : string :=
"test_parser-build
=================
".
Definition sub_short_help : string := sub_title +s+ "    Try -h or --help for more information." +s+ nl.
Definition sub_full_help : string := sub_title +s+ option_part +s+ basic_options_str +s+ nl +s+ version_of "-build".
Definition o_top : list (call * expectation) := [(CAssign 0 (VStr ""), Fine); opt 0 str (sh "o")].
Definition o_sub : list (call * expectation) := [(CAssign 0 (VStr ""), Fine); (CSub (CAddOption 0 str (sh "o")), Fine)].
Definition sub_parses (e : expectation) : list (call * expectation) := [(CSub CParse, e)].
Definition build (args : list string) (t : list (call * expectation)) (v : string) : bool := passes_sub args ["build"] [VStr ""] t [VStr v].

Example subcommand_options :
  build ["build"; "-o"; "foo"] ([parses Fine] ++ o_sub ++ sub_parses Fine) "foo" &&
  build ["-o"; "build"; "build"; "-o"; "build"] (o_top ++ [parses Fine]) "build" &&
  build ["-o"; "build"; "build"; "-o"; "build"] (o_top ++ [parses Fine] ++ o_sub ++ sub_parses Fine) "build" &&
  build ["-o"; "-o"; "build"; "-o"; "-o"] (o_top ++ [parses Fine]) "-o" &&
  build ["-o"; "-o"; "build"; "-o"; "-o"] (o_top ++ [parses Fine] ++ o_sub ++ sub_parses Fine) "-o" &&
  build ["-o"; "build"; "buidl"; "-o"; "build"] (o_top ++ [parses (ThrowsMsg KUserInput
    "You specified an unknown subcommand! Available subcommands are: [build]. Use -h/--help for more information.")]) "" &&
  build ["-o=build"; "build"; "-o=build"] (o_top ++ [parses Fine]) "build" &&
  build ["-o=build"; "build"; "-o=build"] (o_top ++ [parses Fine] ++ o_sub ++ sub_parses Fine) "build" &&
  build ["-o"; "build"] (o_top ++ [parses Fine]) "build" && build ["-o"; "--help"] (o_top ++ [parses Fine]) "--help" = true.
Proof. vm_compute. reflexivity. Qed.

Example subcommand_is_flag :
  passes_sub ["-build"; "build"; "-o"; "build"] ["build"] [VStr ""; VBool false; VBool false; VBool false; VBool false; VBool false]
    ([flag 1 (sh "b"); flag 2 (sh "u"); flag 3 (sh "i"); flag 4 (sh "l"); flag 5 (sh "d"); parses Fine] ++ o_sub ++ sub_parses Fine)
    [VStr "build"; VBool true; VBool true; VBool true; VBool true; VBool true] = true.
Proof. vm_compute. reflexivity. Qed.

Example subcommand_help :
  build ["-o"; "build"; "--help"] (o_top ++ [parses (Prints top_full_help)]) "" &&
  build ["-o"; "build"; "build"] (o_top ++ [parses Fine] ++ o_sub ++ sub_parses (Prints sub_short_help)) "" &&
  build ["-o"; "build"; "build"; "--help"] (o_top ++ [parses Fine] ++ o_sub ++ sub_parses (Prints sub_full_help)) "" &&
  build ["build"] (o_top ++ [parses Fine] ++ o_sub ++ sub_parses (Prints sub_short_help)) "" &&
  build ["build"; "--help"] (o_top ++ [parses Fine] ++ o_sub ++ sub_parses (Prints sub_full_help)) "" &&
  build ["-o"; "build"; "build"; "-o"; "build"; "--help"] (o_top ++ [parses Fine] ++ o_sub ++ sub_parses (Prints sub_full_help)) "" = true.
Proof. vm_compute. reflexivity. Qed.

Example recursive_subcommands :
  passes_sub ["index"; "show"; "--help"] ["index"] [VStr ""]
    [parses Fine; (CSub (CAddSubcommands ["show"]), Fine); (CSub CParse, Fine); (CSub (CSub (CAddOption 0 str (sh "o"))), Fine);
     (CSub (CSub CParse), Prints (
"test_parser-index-show
======================
" +s+ option_part +s+ basic_options_str +s+ nl +s+ version_of "-index-show"))] [] = true.
Proof. vm_compute. reflexivity. Qed.

(** ** format_html_test.cpp *)

Definition html_common : string :=
"<h3>Common options</h3>
<dl>
<dt><strong>-h</strong>, <strong>--help</strong></dt>
<dd>Prints the help page.</dd>
<dt><strong>-hh</strong>, <strong>--advanced-help</strong></dt>
<dd>Prints the help page including advanced options.</dd>
<dt><strong>--version</strong></dt>
<dd>Prints the version information.</dd>
<dt><strong>--copyright</strong></dt>
<dd>Prints the copyright/license information.</dd>
<dt><strong>--export-help</strong> (std::string)</dt>
<dd>Export the help page information. Value must be one of [html, man].</dd>
</dl>
".
Definition html_version : string :=
"<h2>Version</h2>
<p>
<strong>Last update: </strong>
<br>
<strong>test_parser version: </strong>
<br>
<strong>Sharg version: </strong>1.1.2-rc.1
<br>
</p>
".
Example html_empty_information :
  let page :=
"<!DOCTYPE html PUBLIC ""-//W3C//DTD HTML 4.01//EN"" http://www.w3.org/TR/html4/strict.dtd"">
<html lang=""en"">
<head>
<meta http-equiv=""content-type"" content=""text/html; charset=utf-8"">
<title>test_parser &mdash; </title>
</head>
<body>
<h1>test_parser</h1>
<div></div>
<h2>Options</h2>
"
 +s+ html_common +s+ html_version +s+ "</body></html>" in
  passes ["--version-check"; "false"; "--export-help"; "html"] [] [prints page] [] &&
  passes ["--version-check"; "false"; "--export-help=html"] [] [prints page] [] = true.
Proof. vm_compute. reflexivity. Qed.

Example html_full_information :
  passes ["--version-check"; "false"; "--export-help"; "html"] [VInt 5; VBool false; VInt 1; VList []]
    [inform (with_syn ["./some_binary_name synopsis"; "./some_binary_name synopsis2"] (with_desc ["description"; "description2"]
       (with_short "short description" (with_url "https://seqan.de" (with_cr "short copyright" (with_long_cr "long_copyright"
       (with_cite "citation" (with_author "author" (with_email "email" (with_ex ["example"; "example2"] nothing))))))))));
     opt 0 int (defaulted "A number" (described "this is a int option." (ids "i" "int")));
     opt 0 int (required (described "this is a required int option." (ids "j" "jint")));
     flag 1 (described "this is a flag." (ids "f" "flag")); flag 1 (described "this is a flag." (ids "k" "kflag"));
     posd 2 (Scalar (TInt true 8)) "this is a positional option."; posd 3 (ListOf TString) "this is a positional option.";
     prints (
"<!DOCTYPE html PUBLIC ""-//W3C//DTD HTML 4.01//EN"" http://www.w3.org/TR/html4/strict.dtd"">
<html lang=""en"">
<head>
<meta http-equiv=""content-type"" content=""text/html; charset=utf-8"">
<title>test_parser &mdash; short description</title>
</head>
<body>
<h1>test_parser</h1>
<div>short description</div>
<h2>Synopsis</h2>
<p>
<strong>./some_binary_name</strong> synopsis
<br>
<strong>./some_binary_name</strong> synopsis2
<br>
</p>
<h2>Description</h2>
<p>
description
</p>
<p>
description2
</p>
<h2>Positional Arguments</h2>
<dl>
<dt><strong>ARGUMENT-1</strong> (<em>signed 8 bit integer</em>)</dt>
<dd>this is a positional option.</dd>
<dt><strong>ARGUMENT-2</strong> (<em>List</em> of <em>std::string</em>)</dt>
<dd>this is a positional option. Default: []</dd>
</dl>
<h2>Options</h2>
<dl>
<dt><strong>-i</strong>, <strong>--int</strong> (<em>signed 32 bit integer</em>)</dt>
<dd>this is a int option. Default: A number</dd>
<dt><strong>-j</strong>, <strong>--jint</strong> (<em>signed 32 bit integer</em>)</dt>
<dd>this is a required int option.</dd>
<dt><strong>-f</strong>, <strong>--flag</strong></dt>
<dd>this is a flag.</dd>
<dt><strong>-k</strong>, <strong>--kflag</strong></dt>
<dd>this is a flag.</dd>
</dl>
" +s+ html_common +s+
"<h2>Examples</h2>
<p>
example
</p>
<p>
example2
</p>
" +s+ html_version +s+
"<h2>Url</h2>
<p>
https://seqan.de
<br>
</p>
<h2>Legal</h2>
<p>
<strong>test_parser Copyright: </strong>short copyright
<br>
<strong>Author: </strong>author
<br>
<strong>Contact: </strong>email
<br>
<strong>SeqAn Copyright: </strong>2006-2024 Knut Reinert, FU-Berlin; released under the 3-clause BSDL.
<br>
<strong>In your academic works please cite: </strong>citation
<br>
For full copyright and/or warranty information see <strong>--copyright</strong>.
<br>
</p>
</body></html>")] [] = true.
Proof. vm_compute. reflexivity. Qed.

Example html_parse_error :
  passes ["./help_add_test"; "--export-help"] [] [parses Error] [] && passes ["./help_add_test"; "--export-help=atml"] [] [parses (Throws KValidation)] [] &&
  passes ["./help_add_test"; "--export-help"; "atml"] [] [parses (Throws KValidation)] [] &&
  passes ["./help_add_test"; "--export-help#html"] [] [parses (Throws KUnknownOption)] [] = true.
Proof. vm_compute. reflexivity. Qed.

(** ** format_man_test.cpp *)

Definition man_head : string :=
".TH TEST_PARSER 1 ""December 01, 1994"" ""test_parser 01.01.01"" ""default_man_page_title""
.SH NAME
test_parser \- A short description here.
".
Definition man_common : string :=
".SS Common options
.TP
\fB-h\fP, \fB--help\fP
Prints the help page.
.TP
\fB-hh\fP, \fB--advanced-help\fP
Prints the help page including advanced options.
.TP
\fB--version\fP
Prints the version information.
.TP
\fB--copyright\fP
Prints the copyright/license information.
.TP
\fB--export-help\fP (std::string)
Export the help page information. Value must be one of [html, man].
".
Definition man_version : string :=
".SH VERSION
\fBLast update: \fRDecember 01, 1994
.br
\fBtest_parser version: \fR01.01.01
.br
\fBSharg version: \fR1.1.2-rc.1
".
Definition manned : about :=
  with_date "December 01, 1994" (with_version "01.01.01" (with_man "default_man_page_title" (with_short "A short description here." nothing))).
Definition man_args : list string := ["--version-check"; "false"; "--export-help"; "man"].
Example man_empty_information :
  passes man_args [] [inform manned; prints (man_head +s+ ".SH OPTIONS" +s+ nl +s+ man_common +s+ man_version)] [] = true.
Proof. vm_compute. reflexivity. Qed.

Definition man_full (u : about -> about) (legal : string) : bool :=
  passes man_args [VInt 5; VBool false; VInt 1; VList []]
    [inform (u (with_syn ["./format_man_test synopsis"; "./format_man_test synopsis2"] (with_desc ["description"; "description2"]
       (with_ex ["example"; "example2"] manned))));
     opt 0 int (defaulted "A number" (described "this is a int option." (ids "i" "int")));
     opt 0 int (required (described "this is a required int option." (ids "j" "jint")));
     (CAddSection "Flags" false, Fine); (CAddSubsection "SubFlags" false, Fine); (CAddLine "here come all the flags" false false, Fine);
     flag 1 (described "this is a flag." (ids "f" "flag")); flag 1 (described "this is a flag." (ids "k" "kflag"));
     posd 2 (Scalar (TInt true 8)) "this is a positional option."; posd 3 (ListOf TString) "this is a positional option.";
     prints (man_head +s+
".SH SYNOPSIS
\fB./format_man_test\fP synopsis
.br
\fB./format_man_test\fP synopsis2
.SH DESCRIPTION
description
.sp
description2
.SH POSITIONAL ARGUMENTS
.TP
\fBARGUMENT-1\fP (\fIsigned 8 bit integer\fP)
this is a positional option.
.TP
\fBARGUMENT-2\fP (\fIList\fP of \fIstd::string\fP)
this is a positional option. Default: []
.SH OPTIONS
.TP
\fB-i\fP, \fB--int\fP (\fIsigned 32 bit integer\fP)
this is a int option. Default: A number
.TP
\fB-j\fP, \fB--jint\fP (\fIsigned 32 bit integer\fP)
this is a required int option.
.SH FLAGS
.SS SubFlags
here come all the flags
.TP
\fB-f\fP, \fB--flag\fP
this is a flag.
.TP
\fB-k\fP, \fB--kflag\fP
this is a flag.
" +s+ man_common +s+
".SH EXAMPLES
example
.sp
example2
" +s+ man_version +s+ legal)] [].
Example man_full_information : man_full (fun a => a) "" &&
  man_full (with_cr "short copyright") ".SH LEGAL
\fBtest_parser Copyright: \fRshort copyright
.br
\fBSeqAn Copyright: \fR2006-2024 Knut Reinert, FU-Berlin; released under the 3-clause BSDL.
" &&
  man_full (fun a => with_cite "citation" (with_cr "short copyright" a)) ".SH LEGAL
\fBtest_parser Copyright: \fRshort copyright
.br
\fBSeqAn Copyright: \fR2006-2024 Knut Reinert, FU-Berlin; released under the 3-clause BSDL.
.br
\fBIn your academic works please cite: \fRcitation
" &&
  man_full (fun a => with_long_cr "looong copyright" (with_cite "citation" (with_cr "short copyright" a))) ".SH LEGAL
\fBtest_parser Copyright: \fRshort copyright
.br
\fBSeqAn Copyright: \fR2006-2024 Knut Reinert, FU-Berlin; released under the 3-clause BSDL.
.br
\fBIn your academic works please cite: \fRcitation
.br
For full copyright and/or warranty information see \fB--copyright\fR.
" &&
  man_full (with_author "author") ".SH LEGAL
\fBAuthor: \fRauthor
.br
\fBSeqAn Copyright: \fR2006-2024 Knut Reinert, FU-Berlin; released under the 3-clause BSDL.
" &&
  man_full (with_email "email") ".SH LEGAL
\fBContact: \fRemail
.br
\fBSeqAn Copyright: \fR2006-2024 Knut Reinert, FU-Berlin; released under the 3-clause BSDL.
" = true.
Proof. vm_compute. reflexivity. Qed.
