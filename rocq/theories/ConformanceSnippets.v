(** Tests, not proofs: the programs of test/snippet and doc with the output the repository expects of them (files *.out
    and *.err), evaluated in the model.  The snippets run without arguments unless they bring their own. *)
From Verif Require Import Base Fs Values Validators ValidatorsHelp FormatParse Parser HelpExport VersionCheck Samples HelpSamples
  Conformance ConformanceHelp.

Definition short_page (title : string) : string :=
  title +s+ nl +s+ srep (String.length title) "=" +s+ nl +s+ "    Try -h or --help for more information." +s+ nl.

(** the parser is constructed with update notifications *)
Definition runs (name : string) (args subs : list string) (vs : list val) (t : list (call * expectation)) (vs' : list val) : bool :=
  passes_from {| w_parser := construct 1 name (("./" +s+ name) :: args) true subs;
                 w_vars := fun x => nth x vs (VOther "unbound"); w_fs := disk |} t vs'.

(** add_subcommands.cpp, subcommand_parse.cpp *)
Example add_subcommands_snippet :
  runs "git" [] ["pull"; "push"] [] [(CAddSubcommands ["remote"], Fine); prints (short_page "git")] [] &&
  runs "mygit" [] ["pull"; "push"] [] [prints (short_page "mygit")] [] = true.
Proof. vm_compute. reflexivity. Qed.

(** what the snippet add_subcommands.cpp is about *)
Example add_subcommands_use :
  runs "git" ["remote"; "set-url"; "origin"] ["pull"; "push"] [VStr ""]
    [(CAddSubcommands ["remote"], Fine); parses Fine; (CSub (CAddSubcommands ["set-url"; "show"]), Fine); (CSub CParse, Fine);
     (CSub (CSub (CAddPositional 0 str none)), Fine); (CSub (CSub CParse), Fine)] [VStr "origin"] = true.
Proof. vm_compute. reflexivity. Qed.

(** custom_enumeration.cpp *)
Example custom_enumeration_snippet :
  let bar := TEnum "foo::bar" [("three", 2); ("two", 1); ("one", 0)]%Z in
  let vali := ValidValues bar [VEnum 2; VEnum 1; VEnum 0] in
  runs "my_program" [] [] [VEnum 0] [opt 0 (Scalar bar) (checked_by vali (described "Give me a value for foo." (ids "f" "foo")));
                                     prints (short_page "my_program")] [] &&
  runs "my_program" ["-f"; "two"] [] [VEnum 0] [opt 0 (Scalar bar) (checked_by vali (described "Give me a value for foo." (ids "f" "foo")));
                                     parses Fine] [VEnum 1] = true.
Proof. vm_compute. reflexivity. Qed.

(** is_option_set.cpp: without arguments, and with the option set: the second question of the snippet is about an
    identifier that was never declared *)
Example is_option_set_snippet :
  let o := optd 0 int "a" "aint" "Specify an integer." in
  runs "awesome-app" [] [] [VInt 3] [o; prints (short_page "awesome-app")] [] &&
  runs "awesome-app" ["-a"; "4"] [] [VInt 3] [o; parses Fine; (CIsSet (IdShort "a"), Answers true);
                                              (CIsSet (IdLong "awesome-parameter"), Throws KDesign)] [VInt 4] = true.
Proof. vm_compute. reflexivity. Qed.

(** parser_3.cpp, basic_arg_parse.cpp *)
Example parser_3_snippet :
  let info := {| m_app_name := "Penguin_Parade"; m_version := "2.0.0"; m_short_description := "Organize your penguin parade"; m_author := "";
                 m_email := ""; m_date := "12.01.2017"; m_url := ""; m_short_copyright := ""; m_long_copyright := ""; m_citation := "";
                 m_man_page_title := ""; m_man_page_section := 1; m_description := ["First Paragraph."; "Second Paragraph."]; m_synopsis := [];
                 m_examples := ["./penguin_parade Skipper Kowalski Rico Private -d 10 -m 02 -y 2017"] |} in
  let t := [(CInfo info, Fine); optd 0 int "d" "day" "Your preferred day."; optd 1 int "m" "month" "Your preferred month.";
            optd 2 int "y" "year" "Your preferred year."; posd 3 (ListOf TString) "Specify the names of the penguins."] in
  runs "Penguin_Parade" [] [] [VInt 1; VInt 1; VInt 2050; VList []]
    (t ++ [prints (short_page "Penguin_Parade - Organize your penguin parade")]) [] &&
  runs "Penguin_Parade" ["Skipper"; "Kowalski"; "Rico"; "Private"; "-d"; "10"; "-m"; "02"; "-y"; "2017"] [] [VInt 1; VInt 1; VInt 2050; VList []]
    (t ++ [parses Fine]) [VInt 10; VInt 2; VInt 2017; VList (map VStr ["Skipper"; "Kowalski"; "Rico"; "Private"])] = true.
Proof. vm_compute. reflexivity. Qed.

(** validators_1.cpp, validators_2.cpp *)
Example validators_snippets :
  let o v := opt 0 int (checked_by v (described "Give me a number." (ids "i" "integer"))) in
  let r := ValidRange true 32 2 10 in let l := ValidValues int32 (map VInt [2; 4; 6; 8; 10]%Z) in
  runs "Test" [] [] [VInt 0] [o r; prints (short_page "Test")] [] &&
  runs "Test" ["-i"; "15"] [] [VInt 0] [o r; parses (Throws KValidation)] [] && runs "Test" ["-i"; "10"] [] [VInt 0] [o r; parses Fine] [VInt 10] &&
  runs "Test" ["-i"; "3"] [] [VInt 0] [o l; parses (Throws KValidation)] [] && runs "Test" ["-i"; "4"] [] [VInt 0] [o l; parses Fine] [VInt 4] = true.
Proof. vm_compute. reflexivity. Qed.

(** validators_input_file_ext_from_file.cpp, validators_output_file_ext_from_file.cpp *)
Example help_page_messages :
  map help_of [ValidInFile []; ValidInFile ["exe"; "fasta"]; ValidOutFile CreateNew []; ValidOutFile CreateNew ["exe"; "fasta"]] =
  ["The input file must exist and read permissions must be granted.";
   "The input file must exist and read permissions must be granted. Valid file extensions are: [exe, fasta].";
   "The output file must not exist already and write permissions must be granted.";
   "The output file must not exist already and write permissions must be granted. Valid file extensions are: [exe, fasta]."].
Proof. reflexivity. Qed.

(** readme_sneak_peek.cpp, in a build with the TDL library *)
Example readme_sneak_peek :
  let here' := {| pe_ndebug := false; pe_tty := false; pe_width := 80; pe_license := ""; pe_tdl := Some (fun _ _ => ""); pe_path_tags := fun _ => [] |} in
  let w := {| w_parser := construct 1 "Eat-Me-App" ["./Eat-Me-App"; "-h"] true []; w_vars := fun _ => VInt 0; w_fs := disk |} in
  forallb (fun nd => all_meet [Fine; Fine; Prints
"Eat-Me-App
==========

OPTIONS

  Eating Numbers
    -i, --int (signed 32 bit integer)
          Desc. Default: 0

  Common options
    -h, --help
          Prints the help page.
    -hh, --advanced-help
          Prints the help page including advanced options.
    --version
          Prints the version information.
    --copyright
          Prints the copyright/license information.
    --export-help (std::string)
          Export the help page information. Value must be one of [html, man,
          ctd, cwl].
    --version-check (bool)
          Whether to check for the newest app version. Default: true

VERSION
    Last update:
    Eat-Me-App version:
    Sharg version: 1.1.2-rc.1
"]
      (snd (run nd (backend_of here' machine)
              [CAddSubsection "Eating Numbers" false; CAddOption 0 int (described "Desc." (ids "i" "int")); CParse] w))) [true; false] = true.
Proof. vm_compute. reflexivity. Qed.

(** ** doc/tutorial/parser/index.md: the commands to try, with the options of solution4.cpp and solution5.cpp *)

Definition game (args : list string) (need : bool) (seasons : list Z) (e : expectation) : bool :=
  let s := described "Choose the seasons to aggregate." (ids "s" "season") in
  runs "Game-of-Parsing" args [] [VPath ""; VList []; VStr "mean"; VBool false]
    [(CAddPositional 0 (Scalar TPath) none, Fine); opt 1 (ListOf (TInt false 8)) (if need then required s else s);
     opt 2 str (ids "a" "aggregate-by"); flag 3 (ids "H" "header-is-set"); parses e]
    (match e with Fine => [VPath "data.tsv"; VList (map VInt seasons)] | _ => [] end).

Example tutorial :
  game ["-H"; "-s"; "2"; "-s"; "4"; "data.tsv"] false [2; 4]%Z Fine &&
  game ["-H"; "--aggregate-by"; "median"; "data.tsv"] true [] (ThrowsMsg KRequiredMissing "Option -s/--season is required but not set.") &&
  (* the other command of the tutorial mixes the names of the option: seasons 1 and 7 are lost.  The median of the
     remaining season, 4.97, happens to be the median of all three. *)
  game ["-H"; "-s"; "1"; "--season"; "3"; "-s"; "7"; "--aggregate-by"; "median"; "data.tsv"] false [3]%Z Fine = true.
Proof. vm_compute. reflexivity. Qed.
