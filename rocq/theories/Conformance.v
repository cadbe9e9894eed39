(** Tests, not proofs: expectations of the repository's own unit tests, evaluated in the model.  They guard
    against misreadings of the code.  Transcribed from test/unit/parser/format_parse_test.cpp,
    parser_design_error_test.cpp and enumeration_names_test.cpp; tests of argv
    conversions are left out.  See also ConformanceFloat.v, ConformanceHelp.v, ConformanceSnippets.v,
    ConformanceValidators.v, ConformanceVersion.v. *)
From Verif Require Import Base Fs Values Validators FormatParse Parser HelpExport VersionCheck Age Samples HelpSamples.

(** ** The test fixture, test/include/sharg/test/test_fixture.hpp *)

Definition here : page_env :=
  {| pe_ndebug := false; pe_tty := false; pe_width := 80; pe_license := "licence"; pe_tdl := None; pe_path_tags := fun _ => [] |}.
Definition machine : venv :=
  {| ve_ndebug := false; ve_os := Linux; ve_64 := true; ve_home := Some "/home/u"; ve_tmp := "/tmp"; ve_opt_out := false; ve_now := 1000000;
     ve_tty := false; ve_answer := ""; ve_system := fun _ => false; ve_recent := library_recent |}.
Definition disk : fs := fun k =>
  if existsb (list_eqb k) [[]; ["tmp"]; ["home"]; ["home"; "u"]; ["home"; "u"; ".config"]; ["home"; "u"; ".config"; "seqan"]]
  then Some (NDir rw) else None.

Definition named (name : string) (argv subs : list string) (f : fs) (vs : list val) : world :=
  {| w_parser := construct 1 name argv false subs; w_vars := fun x => nth x vs (VOther "unbound"); w_fs := f |}.
Definition fixture (args subs : list string) (f : fs) (vs : list val) : world :=
  named "test_parser" ("./test_parser" :: args) subs f vs.

(** what a test expects of a call: EXPECT_NO_THROW; EXPECT_THROW of parser_error; of a derived class; with a message;
    EXPECT_TRUE / EXPECT_FALSE of the result; output and exit *)
Inductive expectation := Fine | Error | Throws (k : exn_kind) | ThrowsMsg (k : exn_kind) (m : string) | Answers (b : bool) | Prints (s : string) | Exits.
Definition kind_eqb (a b : exn_kind) : bool :=
  match a, b with
  | KUnknownOption, KUnknownOption | KTooMany, KTooMany | KTooFew, KTooFew | KRequiredMissing, KRequiredMissing
  | KMultiple, KMultiple | KUserInput, KUserInput | KValidation, KValidation | KDesign, KDesign
  | KStdOutOfRange, KStdOutOfRange | KStdOther, KStdOther => true
  | _, _ => false
  end.
Definition meets (e : expectation) (r : res bool) : bool :=
  match e, r with
  | Fine, Ret _ => true
  | Answers b, Ret a => Bool.eqb a b
  | Error, Throw x => is_parser_error (ekind x)
  | Throws k, Throw x => kind_eqb (ekind x) k
  | ThrowsMsg k m, Throw x => kind_eqb (ekind x) k && String.eqb (emsg x) m
  | Prints s, Exit o => String.eqb o s
  | Exits, Exit o => negb (is_empty o)
  | _, _ => false
  end.
Fixpoint all_meet (es : list expectation) (log : list (call * res bool)) : bool :=
  match es, log with
  | [], [] => true
  | e :: es', (_, r) :: log' => meets e r && all_meet es' log'
  | _, _ => false
  end.
Fixpoint val_same (a b : val) : bool :=
  match a, b with
  | VInt x, VInt y | VEnum x, VEnum y => Z.eqb x y
  | VBool x, VBool y => Bool.eqb x y
  | VStr x, VStr y | VPath x, VPath y | VOther x, VOther y => String.eqb x y
  | VFloat x, VFloat y => FloatNum.feqb x y
  | VList l, VList m => (fix go l m := match l, m with
                                       | [], [] => true
                                       | x :: l', y :: m' => val_same x y && go l' m'
                                       | _, _ => false
                                       end) l m
  | _, _ => false
  end.
Fixpoint vals_same (l : list val) (s : store) (x : nat) : bool :=
  match l with [] => true | v :: l' => val_same v (s x) && vals_same l' s (S x) end.

(** a test case: the calls with their expectations, then the values of the variables; in both kinds of builds *)
Definition passes_from (w : world) (t : list (call * expectation)) (vs : list val) : bool :=
  forallb (fun nd => let '(w', log) := run nd (backend_of here machine) (map fst t) w in
                     all_meet (map snd t) log && vals_same vs (w_vars w') 0) [true; false].
Definition passes (args : list string) (vs : list val) (t : list (call * expectation)) (vs' : list val) : bool :=
  passes_from (fixture args [] disk vs) t vs'.
Definition passes_sub (args subs : list string) (vs : list val) (t : list (call * expectation)) (vs' : list val) : bool :=
  passes_from (fixture args subs disk vs) t vs'.

(** configurations *)
Definition none : config :=
  {| c_short := nul; c_long := ""; c_desc := ""; c_default_message := ""; c_advanced := false; c_hidden := false;
     c_required := false; c_validator := default_validator; c_vhelp := "" |}.
Definition ids (s : chr) (l : string) : config :=
  {| c_short := s; c_long := l; c_desc := ""; c_default_message := ""; c_advanced := false; c_hidden := false;
     c_required := false; c_validator := default_validator; c_vhelp := "" |}.
Definition sh (s : chr) : config := ids s "".
Definition lo (l : string) : config := ids nul l.
Definition defaulted (m : string) (c : config) : config :=
  {| c_short := c_short c; c_long := c_long c; c_desc := c_desc c; c_default_message := m;
     c_advanced := c_advanced c; c_hidden := c_hidden c; c_required := c_required c; c_validator := c_validator c; c_vhelp := c_vhelp c |}.
Definition opt (x : addr) (t : vty) (c : config) : call * expectation := (CAddOption x t c, Fine).
Definition flag (x : addr) (c : config) : call * expectation := (CAddFlag x c, Fine).
Definition pos (x : addr) (t : vty) : call * expectation := (CAddPositional x t none, Fine).
Definition parses (e : expectation) : call * expectation := (CParse, e).
Definition str : vty := Scalar TString.
Definition int : vty := Scalar int32.
Definition boo : vty := Scalar TBool.

(** ** format_parse_test.cpp *)

Example add_option_short_id :
  forallb (fun a => passes (fst (fst a)) [VStr ""] [opt 0 str (sh (snd (fst a))); parses Fine] [VStr (snd a)])
    [(["-s"; "option_string1"], "s"%char, "option_string1"); (["-Soption_string2"], "S"%char, "option_string2");
     (["-s=option_string3"], "s"%char, "option_string3")] = true.
Proof. vm_compute. reflexivity. Qed.

Example add_option_long_id :
  passes ["--string-option"; "option_string1"] [VStr ""] [opt 0 str (lo "string-option"); parses Fine] [VStr "option_string1"] &&
  passes ["--string-optionoption_string2"] [VStr "option_string1"] [opt 0 str (lo "string-option"); parses Error] [VStr "option_string1"] &&
  passes ["--string-option=option_string3"] [VStr ""] [opt 0 str (lo "string-option"); parses Fine] [VStr "option_string3"] = true.
Proof. vm_compute. reflexivity. Qed.

Example add_flag :
  passes ["-f"] [VBool false; VBool false] [flag 0 (sh "f"); flag 1 (sh "a"); parses Fine] [VBool true; VBool false] &&
  passes ["-fbc"] [VBool false; VBool false; VBool false; VBool false]
    [flag 0 (sh "f"); flag 1 (sh "a"); flag 2 (sh "b"); flag 3 (sh "c"); parses Fine] [VBool true; VBool false; VBool true; VBool true] &&
  passes ["--another-flag"] [VBool false; VBool false] [flag 0 (lo "flag"); flag 1 (lo "another-flag"); parses Fine] [VBool false; VBool true]
  = true.
Proof. vm_compute. reflexivity. Qed.

Example add_positional_option : passes ["positional_string"] [VStr ""] [pos 0 str; parses Fine] [VStr "positional_string"] = true.
Proof. vm_compute. reflexivity. Qed.

Example independent_add_order :
  let o := opt 1 int (sh "i") in let f := flag 2 (sh "b") in let p := pos 0 str in
  forallb (fun l => passes ["-i"; "2"; "-b"; "arg"] [VStr ""; VInt 0; VBool false] (l ++ [parses Fine]) [VStr "arg"; VInt 2; VBool true])
    [[o; f; p]; [f; o; p]; [o; p; f]; [f; p; o]; [p; f; o]; [p; o; f]] = true.
Proof. vm_compute. reflexivity. Qed.

Example independent_cmd_order :
  forallb (fun a => passes a [VStr ""; VInt 0; VBool false] [opt 1 int (sh "i"); flag 2 (sh "b"); pos 0 str; parses Fine]
                      [VStr "arg"; VInt 2; VBool true])
    [["-i"; "2"; "-b"; "arg"]; ["-b"; "-i"; "2"; "arg"]; ["-i"; "2"; "arg"; "-b"]; ["-b"; "arg"; "-i"; "2"];
     ["arg"; "-b"; "-i"; "2"]; ["arg"; "-i"; "2"; "-b"]] = true.
Proof. vm_compute. reflexivity. Qed.

Example double_dash_separation_success :
  passes ["--"; "-strange"] [VStr ""] [pos 0 str; parses Fine] [VStr "-strange"] &&
  passes ["--"; "-120"] [VInt 0] [pos 0 int; parses Fine] [VInt (-120)] = true.
Proof. vm_compute. reflexivity. Qed.

Example special_characters_as_value_success :
  passes ["--regex"; "-i=/45*&//--"] [VStr ""] [opt 0 str (lo "regex"); parses Fine] [VStr "-i=/45*&//--"] = true.
Proof. vm_compute. reflexivity. Qed.

Example empty_value_error :
  passes ["-i"] [VInt 0] [opt 0 int (sh "i"); parses Error] [] && passes ["--long"] [VInt 0] [opt 0 int (lo "long"); parses Error] [] &&
  passes ["-i="] [VInt 0] [opt 0 int (sh "i"); parses Error] [] && passes ["--long="] [VInt 0] [opt 0 int (lo "long"); parses Error] [] = true.
Proof. vm_compute. reflexivity. Qed.

Example parse_success_bool_option :
  forallb (fun a => passes a [VBool false; VBool false] [opt 0 boo (sh "b"); pos 1 boo; parses Fine] [VBool true; VBool false])
    [["-b"; "1"; "0"]; ["-b"; "true"; "false"]] = true.
Proof. vm_compute. reflexivity. Qed.

Example parse_success_int_option :
  passes ["-i"; "-2"; "278"] [VInt 0; VInt 0] [opt 0 int (sh "i"); pos 1 (Scalar (TInt false 64)); parses Fine] [VInt (-2); VInt 278] = true.
Proof. vm_compute. reflexivity. Qed.

Example parse_error_bool_option :
  forallb (fun a => passes ["-b"; a] [VBool false] [opt 0 boo (sh "b"); parses Error] [VBool false]) ["a"; "124"] = true.
Proof. vm_compute. reflexivity. Qed.

Example parse_error_int_option :
  forallb (fun a => passes ["-i"; snd (fst a)] [VInt 0] [opt 0 (Scalar (fst (fst a))) (sh "i"); parses Error] [VInt (snd a)])
    [(TInt true 32, "abc", 0%Z); (TInt true 32, "2abc", 2%Z); (TInt true 32, "3.12", 3%Z); (TInt false 32, "-1", 0%Z);
     (TInt true 8, "129", 0%Z); (TInt false 8, "267", 0%Z)] = true.
Proof. vm_compute. reflexivity. Qed.

Example too_many_arguments_error :
  passes ["5"; "15"] [VInt 0] [pos 0 int; parses (Throws KTooMany)] [VInt 5] &&
  passes ["2"; "--"; "-i"] [VInt 0] [pos 0 int; opt 0 int (sh "i"); parses (Throws KTooMany)] [VInt 2] = true.
Proof. vm_compute. reflexivity. Qed.

Example too_few_arguments_error :
  passes ["15"] [VInt 0] [pos 0 int; pos 0 int; parses (Throws KTooFew)] [VInt 15] &&
  passes ["-i"; "2"] [VInt 0] [pos 0 int; opt 0 int (sh "i"); parses (Throws KTooFew)] [VInt 2] = true.
Proof. vm_compute. reflexivity. Qed.

Example unknown_option_error :
  forallb (fun a => passes a [] [parses (Throws KUnknownOption)] []) [["-i"; "15"]; ["--arg"; "8"]; ["-a"]; ["--arg"]; ["-5"]] &&
  passes ["-i"; "129"; "arg1"; "-b"; "bcd"; "-a"; "abc"] [VInt 0; VStr ""; VStr ""]
    [opt 0 int (sh "i"); opt 1 str (sh "a"); pos 2 str; parses (Throws KUnknownOption)] [VInt 129; VStr "abc"; VStr ""] = true.
Proof. vm_compute. reflexivity. Qed.

Example option_declared_multiple_times_error :
  passes ["-i"; "15"; "-i"; "3"] [VInt 0] [opt 0 int (sh "i"); parses (Throws KMultiple)] [VInt 15] &&
  passes ["--long"; "5"; "--long"; "6"] [VInt 0] [opt 0 int (lo "long"); parses (Throws KMultiple)] [VInt 5] &&
  passes ["-i"; "5"; "--long"; "6"] [VInt 0] [opt 0 int (ids "i" "long"); parses (Throws KMultiple)] [VInt 6] = true.
Proof. vm_compute. reflexivity. Qed.

Example required_option_missing :
  passes ["5"; "-i"; "15"] [VInt 0] [opt 0 int (sh "i"); opt 0 int (required (sh "a")); pos 0 int; parses (Throws KRequiredMissing)] [VInt 15] = true.
Proof. vm_compute. reflexivity. Qed.

Example multiple_empty_options :
  passes ["-s=1"] [VInt 0] [opt 0 int (sh "i"); opt 0 int (sh "s"); parses Fine] [VInt 1] &&
  passes ["-s=1"; "--unknown"] [VInt 0] [opt 0 int (sh "i"); opt 0 int (sh "s"); parses (Throws KUnknownOption)] [VInt 1] &&
  passes ["--long=2"] [VInt 0] [opt 0 int (lo "longi"); opt 0 int (lo "long"); parses Fine] [VInt 2] = true.
Proof. vm_compute. reflexivity. Qed.

Example version_check_option_error :
  passes ["--version-check"] [] [parses Error] [] && passes ["--version-check"; "foo"] [] [parses Error] [] = true.
Proof. vm_compute. reflexivity. Qed.

Definition sub_name (w : world) : option string := option_map (fun q => m_app_name (info q)) (sub_parser (w_parser w)).

Example subcommand_parser_success :
  passes_sub ["-f"; "sub1"; "foo"] ["sub1"; "sub2"] [VBool false; VStr ""]
    [flag 0 (sh "f"); parses Fine; (CSub (CAddPositional 1 str none), Fine); (CSub CParse, Fine)] [VBool true; VStr "foo"] &&
  passes_sub ["-h"; "-f"; "sub1"; "foo"] ["sub1"; "sub2"] [VBool false; VStr ""] [flag 0 (sh "f"); parses Exits] [VBool false; VStr ""] &&
  passes_sub ["-f"; "sub1"; "foo"; "-h"] ["sub1"; "sub2"] [VBool false; VStr ""]
    [flag 0 (sh "f"); parses Fine; (CSub (CAddPositional 1 str none), Fine); (CSub CParse, Exits)] [VBool true; VStr ""] = true /\
  sub_name (fst (run false (backend_of here machine) [CAddFlag 0 (sh "f"); CParse]
                   (fixture ["-f"; "sub1"; "foo"] ["sub1"; "sub2"] disk [VBool false]))) = Some "test_parser-sub1".
Proof. split; vm_compute; reflexivity. Qed.

Example subcommand_parser_error :
  let m := "You specified an unknown subcommand! Available subcommands are: [sub1]. Use -h/--help for more information." in
  forallb (fun a => passes_sub a ["sub1"] [] [parses (ThrowsMsg KUserInput m)] []) [["subiddysub"; "-f"]; ["subiddysub"]; ["subiddysub"; "-h"]] = true.
Proof. vm_compute. reflexivity. Qed.

Example issue1544 :
  passes ["--foohallo"] [VStr ""] [opt 0 str (lo "foo"); parses (Throws KUnknownOption)] [VStr ""] &&
  passes ["--foo"; "hallo"; "--foo-bar"; "ballo"] [VStr ""] [opt 0 str (lo "foo"); parses (Throws KUnknownOption)] [VStr "hallo"] &&
  passes ["--foo"; "hallo"; "--foo-bar"; "ballo"] [VStr ""] [opt 0 str (lo "foo-bar"); parses (Throws KUnknownOption)] [VStr "ballo"] &&
  passes ["--foo"; "hallo"; "--foo-bar"; "ballo"] [VStr ""; VStr ""]
    [opt 0 str (lo "foo"); opt 1 str (lo "foo-bar"); parses Fine] [VStr "hallo"; VStr "ballo"] = true.
Proof. vm_compute. reflexivity. Qed.

Example is_option_set_test :
  passes ["-l"; "hallo"; "--foobar"; "ballo"; "--"] [VStr ""]
    ([opt 0 str (ids "l" "loo"); opt 0 str (ids "f" "foobar"); (CIsSet (IdLong "foo"), Throws KDesign); parses Fine;
      (CIsSet (IdShort "l"), Answers true); (CIsSet (IdLong "foobar"), Answers true);
      (CIsSet (IdShort "f"), Answers false); (CIsSet (IdLong "loo"), Answers false)] ++
     map (fun l => (CIsSet (IdLong l), Throws KDesign)) ["l"; "f"; "foo"; "--"; ""] ++
     map (fun c => (CIsSet (IdShort c), Throws KDesign)) ["!"; "-"; "_"; nul]%char) [] = true.
Proof. vm_compute. reflexivity. Qed.

Example error_message_parsing :
  passes ["--value"; "-30"] [VInt 0] [opt 0 (Scalar (TInt false 64)) (lo "value");
    parses (ThrowsMsg KUserInput "Value parse failed for --value: Argument -30 could not be parsed as type unsigned 64 bit integer.")] [] = true.
Proof. vm_compute. reflexivity. Qed.

Example container_options :
  passes ["-i"; "2"; "-i"; "1"; "-i"; "3"] [VList []] [opt 0 (ListOf int32) (sh "i"); parses Fine] [VList [VInt 2; VInt 1; VInt 3]] &&
  passes ["-b"; "true"; "-b"; "false"; "-b"; "true"] [VList []] [opt 0 (ListOf TBool) (sh "b"); parses Fine]
    [VList [VBool true; VBool false; VBool true]] = true.
Proof. vm_compute. reflexivity. Qed.

Example container_default :
  let l := VList [VInt 1; VInt 2; VInt 3] in let l' := VList [VInt 2; VInt 1; VInt 3] in
  passes ["-i"; "2"; "-i"; "1"; "-i"; "3"] [l] [opt 0 (ListOf int32) (sh "i"); parses Fine] [l'] &&
  passes ["-i"; "2"; "-b"; "true"; "-i"; "1"; "-i"; "3"] [l; VBool false] [opt 0 (ListOf int32) (sh "i"); opt 1 boo (sh "b"); parses Fine] [l'; VBool true] &&
  passes ["-b"; "true"] [l; VBool false] [opt 0 (ListOf int32) (sh "i"); opt 1 boo (sh "b"); parses Fine] [l; VBool true] &&
  passes ["2"; "1"; "3"] [l] [pos 0 (ListOf int32); parses Fine] [l'] = true.
Proof. vm_compute. reflexivity. Qed.

Example executable_name_test :
  forallb (fun a => match executable_name (w_parser (fst (run false (backend_of here machine) [CAddFlag 0 (sh "t"); CParse]
                                             (named "test_parser" [a; "-t"] [] disk [VBool false])))) with
                    | [n] => String.eqb n a
                    | _ => false
                    end) ["parser_test"; "./parser_test"; "./bin/parser_test"] = true /\
  option_map executable_name (sub_parser (w_parser (fst (run false (backend_of here machine) [CParse; CSub (CAddFlag 0 (sh "t")); CSub CParse]
                                             (named "test_parser" ["parser_test"; "build"; "-t"] ["build"] disk [VBool false])))))
    = Some ["parser_test"; "build"].
Proof. split; vm_compute; reflexivity. Qed.

Example flag_independence :
  forallb (fun a => passes a [VBool false] [flag 0 (sh "a"); flag 0 (sh "z"); parses Fine] [VBool true]) [["-a"; "-z"]; ["-a"]; ["-z"]] = true.
Proof. vm_compute. reflexivity. Qed.

Example parse_order_example :
  passes ["-f"; "-o"; "false"] [VBool false] [opt 0 boo (sh "o"); flag 0 (sh "f"); parses Fine] [VBool true] &&
  passes ["-otrue"] [VBool false] [opt 0 boo (sh "o"); parses Fine] [VBool true] &&
  passes ["-otrue"] [VBool false; VBool false; VBool false; VBool false; VBool false]
    [flag 0 (sh "o"); flag 1 (sh "t"); flag 2 (sh "r"); flag 3 (sh "u"); flag 4 (sh "e"); parses Fine]
    [VBool true; VBool true; VBool true; VBool true; VBool true] &&
  passes ["false"; "-o"; "true"; "-f"] [VBool false] [opt 0 boo (sh "o"); flag 0 (sh "f"); pos 0 boo; parses Fine] [VBool false] = true.
Proof. vm_compute. reflexivity. Qed.

(** ** parser_design_error_test.cpp *)

Definition refused (c : call) : call * expectation := (c, Throws KDesign).

Example app_name_validation :
  forallb (fun a => passes_from (named (fst a) ["./parser_test"; "-i"; "3"] [] disk [VInt 0]) [opt 0 int (sh "i"); parses (snd a)] [])
    [("test_parser", Fine); ("test-parser1234_foo", Fine); ("test parser", Throws KDesign); ("test;", Throws KDesign);
     (";", Throws KDesign); ("test;bad script:D", Throws KDesign)] = true.
Proof. vm_compute. reflexivity. Qed.

Example verify_option_config_test :
  passes [] [VInt 0] [opt 0 int (sh "i"); refused (CAddOption 0 int (sh "i"))] [] &&
  passes [] [VInt 0] [opt 0 int (lo "int"); refused (CAddOption 0 int (lo "int"))] [] &&
  passes [] [VInt 0] (map (fun c => refused (CAddOption 0 int c))
    [none; sh "h"; lo "help"; lo "advanced-help"; lo "export-help"; lo "z"; sh "009"; lo ("no" +s+ nl); lo "-no"]) [] = true.
Proof. vm_compute. reflexivity. Qed.

Example verify_flag_config_test :
  passes [] [VBool true] [refused (CAddFlag 0 (sh "i"))] [] &&
  passes [] [VBool false] [flag 0 (sh "i"); refused (CAddFlag 0 (sh "i"))] [] &&
  passes [] [VBool false] [flag 0 (lo "int"); refused (CAddFlag 0 (lo "int"))] [] &&
  passes [] [VBool false] [refused (CAddFlag 0 none); refused (CAddFlag 0 (lo "z"))] [] = true.
Proof. vm_compute. reflexivity. Qed.

Example verify_positional_option_config_test :
  passes ["arg1"; "arg2"; "arg3"] [VInt 0; VList []] [pos 1 (ListOf int32); refused (CAddPositional 0 int none)] [] &&
  passes ["arg1"] [VInt 0] (map (fun c => refused (CAddPositional 0 int c)) [sh "a"; lo "abc"; advanced none; hidden none]) [] = true.
Proof. vm_compute. reflexivity. Qed.

Example verify_default_message_config_test :
  passes ["arg1"] [VInt 0; VBool false]
    [refused (CAddOption 0 int (required (defaulted "Some number" (lo "int")))); refused (CAddPositional 0 int (defaulted "Some number" none));
     refused (CAddFlag 1 (defaulted "false" (sh "i")))] [] = true.
Proof. vm_compute. reflexivity. Qed.

Example parse_called_twice :
  passes ["--version-check"; "false"; "-s"; "option_string"] [VStr ""]
    [opt 0 str (sh "s"); parses Fine; parses (Throws KDesign)] [VStr "option_string"] = true.
Proof. vm_compute. reflexivity. Qed.

(** [CSub (CInfo _)] stands for a use of get_sub_parser() *)
Definition use_sub : call := CSub (CInfo (meta_of "unused")).
Example subcommand_parser_error2 :
  passes ["-f"] [VBool false] [flag 0 (sh "f"); parses Fine; refused use_sub] [VBool true] &&
  passes_sub [] ["with space"] [] [parses (Throws KDesign)] [] &&
  passes_sub ["-f"; "foo"] ["foo"] [VBool false]
    [refused (CAddPositional 0 boo none); opt 0 boo (sh "o"); flag 0 (sh "f"); refused use_sub; parses Fine; (use_sub, Fine)] [VBool true] &&
  passes_sub ["-o"; "true"] ["foo"] [VBool false] [refused (CAddPositional 0 boo none); opt 0 boo (sh "o"); parses Fine] [VBool true] = true.
Proof. vm_compute. reflexivity. Qed.

Example not_allowed_after_parse :
  let no (c : call) (f : string) := (c, ThrowsMsg KDesign (f +s+ " may only be used before calling parse().")) in
  passes ["-i"; "3"] [VInt 0; VBool false]
    [opt 0 int (sh "i"); parses Fine; no (CAddOption 0 int (sh "i")) "add_option"; no (CAddFlag 1 (sh "i")) "add_flag";
     no (CAddPositional 0 int none) "add_positional_option"; no (CAddSection "" false) "add_section"; no (CAddSubsection "" false) "add_subsection";
     no (CAddLine "" false false) "add_line"; no (CAddListItem "" "" false) "add_list_item"] [] = true.
Proof. vm_compute. reflexivity. Qed.

(** ** enumeration_names_test.cpp *)

Definition foo_bar : ety := TEnum "foo::bar" [("one", 0%Z); ("two", 1%Z); ("three", 2%Z)].
Definition other_bar : ety := TEnum "Other::bar" [("one", 0%Z); ("1", 0%Z); ("two", 1%Z); ("2", 1%Z)].
Definition only (l : list Z) : validator := value_list_validator foo_bar (map VEnum l).

Example enumeration_names_test :
  passes ["-e"; "two"] [VEnum 0] [opt 0 (Scalar foo_bar) (sh "e"); parses Fine] [VEnum 1] &&
  passes ["-e"; "two"] [VEnum 0] [opt 0 (Scalar other_bar) (sh "e"); parses Fine] [VEnum 1] &&
  passes ["-e"; "four"] [VEnum 0] [opt 0 (Scalar foo_bar) (sh "e"); parses (Throws KUserInput)] [] &&
  passes ["-e"; "nine"] [VEnum 0] [opt 0 (Scalar foo_bar) (advanced (validated (only [0; 1; 2]%Z) (sh "e"))); parses (Throws KUserInput)] [] &&
  passes ["-e"; "one"; "-e"; "nine"] [VList []] [opt 0 (ListOf foo_bar) (advanced (validated (only [0; 1; 2]%Z) (sh "e"))); parses (Throws KUserInput)] [] &&
  passes ["-e"; "two"; "-e"; "one"; "-e"; "three"] [VList []] [opt 0 (ListOf foo_bar) (sh "e"); parses Fine] [VList [VEnum 1; VEnum 0; VEnum 2]] = true.
Proof. vm_compute. reflexivity. Qed.

Example enum_error_message :
  passes ["-e"; "nine"] [VEnum 0] [opt 0 (Scalar foo_bar) (sh "e");
    parses (ThrowsMsg KUserInput "You have chosen an invalid input value: nine. Please use one of: [one, two, three]")] [] &&
  passes ["-e"; "nine"] [VEnum 0] [opt 0 (Scalar other_bar) (sh "e");
    parses (ThrowsMsg KUserInput "You have chosen an invalid input value: nine. Please use one of: [1, one, 2, two]")] [] = true.
Proof. vm_compute. reflexivity. Qed.
