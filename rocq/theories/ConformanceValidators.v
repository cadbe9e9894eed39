(** Tests, not proofs: expectations of test/unit/parser/format_parse_validators_test.cpp, evaluated in the model.
    Left out: the type deduction checks.  Floating point numbers: ConformanceFloat.v. *)
From Verif Require Import Base Fs Values Validators ValidatorsHelp FormatParse Parser HelpExport VersionCheck Samples HelpSamples
  Conformance ConformanceHelp.
From Verif Require Regex.

(** ** Direct calls of a validator *)
Definition accepts (v : shipped) (f : fs) (x : val) : bool :=
  forallb (fun nd => match snd (check_of nd v f x) with VOk => true | _ => false end) [true; false].
Definition rejects (v : shipped) (f : fs) (x : val) : bool :=
  forallb (fun nd => match snd (check_of nd v f x) with VThrow _ => true | _ => false end) [true; false].
Definition at_ (s : string) : val := VPath ("/tmp/t/" +s+ s).

(** the files of the tests, in a temporary directory /tmp/t *)
Definition ro : fmeta := {| f_readable := true; f_writable := false |}.
Definition wo : fmeta := {| f_readable := false; f_writable := true |}.
Definition tmp0 : fs := upd disk ["tmp"; "t"] (Some (NDir rw)).
Definition touch (n : string) (f : fs) : fs := upd f ["tmp"; "t"; n] (Some (NFile "" rw)).
Definition mkdir (n : string) (m : fmeta) (f : fs) : fs := upd f ["tmp"; "t"; n] (Some (NDir m)).
Definition formats : list string := ["fa"; "sam"; "fasta"; "fasta.txt"].

Definition passes_on (f : fs) (args : list string) (vs : list val) (t : list (call * expectation)) (vs' : list val) : bool :=
  passes_from (fixture args [] f vs) t vs'.
Definition opt_by (x : addr) (t : vty) (s : chr) (v : shipped) : call * expectation := opt x t (checked_by v (sh s)).
Definition pos_by (x : addr) (t : vty) (v : shipped) : call * expectation := (CAddPositional x t (checked_by v none), Fine).
Definition path : vty := Scalar TPath.
Definition paths : vty := ListOf TPath.
Definition strs : vty := ListOf TString.
Definition ints : vty := ListOf int32.

(** the help page of a program with one positional option *)
Definition only_positional (t : vty) (v : shipped) (vs : list val) (entry : string) : bool :=
  passes ["-h"] vs [(CAddPositional 0 t (checked_by v (described "desc" none)), Fine);
    prints (title +s+ nl +s+ "POSITIONAL ARGUMENTS" +s+ nl +s+ entry +s+ nl +s+ "OPTIONS" +s+ nl +s+ nl +s+ basic_options_str +s+ nl +s+ version_str)] [].
Definition only_option (t : vty) (c : config) (vs : list val) (entry : string) : bool :=
  passes ["-h"] vs [opt 0 t c;
    prints (title +s+ nl +s+ "OPTIONS" +s+ nl +s+ entry +s+ nl +s+ basic_options_str +s+ nl +s+ version_str)] [].

(** ** input_file *)
Definition inputs : fs := touch "testbox.fasta" (touch "testbox_2.fasta" (touch ".testbox.fasta" (touch "testbox.fasta.txt" tmp0))).

Example input_file_calls :
  let v := ValidInFile formats in
  accepts v inputs (at_ ".testbox.fasta") && accepts v inputs (at_ "testbox.fasta.txt") && rejects v inputs (at_ "testbox.bam") &&
  rejects v inputs (at_ "testbox") && rejects (ValidInFile ["sam"]) inputs (at_ "testbox.fasta") && accepts (ValidInFile []) inputs (at_ "testbox.fasta")
  = true.
Proof. vm_compute. reflexivity. Qed.

Example input_file_parser :
  let v := ValidInFile formats in
  passes_on inputs ["-i"; "/tmp/t/testbox.fasta"] [VPath ""] [opt_by 0 path "i" v; parses Fine] [at_ "testbox.fasta"] &&
  passes_on inputs ["/tmp/t/testbox.fasta"; "/tmp/t/testbox_2.fasta"] [VList []] [pos_by 0 paths v; parses Fine]
    [VList [at_ "testbox.fasta"; at_ "testbox_2.fasta"]] = true.
Proof. vm_compute. reflexivity. Qed.

Example input_file_help :
  only_positional path (ValidInFile formats) [VPath ""]
"    ARGUMENT-1 (std::filesystem::path)
          desc. The input file must exist and read permissions must be
          granted. Valid file extensions are: [fa, sam, fasta, fasta.txt].
" &&
  String.eqb (help_of (ValidInFile formats))
    ("The input file must exist and read permissions must be granted. " +s+ "Valid file extensions are: [fa, sam, fasta, fasta.txt].") &&
  String.eqb (help_of (ValidInFile [])) "The input file must exist and read permissions must be granted." = true.
Proof. vm_compute. reflexivity. Qed.

(** ** output_file *)
Definition outputs : fs := touch "testbox_2.fasta" tmp0.

Example output_file_calls :
  let fresh := at_ "testbox.fasta" in let old := at_ "testbox_2.fasta" in
  forallb (fun v => accepts v outputs fresh)
    [ValidOutFile CreateNew []; ValidOutFile OpenOrCreate []; ValidOutFile CreateNew [""]] &&
  rejects (ValidOutFile OpenOrCreate []) outputs (VPath "/tmp") && rejects (ValidOutFile CreateNew ["sam"]) outputs old &&
  rejects (ValidOutFile CreateNew formats) outputs old && accepts (ValidOutFile OpenOrCreate formats) outputs old &&
  negb (exists_ (fst (check_of true (ValidOutFile OpenOrCreate formats) outputs old)) "/tmp/t/testbox_2.fasta") &&
  rejects (ValidOutFile OpenOrCreate formats) outputs (at_ "testbox") &&
  rejects (ValidOutFile CreateNew ["/tmp/t/testbox.fasta.longer.than.path"]) outputs fresh &&
  rejects (ValidOutFile CreateNew ["/tmp/t/testbox_2.fasta.longer.than.path"]) outputs old &&
  accepts (ValidOutFile CreateNew formats) outputs (at_ ".testbox.fasta") && accepts (ValidOutFile CreateNew formats) outputs (at_ "testbox.fasta.txt")
  = true.
Proof. vm_compute. reflexivity. Qed.

Example output_file_parser :
  let v := ValidOutFile CreateNew formats in
  passes_on outputs ["-o"; "/tmp/t/testbox.fasta"] [VPath ""] [opt_by 0 path "o" v; parses Fine] [at_ "testbox.fasta"] &&
  passes_on outputs ["/tmp/t/testbox.fasta"; "/tmp/t/testbox_3.fa"] [VList []] [pos_by 0 paths v; parses Fine]
    [VList [at_ "testbox.fasta"; at_ "testbox_3.fa"]] = true.
Proof. vm_compute. reflexivity. Qed.

Example output_file_help :
  only_positional path (ValidOutFile CreateNew formats) [VPath ""]
"    ARGUMENT-1 (std::filesystem::path)
          desc. The output file must not exist already and write permissions
          must be granted. Valid file extensions are: [fa, sam, fasta,
          fasta.txt].
" &&
  only_positional path (ValidOutFile OpenOrCreate formats) [VPath ""]
"    ARGUMENT-1 (std::filesystem::path)
          desc. Write permissions must be granted. Valid file extensions are:
          [fa, sam, fasta, fasta.txt].
" &&
  String.eqb (help_of (ValidOutFile CreateNew formats))
    ("The output file must not exist already and write permissions " +s+ "must be granted. Valid file extensions are: " +s+
     "[fa, sam, fasta, fasta.txt].") &&
  String.eqb (help_of (ValidOutFile CreateNew [])) "The output file must not exist already and write permissions must be granted." = true.
Proof. vm_compute. reflexivity. Qed.

(** ** input_directory, output_directory *)
Definition one_file : fs := touch "testbox.fasta" tmp0.

Example directories :
  forallb (fun v =>
    rejects v one_file (at_ "testbox.fasta") && accepts v one_file (at_ "") &&
    passes_on one_file ["-i"; "/tmp/t/"] [VPath ""] [opt_by 0 path "i" v; parses Fine] [VPath "/tmp/t/"]) [ValidInDir; ValidOutDir] = true.
Proof. vm_compute. reflexivity. Qed.

Example output_directory_parent :
  rejects ValidOutDir tmp0 (at_ "dir/child_dir") && accepts ValidOutDir (mkdir "dir" rw tmp0) (at_ "dir/child_dir") = true.
Proof. vm_compute. reflexivity. Qed.

Example directories_help :
  only_positional path ValidInDir [VPath ""]
"    ARGUMENT-1 (std::filesystem::path)
          desc. An existing, readable path for the input directory.
" &&
  only_positional path ValidOutDir [VPath ""]
"    ARGUMENT-1 (std::filesystem::path)
          desc. A valid path for the output directory.
" = true.
Proof. vm_compute. reflexivity. Qed.

(** ** inputfile_not_readable, inputfile_not_regular, inputdir_not_existing, inputdir_not_readable, outputfile_not_writable,
    output_parent_dir_not_writable, outputdir_not_writable *)
Example not_readable_not_writable :
  let file m := upd tmp0 ["tmp"; "t"; "my_file.test"] (Some (NFile "" m)) in
  let closed := upd disk ["tmp"; "t"] (Some (NDir ro)) in
  accepts (ValidInFile []) (file rw) (at_ "my_file.test") && rejects (ValidInFile []) (file wo) (at_ "my_file.test") &&
  rejects (ValidInFile []) (upd tmp0 ["tmp"; "t"; "my_file.test"] (Some (NOther rw))) (at_ "my_file.test") &&
  rejects ValidInDir tmp0 (at_ "dir") && accepts ValidInDir (mkdir "dir" rw tmp0) (at_ "dir") && rejects ValidInDir (mkdir "dir" wo tmp0) (at_ "dir") &&
  accepts (ValidOutFile CreateNew []) tmp0 (at_ "my_file.test") && rejects (ValidOutFile CreateNew []) closed (at_ "my_file.test") &&
  rejects (ValidOutFile CreateNew []) (mkdir "dir" ro tmp0) (at_ "dir") && rejects (ValidOutFile CreateNew []) (mkdir "dir" ro closed) (at_ "dir") &&
  accepts ValidOutDir (mkdir "dir" rw tmp0) (at_ "dir") && rejects (ValidOutFile CreateNew []) (mkdir "dir" ro tmp0) (at_ "dir") = true.
Proof. vm_compute. reflexivity. Qed.

(** ** arithmetic_range_validator *)
Definition range (a b : Z) : shipped := ValidRange true 32 a b.
Definition vints (l : list Z) : val := VList (map VInt l).
Definition vstrs (l : list string) : val := VList (map VStr l).

Example arithmetic_range_validator_success :
  passes ["-i"; "10"] [VInt 0] [opt_by 0 int "i" (range 1 20); parses Fine] [VInt 10] &&
  passes ["-i"; "-10"] [VInt 0] [opt_by 0 int "i" (range (-20) 20); parses Fine] [VInt (-10)] &&
  passes ["10"] [VInt 0] [pos_by 0 int (range 1 20); parses Fine] [VInt 10] &&
  passes ["--"; "-10"] [VInt 0] [pos_by 0 int (range (-20) 20); parses Fine] [VInt (-10)] &&
  passes ["-i"; "-10"; "-i"; "48"] [vints []] [opt_by 0 ints "i" (range (-50) 50); parses Fine] [vints [-10; 48]%Z] &&
  passes ["--"; "-10"; "1"] [vints [-10; 48]%Z] [pos_by 0 ints (range (-20) 20); parses Fine] [vints [-10; 1]%Z] &&
  only_positional ints (range (-20) 20) [vints []]
"    ARGUMENT-1 (List of signed 32 bit integer)
          desc Default: []. Value must be in range [-20,20].
" = true.
Proof. vm_compute. reflexivity. Qed.

Example arithmetic_range_validator_error :
  passes ["-i"; "30"] [VInt 0] [opt_by 0 int "i" (range 1 20); parses (Throws KValidation)] [VInt 30] &&
  passes ["-i"; "-21"] [VInt 0] [opt_by 0 int "i" (range (-20) 20); parses (Throws KValidation)] [VInt (-21)] &&
  passes ["30"] [VInt 0] [pos_by 0 int (range 1 20); parses (Throws KValidation)] [VInt 30] &&
  passes ["--"; "-21"] [VInt 0] [pos_by 0 int (range (-20) 20); parses (Throws KValidation)] [VInt (-21)] &&
  passes ["-i"; "-100"] [vints []] [opt_by 0 ints "i" (range (-50) 50); parses (Throws KValidation)] [vints [-100]%Z] &&
  passes ["--"; "-10"; "100"] [vints [-100]%Z] [pos_by 0 ints (range (-20) 20); parses (Throws KValidation)] [vints [-10; 100]%Z] = true.
Proof. vm_compute. reflexivity. Qed.

(** ** value_list_validator *)
Definition among (l : list string) : shipped := ValidValues TString (map VStr l).
Definition numbers (l : list Z) : shipped := ValidValues int32 (map VInt l).

Example value_list_validator_success :
  passes ["-s"; "ba"] [VStr ""] [opt_by 0 str "s" (among ["ha"; "ba"]); parses Fine] [VStr "ba"] &&
  passes ["-i"; "-21"] [VInt 0] [opt_by 0 int "i" (numbers [0; -21; 10]%Z); parses Fine] [VInt (-21)] &&
  passes ["ma"] [VStr ""] [pos_by 0 str (among ["ha"; "ba"; "ma"]); parses Fine] [VStr "ma"] &&
  passes ["ha"; "ma"] [vstrs []] [pos_by 0 strs (among ["ha"; "ba"; "ma"]); parses Fine] [vstrs ["ha"; "ma"]] &&
  passes ["-i"; "-10"; "-i"; "48"] [vints []] [opt_by 0 ints "i" (numbers [-10; 48; 50]%Z); parses Fine] [vints [-10; 48]%Z] &&
  only_option ints (checked_by (numbers [-10; 48; 50]%Z) (described "desc" (ids "i" "int-option"))) [vints []]
"    -i, --int-option (List of signed 32 bit integer)
          desc Default: []. Value must be one of [-10, 48, 50].
" = true.
Proof. vm_compute. reflexivity. Qed.

Example value_list_validator_error :
  passes ["-s"; "sa"] [VStr ""] [opt_by 0 str "s" (among ["ha"; "ba"; "ma"]); parses (Throws KValidation)] [VStr "sa"] &&
  passes ["30"] [VInt 0] [pos_by 0 int (numbers [0; 5; 10]%Z); parses (Throws KValidation)] [VInt 30] &&
  passes ["fo"; "ma"] [vstrs []] [pos_by 0 strs (among ["ha"; "ba"; "ma"]); parses (Throws KValidation)] [vstrs ["fo"; "ma"]] &&
  passes ["-i"; "-10"; "-i"; "488"] [vints []] [opt_by 0 ints "i" (numbers [-10; 48; 50]%Z); parses (Throws KValidation)] [vints [-10; 488]%Z]
  = true.
Proof. vm_compute. reflexivity. Qed.

Example value_list_validator_issue178 :
  passes ["-s"; "ba"] [VPath ""] [opt_by 0 path "s" (among ["ha"; "ba"; "ma"]); parses Fine] [VPath "ba"] &&
  passes ["-s"; "ha"; "-s"; "ba"] [VList []] [opt_by 0 paths "s" (among ["ha"; "ba"; "ma"]); parses Fine] [VList [VPath "ha"; VPath "ba"]] = true.
Proof. vm_compute. reflexivity. Qed.

(** ** regex_validator, with std::regex as modelled in Regex.v *)
Definition by_pattern (p : string) : shipped := ValidRegex p (Regex.std_regex (fun _ _ => None) p).
Definition email : shipped := by_pattern "[a-zA-Z]+@[a-zA-Z]+\.com".
Definition oll : shipped := by_pattern ".*oll.*".
Definition tt_only : shipped := by_pattern "tt".

Example regex_validator_success :
  passes ["-s"; "ballo@rollo.com"] [VStr ""] [opt_by 0 str "s" email; parses Fine] [VStr "ballo@rollo.com"] &&
  passes ["chr1"] [VStr ""] [pos_by 0 str (by_pattern "^chr[0-9]+"); parses Fine] [VStr "chr1"] &&
  passes ["rollo"; "bollo"; "lollo"] [vstrs []] [pos_by 0 strs oll; parses Fine] [vstrs ["rollo"; "bollo"; "lollo"]] &&
  passes ["-s"; "rita@rambo.com"; "-s"; "tina@rambo.com"] [vstrs []] [opt_by 0 strs "s" email; parses Fine] [vstrs ["rita@rambo.com"; "tina@rambo.com"]] &&
  passes ["-s"; "rita@rambo.com"] [VPath ""] [opt_by 0 path "s" email; parses Fine] [VPath "rita@rambo.com"] &&
  only_option strs (checked_by email (described "desc" (ids "s" "string-option"))) [vstrs []]
"    -s, --string-option (List of std::string)
          desc Default: []. Value must match the pattern
          '[a-zA-Z]+@[a-zA-Z]+\.com'.
" = true.
Proof. vm_compute. reflexivity. Qed.

Example regex_validator_error :
  passes ["--string-option"; "sally"] [VStr ""] [opt 0 str (checked_by tt_only (lo "string-option")); parses (Throws KValidation)] [VStr "sally"] &&
  passes ["jessy"] [VStr ""] [pos_by 0 str (by_pattern "[0-9]"); parses (Throws KValidation)] [VStr "jessy"] &&
  passes ["rollo"; "bttllo"; "lollo"] [vstrs []] [pos_by 0 strs oll; parses (Throws KValidation)] [vstrs ["rollo"; "bttllo"; "lollo"]] &&
  passes ["-s"; "gh"; "-s"; "tt"] [vstrs []] [opt_by 0 strs "s" tt_only; parses (Throws KValidation)] [vstrs ["gh"; "tt"]] = true.
Proof. vm_compute. reflexivity. Qed.

(** ** chaining_validators_common_type, without floating point *)
Example chaining_validators_common_type :
  let max := 2147483647%Z in let max64 := 9223372036854775807%Z in
  let a := numbers [1; 2; 3; max]%Z in let b := ValidValues (TInt false 32) (map VInt [4; max]%Z) in
  let c := ValidValues (TInt true 64) (map VInt [1; 2; 3; max64]%Z) in let d := ValidValues (TInt false 64) (map VInt [4; max64]%Z) in
  forallb (fun v => accepts v disk (VInt max)) [a; b; ValidBoth a b] && forallb (fun v => accepts v disk (VInt max64)) [c; d; ValidBoth c d] &&
  forallb (fun v => rejects v disk (VInt (max64 - 1))) [c; d; ValidBoth c d] = true.
Proof. vm_compute. reflexivity. Qed.

(** ** chaining_validators *)
Definition absolute : shipped := by_pattern "(/[^/]+)+/.*\.[^/\.]+$".
Definition anything : shipped := by_pattern ".*".
Definition chained (m : open_mode) : shipped := ValidBoth absolute (ValidOutFile m ["sa"; "so"]).

Example chaining_validators :
  let go v args ty v0 e v1 := passes_on tmp0 args [v0] [opt_by 0 ty "s" v; parses e] [v1] in
  go (chained CreateNew) ["-s"; "/tmp/t/file.sa"] str (VStr "") Fine (VStr "/tmp/t/file.sa") &&
  go (chained CreateNew) ["-s"; "tmp/t/file.sa"] str (VStr "") (Throws KValidation) (VStr "tmp/t/file.sa") &&
  go (chained CreateNew) ["-s"; "/tmp/t/file.invalid"] str (VStr "") (Throws KValidation) (VStr "/tmp/t/file.invalid") &&
  go (ValidBoth (chained CreateNew) anything) ["-s"; "/tmp/t/file.sa"] str (VStr "") Fine (VStr "/tmp/t/file.sa") &&
  go (chained CreateNew) ["-s"; "/tmp/t/file.sa"] strs (vstrs []) Fine (vstrs ["/tmp/t/file.sa"]) &&
  only_option str (checked_by (ValidBoth (chained CreateNew) anything) (described "desc" (ids "s" "string-option"))) [VStr ""]
"    -s, --string-option (std::string)
          desc Default: """". Value must match the pattern
          '(/[^/]+)+/.*\.[^/\.]+$'. The output file must not exist already and
          write permissions must be granted. Valid file extensions are: [sa,
          so]. Value must match the pattern '.*'.
" &&
  only_option str (checked_by (ValidBoth (chained OpenOrCreate) anything) (described "desc" (ids "s" "string-option"))) [VStr ""]
"    -s, --string-option (std::string)
          desc Default: """". Value must match the pattern
          '(/[^/]+)+/.*\.[^/\.]+$'. Write permissions must be granted. Valid
          file extensions are: [sa, so]. Value must match the pattern '.*'.
" = true.
Proof. vm_compute. reflexivity. Qed.
