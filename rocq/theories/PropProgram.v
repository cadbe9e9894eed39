(** Properties of whole runs: declarations, then parse(), with the pages and the version check of the library
    (C13, C20, C78, C79). *)
From Verif Require Import Base StrLib Fs Values Validators FormatParse Invocation ValuesSpec HelpSpec HelpExport VersionCheck Age VersionSpec ScanSpec ReadingSpec
  Samples Parser ParserSpec ParserProofs ParserPieces ParserReading ProgramSpec ProgramProofs ProgramBackend ProgramOutcomes.

(** ** Cases for the examples *)

Definition console : page_env :=
  {| pe_ndebug := false; pe_tty := false; pe_width := 80; pe_license := "licence"; pe_tdl := None; pe_path_tags := fun _ => [] |}.
Definition laptop : venv :=
  {| ve_ndebug := false; ve_os := Linux; ve_64 := true; ve_home := Some "/home/u"; ve_tmp := "/tmp"; ve_opt_out := false; ve_now := 1000000;
     ve_tty := false; ve_answer := ""; ve_system := fun _ => false; ve_recent := library_recent |}.
Definition drive : fs := fun k => if existsb (list_eqb k) [[]; ["tmp"]; ["home"]; ["home"; "u"]] then Some (NDir rw) else None.
Definition lib : backend := backend_of console laptop.
Definition start (args : list string) : world :=
  {| w_parser := construct 1 "app" ("./app" :: args) true []; w_vars := vars0; w_fs := drive |}.
Definition described (d : string) (c : config) : config :=
  {| c_short := c_short c; c_long := c_long c; c_desc := d; c_default_message := c_default_message c;
     c_advanced := c_advanced c; c_hidden := c_hidden c; c_required := c_required c; c_validator := c_validator c; c_vhelp := c_vhelp c |}.
Definition secret (c : config) : config :=
  {| c_short := c_short c; c_long := c_long c; c_desc := c_desc c; c_default_message := c_default_message c;
     c_advanced := c_advanced c; c_hidden := true; c_required := c_required c; c_validator := c_validator c; c_vhelp := c_vhelp c |}.

Definition contradictory : config :=
  {| c_short := "s"; c_long := "some"; c_desc := ""; c_default_message := "none";
     c_advanced := false; c_hidden := false; c_required := true; c_validator := default_validator; c_vhelp := "" |}.

(** an option, a flag, a declaration that is rejected (required, with a default message), a positional option *)
Definition program : list call :=
  [CAddOption 0 (Scalar int32) (described "A number." (cfg "i" "int")); CAddFlag 2 (described "All." (cfg "a" "all"));
   CAddOption 4 (Scalar TString) contradictory; CAddPositional 4 (Scalar TString) (described "A word." (cfg nul ""))].
Definition world_of (args : list string) : world := fst (run false lib program (start args)).
Definition log_of (args : list string) : list (call * res bool) := snd (run false lib program (start args)).

Lemma program_log args : map (fun e => okind_of (snd e)) (log_of args) = [ORet; ORet; OThrow KDesign; ORet] /\
  map fst (log_of args) = program.
Proof. split; reflexivity. Qed.
Lemma program_assembled args : assembled false lib (start args) (world_of args) (log_of args).
Proof.
  split; [exact (fresh_new 1 "app" _ true [] [])|]. split; [exists program; apply surjective_pairing|].
  intros c r H. assert (Hc : In c program) by (rewrite <- (proj2 (program_log args)); now apply (in_map fst) in H).
  destruct Hc as [<-|[<-|[<-|[<-|[]]]]]; (split; [discriminate|reflexivity]).
Qed.

Lemma program_accepted args : accepted (log_of args) =
  [DOption 0 (Scalar int32) (described "A number." (cfg "i" "int")); DFlag 2 (described "All." (cfg "a" "all"));
   DPositional 4 (Scalar TString) (described "A word." (cfg nul ""))].
Proof. reflexivity. Qed.

(** ** C20: every call ends; parse() ends in a documented way *)

Theorem C20_calls_terminate : forall nd pe ve c w, snd (step nd (backend_of pe ve) c w) <> OutOfFuel.
Proof. intros nd pe ve c. exact (calls_end nd _ c (backend_well pe ve)). Qed.
Print Assumptions C20_calls_terminate.

(** no call but parse() ends the program *)
Theorem C20_only_parse_exits : forall nd pe ve c w out, snd (step nd (backend_of pe ve) c w) = Exit out -> innermost c = CParse.
Proof. intros nd pe ve c. exact (exits_parse nd _ c (backend_well pe ve)). Qed.
Print Assumptions C20_only_parse_exits.

(** Full statement: without hypotheses on the declarations, the machine and the texts (refuted: C20, C46 and C62). *)
Theorem C20_parse_documented_partial : forall nd pe ve w0 w log a args,
  assembled nd (backend_of pe ve) w0 w log -> arguments (w_parser w0) = a :: args ->
  (forall d, In d (accepted log) -> sound_decl nd d) -> machine_ok ve (w_fs w) ->
  (forall fm, page_ok {| pr_format := fm; pr_info := info (w_parser w); pr_subcommands := subcommands (w_parser w); pr_dev := dev_decision (w_parser w);
                         pr_executable := executable_name (w_parser w0) ++ [a]; pr_ops := accepted_ops log; pr_vars := w_vars w |}) ->
  proper (okind_of (snd (step nd (backend_of pe ve) CParse w))).
Proof. exact parse_proper. Qed.
Print Assumptions C20_parse_documented_partial.

Example C20_parse_case : forall args, assembled false lib (start args) (world_of args) (log_of args) /\
  (forall d, In d (accepted (log_of args)) -> sound_decl false d) /\ machine_ok laptop (w_fs (world_of args)) /\
  (forall fm, page_ok {| pr_format := fm; pr_info := info (w_parser (world_of args)); pr_subcommands := subcommands (w_parser (world_of args));
                         pr_dev := dev_decision (w_parser (world_of args)); pr_executable := executable_name (w_parser (start args)) ++ ["./app"];
                         pr_ops := accepted_ops (log_of args); pr_vars := w_vars (world_of args) |}).
Proof.
  intros args. split; [apply program_assembled|]. split; [|split].
  - assert (B : behaved default_validator) by (intros f x; now left).
    intros d H. rewrite program_accepted in H. destruct H as [<-|[<-|[<-|[]]]]; try exact Logic.I; (split; [split; [discriminate|auto]|exact B]).
  - exists "/home/u". split; [reflexivity|]. split; [exists rw; reflexivity|]. right. split; reflexivity.
  - intros []; vm_compute; auto.
Qed.

(** the four ways of ending *)
Example C20_parse_ways :
  map (fun args => okind_of (snd (step false lib CParse (world_of args)))) [["-i"; "3"; "word"]; ["--help"]; ["-i"; "x"; "word"]; []] =
  [ORet; OExit; OThrow KUserInput; OExit].
Proof. vm_compute. reflexivity. Qed.

(** ** C78: the meaning of a run *)

(** parse() returns with these values exactly if the arguments after the program name fall into pieces without
    error, ask for no page, and those meant for the interface mean these values. *)
Theorem C78_reading : forall nd bk w0 w log a args vs' f',
  assembled nd bk w0 w log -> arguments (w_parser w0) = a :: args -> elems_ok (accepted log) ->
  (exists w1, step nd bk CParse w = (w1, Ret true) /\ (forall y, w_vars w1 y = vs' y) /\ w_fs w1 = f') <->
  run_understood nd bk (w_parser w) (accepted log) (options (w_parser w)) args (w_vars w) (w_fs w) vs' f'.
Proof. exact whole_reading. Qed.
Print Assumptions C78_reading.

(** the program ends with this output exactly if a page is asked for and this is the page *)
Theorem C78_page : forall nd bk w0 w log a args f1 out,
  assembled nd bk w0 w log -> arguments (w_parser w0) = a :: args -> no_early_exit bk ->
  (exists w1, step nd bk CParse w = (w1, Exit out) /\ w_vars w1 = w_vars w /\ w_fs w1 = f1) <->
  run_prints bk (w_parser w) (executable_name (w_parser w0) ++ [a]) (accepted_ops log) (options (w_parser w)) args (w_vars w) (w_fs w) f1 out.
Proof. exact whole_page. Qed.
Print Assumptions C78_page.

Theorem C78_library : forall pe ve, no_early_exit (backend_of pe ve).
Proof. exact backend_tame. Qed.
Print Assumptions C78_library.

(** If no declaration was rejected, the options known are those declared. *)
Theorem C78_announced : forall nd bk w0 w log, prepared nd bk w0 w log ->
  forall s, In s (options (w_parser w)) <-> In s (option_texts (accepted log)).
Proof. intros nd bk w0 w log P. destruct (prepared_ready nd bk w0 w log P) as [R _]. apply (rd_opts _ _ _ _ R). Qed.
Print Assumptions C78_announced.

(** a rejected option is still known: what follows it is taken as its value, here "--help" *)
Theorem C78_announced_refuted : exists w0 w log, assembled false lib w0 w log /\ In "-s" (options (w_parser w)) /\
  ~ In "-s" (option_texts (accepted log)) /\ arguments (w_parser w0) = ["./app"; "-s"; "--help"] /\
  okind_of (snd (step false lib CParse w)) = OThrow KUnknownOption.
Proof.
  exists (start ["-s"; "--help"]), (world_of ["-s"; "--help"]), (log_of ["-s"; "--help"]). split; [apply program_assembled|].
  split; [vm_compute; tauto|]. split; [vm_compute; intros H; decompose [or] H; discriminate || contradiction|]. split; [reflexivity|vm_compute; reflexivity].
Qed.
Print Assumptions C78_announced_refuted.

(** a flag, a word behind "--", a request for the version check in between; and a page *)
Example C78_reading_case : let args := ["-a"; "--"; "--version-check"; "0"; "word"] in
  arguments (w_parser (start args)) = "./app" :: args /\ elems_ok (accepted (log_of args)) /\
  exists vs f, map vs [0; 2; 4] = [VInt 1; VBool true; VStr "word"] /\
    run_understood false lib (w_parser (world_of args)) (accepted (log_of args)) (options (w_parser (world_of args))) args vars0 drive vs f.
Proof.
  cbn zeta. set (args := ["-a"; "--"; "--version-check"; "0"; "word"]). split; [reflexivity|].
  assert (E : elems_ok (accepted (log_of args))) by (rewrite program_accepted; intros t [<-|[<-|[]]]; exact Logic.I).
  split; [exact E|].
  exists (w_vars (fst (step false lib CParse (world_of args)))), (w_fs (fst (step false lib CParse (world_of args)))). split; [vm_compute; reflexivity|].
  apply (C78_reading false lib (start args) (world_of args) (log_of args) "./app" args); [apply program_assembled|reflexivity|exact E|].
  exists (fst (step false lib CParse (world_of args))). split; [|split; [intros y|]; reflexivity].
  rewrite (surjective_pairing (step false lib CParse (world_of args))) at 1. apply f_equal. vm_compute. reflexivity.
Qed.
Example C78_page_case : let args := ["word"; "-i"; "3"; "--version"] in
  exists f out, run_prints lib (w_parser (world_of args)) ["./app"] (accepted_ops (log_of args)) (options (w_parser (world_of args))) args vars0 drive f out /\
    String.prefix ("app" +s+ nl) out = true.
Proof.
  cbn zeta. set (args := ["word"; "-i"; "3"; "--version"]).
  assert (X : okind_of (snd (step false lib CParse (world_of args))) = OExit) by (vm_compute; reflexivity).
  destruct (step false lib CParse (world_of args)) as [w1 q] eqn:S. destruct q as [b|e|out| | |]; try discriminate X.
  exists (w_fs w1), out. split.
  - apply (C78_page false lib (start args) (world_of args) (log_of args) "./app" args); [apply program_assembled|reflexivity|apply C78_library|].
    exists w1. split; [exact S|]. split; [|reflexivity]. change (w_vars w1) with (w_vars (fst (w1, @Exit bool out))). rewrite <- S. reflexivity.
  - apply (f_equal snd) in S. vm_compute in S. injection S as <-. vm_compute. reflexivity.
Qed.

(** ** C13: the words behind "--" in a whole run *)

(** Full statement: for all words (refuted: C13_short_flag_refuted, C13_special_request_refuted).  Without special
    requests the words behind "--" are handed to the positional options verbatim; what the arguments in front of
    it do is the same for all words behind it. *)
Theorem C13_program_partial : forall nd bk ds b vs f1, wf_decls ds = true -> ~ In "--" b ->
  let at_end w0 w log a ws := assembled nd bk w0 w log /\ accepted log = ds /\ w_vars w = vs /\ arguments (w_parser w0) = a :: b ++ "--" :: ws /\
    good_name (m_app_name (info (w_parser w))) /\ subcommands (w_parser w) = [] /\ (forall t, In t (b ++ ws) -> ~ special t) /\ quiet ds ws /\
    bk_version_check bk (info (w_parser w)) (dev_decision (w_parser w)) None (w_fs w) = (f1, Ret tt) in
  (exists vs2 f2 q, q <> Ret true /\ forall w0 w log a ws, at_end w0 w log a ws ->
     let r := step nd bk CParse w in w_vars (fst r) = vs2 /\ w_fs (fst r) = f2 /\ snd r = q) \/
  (exists vs2 f2 ws0, forall w0 w log a ws, at_end w0 w log a ws ->
     let r := step nd bk CParse w in let e := s_positionals nd ds (ws0 ++ ws) {| s_vars := vs2; s_fs := f2 |} in
     w_vars (fst r) = s_vars (fst e) /\ w_fs (fst r) = s_fs (fst e) /\ okind_of (snd r) = okind_of (snd e)).
Proof. exact tail_run. Qed.
Print Assumptions C13_program_partial.

Example C13_program_case : let args := ["-a"; "--"; "--int"] in let w := world_of args in
  assembled false lib (start args) w (log_of args) /\ wf_decls (accepted (log_of args)) = true /\
  arguments (w_parser (start args)) = "./app" :: ["-a"] ++ "--" :: ["--int"] /\ quiet (accepted (log_of args)) ["--int"] /\
  subcommands (w_parser w) = [] /\ (forall t, In t (["-a"] ++ ["--int"]) -> ~ special t) /\
  snd (bk_version_check lib (info (w_parser w)) (dev_decision (w_parser w)) None (w_fs w)) = Ret tt /\
  map (w_vars (fst (step false lib CParse w))) [2; 4] = [VBool true; VStr "--int"].
Proof.
  cbn zeta. split; [apply program_assembled|]. split; [reflexivity|]. split; [reflexivity|]. split; [reflexivity|]. split; [reflexivity|].
  split; [|split; vm_compute; reflexivity].
  intros t Ht [[f Hf]|[E|[[v E]|E]]]; cbn in Ht; decompose [or] Ht; subst; try contradiction; try discriminate; cbn in Hf; intuition discriminate.
Qed.

(** ** C79: descriptions, advanced and hidden marks, and the mixing of kinds of declarations do not matter for parsing *)

Theorem C79_interface : forall nd ds ds' args vs f, same_interface ds ds' -> parse_args nd ds args vs f = parse_args nd ds' args vs f.
Proof. exact same_interface_args. Qed.
Print Assumptions C79_interface.

(** Two programs with the same interface: the same values and files, and the same result unless a page is printed. *)
Theorem C79_programs : forall nd bk w0 w log w0' w' log' a a' args ks,
  prepared nd bk w0 w log -> prepared nd bk w0' w' log' ->
  arguments (w_parser w0) = a :: args -> arguments (w_parser w0') = a' :: args ->
  same_interface (accepted log) (accepted log') -> subcommands (w_parser w) = subcommands (w_parser w') ->
  names_ok (w_parser w) -> names_ok (w_parser w') ->
  (forall user, bk_version_check bk (info (w_parser w)) (dev_decision (w_parser w)) user (w_fs w) =
                bk_version_check bk (info (w_parser w')) (dev_decision (w_parser w')) user (w_fs w')) ->
  w_vars w = w_vars w' -> w_fs w = w_fs w' ->
  pieces (option_texts (accepted log)) (subcommands (w_parser w)) args ks ->
  let r := step nd bk CParse w in let r' := step nd bk CParse w' in
  w_vars (fst r) = w_vars (fst r') /\ w_fs (fst r) = w_fs (fst r') /\
  (chosen ks = FParse \/ first_error (bk_tdl bk) (subcommands (w_parser w)) ks <> None -> snd r = snd r').
Proof. exact same_program. Qed.
Print Assumptions C79_programs.

(** other order, other descriptions, hidden *)
Definition program' : list call :=
  [CAddPositional 4 (Scalar TString) (cfg nul ""); CAddFlag 2 (secret (cfg "a" "all")); CAddLine "Text." true false;
   CAddOption 0 (Scalar int32) (described "Ein Wert." (cfg "i" "int"))].
Definition plain_program : list call :=
  [CAddOption 0 (Scalar int32) (described "A number." (cfg "i" "int")); CAddFlag 2 (described "All." (cfg "a" "all"));
   CAddPositional 4 (Scalar TString) (described "A word." (cfg nul ""))].

Example C79_case : forall args, let run p := run false lib p (start args) in
  prepared false lib (start args) (fst (run plain_program)) (snd (run plain_program)) /\
  prepared false lib (start args) (fst (run program')) (snd (run program')) /\
  same_interface (accepted (snd (run plain_program))) (accepted (snd (run program'))) /\
  accepted (snd (run plain_program)) <> accepted (snd (run program')).
Proof.
  intros args. cbn zeta.
  assert (P : forall p, (forall c, In c p -> c <> CParse /\ is_move c = false) -> snd (run false lib p (start args)) = map (fun c => (c, Ret true)) p ->
    prepared false lib (start args) (fst (run false lib p (start args))) (snd (run false lib p (start args)))).
  { intros p Hp E. split; [exact (fresh_new 1 "app" _ true [] [])|]. split; [exists p; apply surjective_pairing|].
    rewrite E. intros c r H. apply in_map_iff in H as (c1 & H & H1). injection H as -> <-. destruct (Hp _ H1). split; [assumption|]. split; [assumption|].
    now destruct c. }
  split; [|split; [|split]].
  - apply P; [|reflexivity]. intros c [<-|[<-|[<-|[]]]]; split; discriminate || reflexivity.
  - apply P; [|reflexivity]. intros c [<-|[<-|[<-|[<-|[]]]]]; split; discriminate || reflexivity.
  - repeat split; repeat constructor.
  - intros H. discriminate H.
Qed.

(** Validators do matter, and so does the order of the options: the first one in trouble is blamed. *)
Example C79_order_matters : let d1 := DOption 0 (Scalar int32) (cfg "i" "") in let d2 := DOption 6 (Scalar int32) (cfg "j" "") in
  ~ same_interface [d1; d2] [d2; d1] /\
  snd (parse_args true [d1; d2] ["-i"; "x"; "-j"; "y"] vars0 no_fs) <> snd (parse_args true [d2; d1] ["-i"; "x"; "-j"; "y"] vars0 no_fs).
Proof.
  cbn zeta. split.
  - intros (H & _ & _). inversion H as [|? ? ? ? H1 _]; subst. destruct H1 as [H1 _]. discriminate H1.
  - vm_compute. discriminate.
Qed.
