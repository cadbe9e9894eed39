(** What a refused argument vector has done (C53, C80). *)
From Verif Require Import Base StrLib Fs Values Validators FormatParse Invocation ValuesSpec ScanSpec DiagnosisSpec ReadingSpec Samples
  Parser ParserSpec ParserReading ProgramSpec ProgramProofs FailureSpec FailureParse FailureLaws PropProgram.

(** ** C80: a vector is refused, with an error of this kind and these values left behind, exactly if it goes wrong that way *)

Theorem C80_meaning : forall ndebug decls args vs f k vs' f', wf_decls decls = true -> elems_ok decls ->
  refused ndebug decls args vs f k vs' f' <->
  exists st' ex, parse_args ndebug decls args vs f = (st', Throw ex) /\ ekind ex = k /\ (forall y, vars st' y = vs' y) /\ fsys st' = f'.
Proof. exact refused_iff. Qed.
Print Assumptions C80_meaning.

(** there is one first error, and none in a vector that has a meaning *)
Theorem C80_unique : forall ndebug decls args vs f k1 vs1 f1 k2 vs2 f2, wf_decls decls = true -> elems_ok decls ->
  refused ndebug decls args vs f k1 vs1 f1 -> refused ndebug decls args vs f k2 vs2 f2 -> k1 = k2 /\ (forall y, vs1 y = vs2 y) /\ f1 = f2.
Proof. exact refused_unique. Qed.
Print Assumptions C80_unique.

Theorem C80_exclusive : forall ndebug decls args vs f k vs1 f1 vs2 f2, wf_decls decls = true -> elems_ok decls ->
  refused ndebug decls args vs f k vs1 f1 -> understood ndebug decls args vs f vs2 f2 -> False.
Proof. exact refused_not_understood. Qed.
Print Assumptions C80_exclusive.

(** every vector has a meaning or an error *)
Theorem C80_decided : forall ndebug decls args vs f, wf_decls decls = true -> elems_ok decls -> (forall d, In d decls -> sound_decl ndebug d) ->
  (exists vs' f', understood ndebug decls args vs f vs' f') \/
  (exists k vs' f', refused ndebug decls args vs f k vs' f' /\ is_parser_error k = true).
Proof. exact understood_or_refused. Qed.
Print Assumptions C80_decided.

(** Full statement: without the hypothesis on the declarations.  Refuted: a number outside the range given to a list
    stops a build with assertions. *)
Theorem C80_decided_refuted : exists decls args, wf_decls decls = true /\ elems_ok decls /\
  (forall vs' f', ~ understood false decls args vars0 no_fs vs' f') /\ (forall k vs' f', ~ refused false decls args vars0 no_fs k vs' f').
Proof.
  exists [DOption 1 (ListOf int32) (cfg "l" "list")], ["-l"; "99999999999"]. split; [reflexivity|].
  assert (Ok : elems_ok [DOption 1 (ListOf int32) (cfg "l" "list")]) by (intros t [<-|[]]; exact Logic.I). split; [exact Ok|].
  assert (E : snd (parse_args false [DOption 1 (ListOf int32) (cfg "l" "list")] ["-l"; "99999999999"] vars0 no_fs) = AssertFail) by (vm_compute; reflexivity).
  split.
  - intros vs' f' H. apply ReadingProofs.meaning_lemma in H as (st & H & _); [|reflexivity|exact Ok]. rewrite H in E. discriminate.
  - intros k vs' f' H. apply refused_iff in H as (st & ex & H & _); [|reflexivity|exact Ok]. rewrite H in E. discriminate.
Qed.
Print Assumptions C80_decided_refuted.

(** which errors there are, and which variables they leave alone *)
Theorem C80_kinds : forall ndebug decls args vs f k vs' f', refused ndebug decls args vs f k vs' f' ->
  In k [KTooFew; KUserInput; KMultiple; KValidation; KRequiredMissing; KUnknownOption; KTooMany].
Proof. exact refused_kinds. Qed.
Print Assumptions C80_kinds.

Theorem C80_untouched : forall ndebug decls args vs f k vs' f', refused ndebug decls args vs f k vs' f' ->
  (k = KRequiredMissing \/ k = KMultiple -> forall y, no_option_var decls y -> vs' y = vs y) /\
  (k = KUnknownOption -> forall y, no_option_var decls y -> no_flag_var decls y -> vs' y = vs y) /\
  (forall y, no_option_var decls y -> no_flag_var decls y -> no_word_var decls y -> vs' y = vs y).
Proof. exact untouched_lemma. Qed.
Print Assumptions C80_untouched.

(** Errors of every kind on the sample, with the values left behind: half a number is stored; the list is emptied and
    partly filled; flags are set before an unknown option is noticed; options are stored before a word is missing. *)
Example C80_case : wf_decls sample = true /\ elems_ok sample /\
  map (fun args => match parse_args false sample args vars0 no_fs with
                   | (st, Throw e) => Some (ekind e, map (vars st) [0; 1; 2; 3; 4; 5]) | _ => None end)
    [["-a"; "-i"; "2abc"; "w"]; ["-i3"; "-l"; "1"; "-l"; "2"; "-l"; "x"]; ["-a"; "-i3"; "-c"; "w"]; ["-i"; "3"; "-b"];
     ["-i3"; "-i4"; "-a"]; ["-i3"; "--int=4"]; ["-b"; "-l5"; "-l"]] =
  [Some (KUserInput, [VInt 2; VList [VInt 7; VInt 8]; VBool false; VBool false; VStr "old"; VList [VStr "rest"]]);
   Some (KUserInput, [VInt 3; VList [VInt 1; VInt 2]; VBool false; VBool false; VStr "old"; VList [VStr "rest"]]);
   Some (KUnknownOption, [VInt 3; VList [VInt 7; VInt 8]; VBool true; VBool false; VStr "old"; VList [VStr "rest"]]);
   Some (KTooFew, [VInt 3; VList [VInt 7; VInt 8]; VBool false; VBool true; VStr "old"; VList [VStr "rest"]]);
   Some (KMultiple, [VInt 3; VList [VInt 7; VInt 8]; VBool false; VBool false; VStr "old"; VList [VStr "rest"]]);
   Some (KMultiple, [VInt 4; VList [VInt 7; VInt 8]; VBool false; VBool false; VStr "old"; VList [VStr "rest"]]);
   Some (KTooFew, [VInt 1; VList [VInt 5]; VBool false; VBool false; VStr "old"; VList [VStr "rest"]])].
Proof.
  split; [reflexivity|]. split; [|vm_compute; reflexivity].
  intros t H. repeat (destruct H as [<-|H]; [exact Logic.I|]). destruct H.
Qed.
Example C80_refused_case : exists vs', refused false sample ["-a"; "-i"; "2abc"; "w"] vars0 no_fs KUserInput vs' no_fs /\ vs' 0 = VInt 2 /\ vs' 2 = VBool false.
Proof.
  exists (set_var vars0 0 (VInt 2)). split; [|split; reflexivity].
  apply C80_meaning; [reflexivity|intros t H; repeat (destruct H as [<-|H]; [exact Logic.I|]); destruct H|].
  destruct (parse_args false sample ["-a"; "-i"; "2abc"; "w"] vars0 no_fs) as [st r] eqn:E. pose proof (f_equal snd E) as Er. vm_compute in Er.
  destruct r as [[]|ex|o| | |]; try discriminate Er. exists st, ex. split; [reflexivity|]. injection Er as <-. split; [reflexivity|].
  apply (f_equal fst) in E. cbn [fst] in E. rewrite <- E. split; [intros y; do 7 (destruct y as [|y]; [vm_compute; reflexivity|]); vm_compute; reflexivity|vm_compute; reflexivity].
Qed.

(** ** C80: whole runs *)

(** parse() throws an error of this kind, leaving these values and files behind, exactly if the run goes wrong that way *)
Theorem C80_program : forall nd bk w0 w log a args k vs' f',
  assembled nd bk w0 w log -> arguments (w_parser w0) = a :: args -> elems_ok (accepted log) ->
  (exists w1 e, step nd bk CParse w = (w1, Throw e) /\ ekind e = k /\ (forall y, w_vars w1 y = vs' y) /\ w_fs w1 = f') <->
  run_refused nd bk (w_parser w) (executable_name (w_parser w0) ++ [a]) (accepted_ops log) (accepted log) (options (w_parser w)) args (w_vars w) (w_fs w) k vs' f'.
Proof. exact whole_refused. Qed.
Print Assumptions C80_program.

(** the program of PropProgram.v; the second vector is refused before any value is read *)
Example C80_program_case : forall args, assembled false lib (start args) (world_of args) (log_of args) /\
  arguments (w_parser (start args)) = "./app" :: args /\ elems_ok (accepted (log_of args)).
Proof.
  intros args. split; [apply program_assembled|]. split; [reflexivity|]. rewrite program_accepted. intros t [<-|[<-|[]]]; exact Logic.I.
Qed.
Example C80_program_outcomes :
  map (fun args => match step false lib CParse (world_of args) with (w1, Throw e) => Some (ekind e, map (w_vars w1) [0; 2; 4]) | _ => None end)
    [["-a"; "-i"; "2abc"; "w"]; ["-i"; "2"; "w"; "--export-help"; "x"]; ["-i"; "2"; "w"; "--version-check"; "x"]; ["-i"; "2"; "-a"]] =
  [Some (KUserInput, [VInt 2; VBool false; VStr "old"]); Some (KValidation, [VInt 1; VBool false; VStr "old"]);
   Some (KValidation, [VInt 1; VBool false; VStr "old"]); Some (KTooFew, [VInt 2; VBool true; VStr "old"])].
Proof. vm_compute. reflexivity. Qed.

(** ** C53: what a value that cannot be converted leaves in the variable, for all types *)

Theorem C53_exact : forall ndebug x e c i s vs f new, wf_decls [DOption x (Scalar e) c] = true -> In i (config_idents c) -> s <> "" -> enum_ok e ->
  (okind_of (snd (parse_args ndebug [DOption x (Scalar e) c] (one_arg i s) vs f)) = OThrow KUserInput /\
   vars (fst (parse_args ndebug [DOption x (Scalar e) c] (one_arg i s) vs f)) x = new) <-> ruined e (vs x) s new.
Proof. exact one_option_ruined. Qed.
Print Assumptions C53_exact.

(** half a number, a number too large, no number; a path with a blank in it, a quoted path with something behind it *)
Example C53_exact_case :
  ruined int32 (VInt 1) "2abc" (VInt 2) /\ ruined uint8 (VInt 1) "256" (VInt 1) /\ ruined TBool (VBool true) "yes" (VBool true) /\
  ruined TPath (VPath "old") "a b" (VPath "a") /\ ruined TPath (VPath "old") """a b""c" (VPath "a b").
Proof.
  assert (G : forall e w old new, enum_ok e -> FailureValues.fails_with e old w new -> ruined e old w new) by (intros e w old new H; now apply FailureValues.elem_fails).
  refine (conj _ (conj _ (conj _ (conj _ _)))); (apply G; [exact Logic.I|vm_compute; reflexivity]).
Qed.
