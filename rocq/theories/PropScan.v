(** Properties of arbitrary argument vectors (C09, C10, C11, C12, C13, C16, C17, C19, C20, C54). *)
From Verif Require Import Base StrLib Fs Values Validators FormatParse Invocation ValuesSpec ScanSpec ScanProofs ScanFlags ScanOutcomes Samples.

(** ** C09: options that are not mentioned keep their value *)

(** the parse is the one of the interface without the option: nothing happens to its variable, its
    validator does not run *)
Theorem C09_unmentioned_option : forall ndebug d1 x t c d2 args b r vs f,
  cut args b r -> ~ option_mentioned c b -> c_required c = false ->
  parse_args ndebug (d1 ++ DOption x t c :: d2) args vs f = parse_args ndebug (d1 ++ d2) args vs f.
Proof. exact unmentioned_lemma. Qed.
Print Assumptions C09_unmentioned_option.

Theorem C09_unbound_variables : forall ndebug decls args vs f y,
  ~ In y (map bound_addr decls) -> vars (fst (parse_args ndebug decls args vs f)) y = vs y.
Proof. exact parse_frame. Qed.
Print Assumptions C09_unbound_variables.

Example C09_case :
  let args := ["-i"; "7"; "-x"; "--"; "--listing"; "-l"; "3"] in
  cut args ["-i"; "7"; "-x"] ["--"; "--listing"; "-l"; "3"] /\
  ~ option_mentioned (cfg "l" "list") ["-i"; "7"; "-x"] /\
  vars (fst (parse_args false sample args vars0 no_fs)) 1 = vars0 1 /\ vars (fst (parse_args false sample args vars0 no_fs)) 0 = VInt 7.
Proof.
  split; [|split; [|split; reflexivity]].
  - split; [reflexivity|]. split; [|right; eauto]. cbn. intuition discriminate.
  - intros (a & i & Ha & Hi & Hl). destruct Ha as [<-|[<-|[<-|[]]]]; destruct Hi as [<-|[<-|[]]]; discriminate Hl.
Qed.

(** ** C10, for every argument vector *)

Theorem C10_required_mentioned : forall ndebug decls args b r vs f x t c, cut args b r ->
  snd (parse_args ndebug decls args vs f) = Ret tt -> In (DOption x t c) decls -> c_required c = true -> option_mentioned c b.
Proof. exact required_mentioned. Qed.
Print Assumptions C10_required_mentioned.

Example C10_arbitrary_case :
  let decls := [DOption 4 (Scalar TString) (cfg "s" ""); DOption 0 (Scalar int32) (required (cfg "i" "int"))] in
  map (fun args => okind_of (snd (parse_args false decls args vars0 no_fs))) [["-s"; "-i"; "-i8"]; ["-s"; "-i8"]; []] =
  [ORet; OThrow KRequiredMissing; OThrow KRequiredMissing].
Proof. reflexivity. Qed.

(** ** C11: unknown options are rejected *)

(** Full statement: without the last but one hypothesis (refuted below). *)
Theorem C11_unknown_rejected_partial : forall ndebug decls args b r vs f l1 a l2,
  wf_decls decls = true -> cut args b r -> b = l1 ++ a :: l2 ->
  (forall i, In i (flat_map option_idents decls) -> looks_like i a = false) -> ~ may_be_value (flat_map option_idents decls) l1 ->
  begins "-" a = true -> a <> "-" -> scontains nul a = false ->
  starts_with "--" a = true \/ scontains "-" (sdrop 1 a) = false ->
  ~ made_of_flags (flat_map flag_idents decls) a ->
  snd (parse_args ndebug decls args vs f) <> Ret tt.
Proof. exact unknown_word_lemma. Qed.
Print Assumptions C11_unknown_rejected_partial.

Example C11_hypotheses : let a := "-ax" in
  cut ["-i"; "5"; a; "w"; "v"] ["-i"; "5"; a; "w"; "v"] [] /\ wf_decls sample = true /\
  (forall i, In i (flat_map option_idents sample) -> looks_like i a = false) /\ ~ may_be_value (flat_map option_idents sample) ["-i"; "5"] /\
  ~ made_of_flags (flat_map flag_idents sample) a /\
  okind_of (snd (parse_args false sample ["-i"; "5"; a; "w"; "v"] vars0 no_fs)) = OThrow KUnknownOption.
Proof.
  cbn zeta. repeat split; auto.
  - cbn. intuition discriminate.
  - intros i [<-|[<-|[<-|[<-|[]]]]]; reflexivity.
  - intros (l & i & E & Hi). change ["-i"; "5"] with (["-i"] ++ ["5"]) in E. apply app_inj_tail in E as [_ E].
    destruct Hi as [<-|[<-|[<-|[<-|[]]]]]; discriminate E.
  - intros [(s & E & _)|(cs & E & _ & H)]; [discriminate|]. injection E as <-.
    destruct (H "x"%char) as [K|[K|[K|[K|[]]]]]; try discriminate K. cbn. auto.
Qed.

(** -x-foo with flags -x and --foo is accepted like -x --foo *)
Theorem C11_dash_in_cluster_refuted : exists decls a vs f,
  wf_decls decls = true /\ a = "-x-foo" /\ flat_map option_idents decls = [] /\ ~ made_of_flags (flat_map flag_idents decls) a /\
  forall ndebug, snd (parse_args ndebug decls [a] vs f) = Ret tt /\
    vars (fst (parse_args ndebug decls [a] vs f)) 2 = VBool true /\ vars (fst (parse_args ndebug decls [a] vs f)) 3 = VBool true.
Proof.
  exists [DFlag 2 (cfg "x" ""); DFlag 3 (cfg "f" "foo")], "-x-foo", vars0, no_fs.
  split; [reflexivity|]. split; [reflexivity|]. split; [reflexivity|]. split.
  - intros [(s & E & _)|(cs & E & _ & H)]; [discriminate|]. injection E as <-.
    destruct (H "-"%char) as [K|[K|[K|[]]]]; try discriminate K. cbn. auto.
  - intros []; vm_compute; auto.
Qed.
Print Assumptions C11_dash_in_cluster_refuted.

(** -x- with flags -x and -y, none with a long name, sets both flags: what is left of it is "--", and
    the second flag looks for "--" followed by its long name *)
Theorem C11_trailing_dash_refuted : exists decls a vs f,
  wf_decls decls = true /\ a = "-x-" /\ decls = [DFlag 2 (cfg "x" ""); DFlag 3 (cfg "y" "")] /\ ~ made_of_flags (flat_map flag_idents decls) a /\
  forall ndebug, snd (parse_args ndebug decls [a] vs f) = Ret tt /\
    vars (fst (parse_args ndebug decls [a] vs f)) 2 = VBool true /\ vars (fst (parse_args ndebug decls [a] vs f)) 3 = VBool true.
Proof.
  eexists _, "-x-", vars0, no_fs.
  split; [|split; [reflexivity|split; [reflexivity|split]]]; [reflexivity| |].
  - intros [(s & E & _)|(cs & E & _ & H)]; [discriminate|]. injection E as <-.
    destruct (H "-"%char) as [K|[K|[]]]; try discriminate K. cbn. auto.
  - intros []; vm_compute; auto.
Qed.
Print Assumptions C11_trailing_dash_refuted.

(** ** C12: every argument is accounted for *)

Theorem C12_everything_consumed : forall ndebug decls args vs f,
  list_last (pos_types decls) = true -> snd (parse_args ndebug decls args vs f) = Ret tt ->
  exists ws, accounted decls args ws /\ List.length (pos_types decls) <= List.length ws /\
    (forallb (fun t => negb (is_container t)) (pos_types decls) = true -> List.length ws = List.length (pos_types decls)).
Proof. exact accounted_lemma. Qed.
Print Assumptions C12_everything_consumed.

Example C12_case : list_last (pos_types sample) = true /\
  snd (parse_args false sample ["-i"; "5"; "--brief"; "w"; "-a"; "v"; "--"; "--brief"] vars0 no_fs) = Ret tt /\
  snd (parse_args false (firstn 5 sample) ["-i"; "5"; "w"] vars0 no_fs) = Ret tt.
Proof. auto. Qed.

(** ** C13: everything after "--" is positional *)

(** Full statement: for all words (refuted below).  [quiet]: no empty word and no word that looks like
    a cluster containing a declared short flag.  Up to the "--" the words behind it do not matter;
    then they are handed to the positional options verbatim. *)
Theorem C13_tail_verbatim_partial : forall ndebug decls b vs f, wf_decls decls = true -> ~ In "--" b ->
  (exists vs1 f1 q, q <> Ret tt /\ forall ws, quiet decls ws ->
     vars (fst (parse_args ndebug decls (b ++ "--" :: ws) vs f)) = vs1 /\ fsys (fst (parse_args ndebug decls (b ++ "--" :: ws) vs f)) = f1 /\
     snd (parse_args ndebug decls (b ++ "--" :: ws) vs f) = q) \/
  (exists vs1 f1 ws0, forall ws, quiet decls ws ->
     agrees (parse_args ndebug decls (b ++ "--" :: ws) vs f) (s_positionals ndebug decls (ws0 ++ ws) {| s_vars := vs1; s_fs := f1 |})).
Proof. exact tail_lemma. Qed.
Print Assumptions C13_tail_verbatim_partial.

Example C13_case : quiet sample ["-i"; "--"; "--list=4"; "-"] /\
  let p := parse_args false sample ["-ab"; "w"; "--"; "-i"; "--"; "--list=4"; "-"] vars0 no_fs in
  snd p = Ret tt /\ map (vars (fst p)) [0; 1; 4; 5] =
    [VInt 1; VList [VInt 7; VInt 8]; VStr "w"; VList [VStr "-i"; VStr "--"; VStr "--list=4"; VStr "-"]].
Proof. vm_compute. auto. Qed.

(** a short flag is taken out of the words behind "--" *)
Theorem C13_short_flag_refuted : exists decls args vs f, wf_decls decls = true /\ args = ["--"; "-strange"] /\
  forall ndebug, snd (parse_args ndebug decls args vs f) = Ret tt /\
    vars (fst (parse_args ndebug decls args vs f)) 2 = VBool true /\
    vars (fst (parse_args ndebug decls args vs f)) 4 = VStr "-trange".
Proof.
  exists [DFlag 2 (cfg "s" "sort"); DPositional 4 (Scalar TString) (cfg nul "")], ["--"; "-strange"], vars0, no_fs.
  split; [reflexivity|]. split; [reflexivity|]. intros []; vm_compute; auto.
Qed.
Print Assumptions C13_short_flag_refuted.

(** "--" is never the value of an option: the option in front of it misses its value *)
Example C13_option_before : forall ndebug,
  snd (parse_args ndebug [DOption 4 (Scalar TString) (cfg "o" "out"); DPositional 5 (ListOf TString) (cfg nul "")]
         ["-o"; "--"; "x"] vars0 no_fs) = Throw (Exn KTooFew "Missing value for option -o").
Proof. intros []; reflexivity. Qed.

(** ** C16: the number of words decides *)

(** if the options are in order, no flag is unknown, and every word converts and satisfies the validators *)
Theorem C16_word_count : forall ndebug decls inv vs f s1, wf_decls decls = true -> wf_invocation decls inv = true ->
  mapM_ (s_option ndebug (items inv)) decls {| s_vars := vs; s_fs := f |} = (s1, Ret tt) -> unknown decls (items inv) = false ->
  (forall x t c old w, In (DPositional x t c) decls -> In w (words inv) -> tolerant (c_validator c) /\ exists v, parse_option_value t old w = POk v PSuccess) ->
  okind_of (snd (parse_args ndebug decls (render inv) vs f)) = by_count (pos_types decls) (List.length (words inv)).
Proof. exact word_count_lemma. Qed.
Print Assumptions C16_word_count.

Definition three_words (n : nat) : invocation :=
  {| items := IOpt (IdShort "i") Joined "5" :: map IWord (firstn n ["x"; "y"; "z"; "u"]); tail := None |}.
Example C16_count_hypotheses : forall x t c old w, In (DPositional x t c) sample -> In w (words (three_words 4)) ->
  tolerant (c_validator c) /\ exists v, parse_option_value t old w = POk v PSuccess.
Proof.
  intros x t c old w H _. destruct H as [H|[H|[H|[H|[H|[H|[]]]]]]]; try discriminate; injection H as <- <- <-.
  - split; [intros f v; reflexivity|]. eexists. reflexivity.
  - split; [intros f v; reflexivity|]. eexists. reflexivity.
Qed.
Example C16_count_case :
  map (fun n => okind_of (snd (parse_args false sample (render (three_words n)) vars0 no_fs))) [0; 1; 2; 3] =
    [OThrow KTooFew; OThrow KTooFew; ORet; ORet] /\
  map (fun n => okind_of (snd (parse_args false (firstn 5 sample) (render (three_words n)) vars0 no_fs))) [0; 1; 2; 3] =
    [OThrow KTooFew; ORet; OThrow KTooMany; OThrow KTooMany].
Proof. vm_compute. auto. Qed.

(** ** C17: empty positional arguments *)

Theorem C17_empty_word_refuted : exists decls args vs f, wf_decls decls = true /\ args = [""] /\
  decls = [DPositional 4 (Scalar TString) (cfg nul "")] /\
  forall ndebug, okind_of (snd (parse_args ndebug decls args vs f)) = OThrow KTooFew.
Proof.
  exists [DPositional 4 (Scalar TString) (cfg nul "")], [""], vars0, no_fs.
  split; [reflexivity|]. split; [reflexivity|]. split; [reflexivity|]. intros []; vm_compute; auto.
Qed.
Print Assumptions C17_empty_word_refuted.

(** What happens instead: empty words are as good as absent. *)
Theorem C17_empty_words_ignored : forall ndebug decls args vs f, forallb is_positional decls = true -> list_last (pos_types decls) = true ->
  same_run (parse_args ndebug decls args vs f) (parse_args ndebug decls (filter nonempty args) vs f).
Proof. exact empty_ignored. Qed.
Print Assumptions C17_empty_words_ignored.

Example C17_case : let decls := skipn 4 sample in forallb is_positional decls = true /\ list_last (pos_types decls) = true /\
  vars (fst (parse_args false decls [""; "a"; ""; "b"; ""; "--"; ""; "-c"] vars0 no_fs)) 5 = VList [VStr "b"; VStr "-c"].
Proof. vm_compute. auto. Qed.

(** ** C19: validators *)

(** The validators that ran are those of the given options and of the positional options: once each, in
    this order, on the final values (a validator may change the file system, so running another one,
    or one twice, would be noticed). *)
Theorem C19_validated : forall ndebug decls inv vs f, wf_decls decls = true -> wf_invocation decls inv = true -> NoDup (map bound_addr decls) ->
  okind_of (snd (parse_args ndebug decls (render inv) vs f)) = ORet ->
  run_checks (vars (fst (parse_args ndebug decls (render inv) vs f))) (checks decls inv) f =
    (fsys (fst (parse_args ndebug decls (render inv) vs f)), VOk).
Proof. exact validated_lemma. Qed.
Print Assumptions C19_validated.

(** For every argument vector: a validation_error names the declaration whose validator threw, and
    carries its message. *)
Theorem C19_message : forall ndebug decls args vs f st' msg, list_last (pos_types decls) = true ->
  parse_args ndebug decls args vs f = (st', Throw (Exn KValidation msg)) -> blamed decls (vars st') (fsys st') msg.
Proof. exact validation_message. Qed.
Print Assumptions C19_message.

(** a validator that counts its runs in a file *)
Definition counting : validator := fun f x =>
  (upd f ["runs"] (Some (NFile (match f ["runs"] with Some (NFile s _) => s +s+ "*" | _ => "*" end) rw)),
   match x with VInt z => if (z <? 5)%Z then VOk else VThrow "too big" | _ => VOk end).
Definition checked : list decl :=
  [DOption 0 (Scalar int32) (validated (arithmetic_range_validator true 32 0 5) (cfg "i" "int"));
   DOption 6 (Scalar int32) (validated counting (cfg "j" ""));
   DPositional 7 (Scalar int32) (validated (arithmetic_range_validator true 32 0 5) (cfg nul ""))].
Example C19_case :
  map (fun args => snd (parse_args false checked args vars0 no_fs)) [["-i3"; "4"]; ["--int=9"; "4"]; ["-j"; "5"; "4"]; ["-j4"; "-i0"; "6"]] =
  [Ret tt; Throw (Exn KValidation "Validation failed for option -i/--int: Value 9 is not in range [0,5].");
   Throw (Exn KValidation "Validation failed for option -j: too big");
   Throw (Exn KValidation "Validation failed for positional option 1: Value 6 is not in range [0,5].")] /\
  fsys (fst (parse_args false checked ["-i3"; "4"] vars0 no_fs)) ["runs"] = None /\
  fsys (fst (parse_args false checked ["-j3"; "4"] vars0 no_fs)) ["runs"] = Some (NFile "*" rw).
Proof. vm_compute. auto. Qed.

(** Full statement: the number in the message is the position of the option.  For a list positional
    option the number is one more than the number of words. *)
Theorem C19_list_positional_number_refuted : exists decls args vs f,
  args = ["1"; "2"; "9"] /\ (exists c, decls = [DPositional 1 (ListOf int32) c]) /\
  forall ndebug, snd (parse_args ndebug decls args vs f) =
    Throw (Exn KValidation "Validation failed for positional option 4: Value 9 is not in range [0,5].").
Proof.
  exists [DPositional 1 (ListOf int32) (validated (arithmetic_range_validator true 32 0 5) (cfg nul ""))], ["1"; "2"; "9"], vars0, no_fs.
  split; [reflexivity|]. split; [eexists; reflexivity|]. intros []; vm_compute; reflexivity.
Qed.
Print Assumptions C19_list_positional_number_refuted.

(** ** C20: parse() always ends in a documented way *)

(** the scanner terminates: the loop bound of the model is never reached, whatever the arguments *)
Theorem C20_scan_terminates : forall ndebug decls args vs f, snd (parse_args ndebug decls args vs f) <> OutOfFuel.
Proof. exact terminates_lemma. Qed.
Print Assumptions C20_scan_terminates.

(** Full statement: without hypotheses (refuted below).  [sound_decl]: enumerations have names, no list of
    numbers in builds without NDEBUG, validators return or throw. *)
Theorem C20_scan_documented_partial : forall ndebug decls args vs f,
  (forall d, In d decls -> sound_decl ndebug d) -> ndebug = true \/ list_last (pos_types decls) = true ->
  documented (okind_of (snd (parse_args ndebug decls args vs f))).
Proof. exact documented_lemma. Qed.
Print Assumptions C20_scan_documented_partial.

Theorem C20_shipped_validators_behave :
  behaved default_validator /\
  (forall sg bits mn mx, behaved (arithmetic_range_validator sg bits mn mx)) /\
  (forall e values, behaved (value_list_validator e values)) /\
  (forall p rx, behaved (regex_validator p rx)) /\
  behaved (input_file_validator []) /\
  behaved input_directory_validator /\
  (forall mode, behaved (output_file_validator true mode [])) /\
  behaved (output_directory_validator true) /\
  (forall v1 v2, behaved v1 -> behaved v2 -> behaved (chain v1 v2)).
Proof. exact shipped_behaved_lemma. Qed.
Print Assumptions C20_shipped_validators_behave.

Example C20_case : (forall d, In d sample -> sound_decl true d) /\
  map (fun args => okind_of (snd (parse_args true sample args vars0 no_fs)))
    [["-i"; "5"; "w"; "v"]; ["-i="]; ["-a-"]; ["--"]; ["-l"; "-l"]; ["-"; "-"; "--"; "--"]] =
  [ORet; OThrow KTooFew; OThrow KUnknownOption; OThrow KTooFew; OThrow KUserInput; ORet].
Proof.
  split; [|vm_compute; reflexivity].
  intros d [<-|[<-|[<-|[<-|[<-|[<-|[]]]]]]]; cbn; auto; (split; [split; [discriminate|now left]|now left]).
Qed.

Theorem C20_list_overflow_refuted : exists decls args vs f, wf_decls decls = true /\ args = ["-l"; "256"] /\
  decls = [DOption 1 (ListOf uint8) (cfg "l" "list")] /\ snd (parse_args false decls args vs f) = AssertFail.
Proof.
  exists [DOption 1 (ListOf uint8) (cfg "l" "list")], ["-l"; "256"], vars0, no_fs.
  split; [reflexivity|]. split; [reflexivity|]. split; [reflexivity|]. vm_compute. reflexivity.
Qed.
Print Assumptions C20_list_overflow_refuted.

Theorem C20_empty_enum_refuted : exists decls args vs f, wf_decls decls = true /\ args = ["-e"; "x"] /\
  decls = [DOption 0 (Scalar (TEnum "foo" [])) (cfg "e" "")] /\
  forall ndebug, okind_of (snd (parse_args ndebug decls args vs f)) = OThrow KStdOutOfRange.
Proof.
  exists [DOption 0 (Scalar (TEnum "foo" [])) (cfg "e" "")], ["-e"; "x"], vars0, no_fs.
  split; [reflexivity|]. split; [reflexivity|]. split; [reflexivity|]. intros []; vm_compute; reflexivity.
Qed.
Print Assumptions C20_empty_enum_refuted.

(** ** C54: the message for an unknown cluster *)

(** Full statement: "-a, -b and -c".  What is printed lacks the blank before "and". *)
Theorem C54_cluster_text_partial : forall cs c, cs <> [] ->
  expand_multiple_flags (String "-" (of_chars (cs ++ [c]))) = Ret (dash_join cs +s+ "and -" +s+ str1 c).
Proof. exact expand_exact. Qed.
Print Assumptions C54_cluster_text_partial.

Theorem C54_cluster_text_refuted : exists decls args vs f, args = ["-abc"] /\ forall ndebug,
  snd (parse_args ndebug decls args vs f) = Throw (Exn KUnknownOption ("Unknown flags -a, -band -c. In case this is meant to be a " +s+
    "non-option/argument/parameter, please specify the start of arguments with '--'. See -h/--help for program information.")).
Proof. exists [], ["-abc"], vars0, no_fs. split; [reflexivity|]. intros []; vm_compute; reflexivity. Qed.
Print Assumptions C54_cluster_text_refuted.

Example C54_case : expand_multiple_flags "-abcd" = Ret "-a, -b, -cand -d" /\ of_chars (["a"; "b"; "c"] ++ ["d"])%char = "abcd".
Proof. auto. Qed.
