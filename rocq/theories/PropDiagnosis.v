(** Error messages of the scanner, for arbitrary argument vectors (C72, C73). *)
From Verif Require Import Base StrLib Fs Values Validators FormatParse Invocation ValuesSpec ScanSpec DiagnosisSpec DiagnosisProofs Samples.

(** ** C72: what an error says is the case *)

Theorem C72_justified : forall ndebug decls args vs f st' k msg, wf_decls decls = true ->
  (forall x t c, In (DOption x t c) decls -> config_idents c <> [] /\ enum_ok (elem_ty t)) ->
  (forall x t c, In (DPositional x t c) decls -> enum_ok (elem_ty t)) ->
  parse_args ndebug decls args vs f = (st', Throw (Exn k msg)) -> justified decls args (vars st') (fsys st') k msg.
Proof. exact justified_lemma. Qed.
Print Assumptions C72_justified.

(** the hypotheses hold of the sample, and errors of each kind occur *)
Example C72_case : wf_decls sample = true /\
  (forall x t c, In (DOption x t c) sample -> config_idents c <> [] /\ enum_ok (elem_ty t)) /\
  (forall x t c, In (DPositional x t c) sample -> enum_ok (elem_ty t)) /\
  map (fun args => match snd (parse_args false sample args vars0 no_fs) with Throw e => Some (ekind e, emsg e) | _ => None end)
    [["-i"; "5"; "w"; "--int=6"]; ["-i"]; ["-i5"]; ["-i"; "5"; "-abz"; "w"]; ["-i"; "5x"; "w"]; ["w"; "-i"; "2147483648"]] =
  [Some (KMultiple, "Option -i/--int is no list/container but specified multiple times");
   Some (KTooFew, "Missing value for option -i");
   Some (KTooFew, "Not enough positional arguments provided (Need at least 2). See -h/--help for more information.");
   Some (KUnknownOption, "Unknown option -z. In case this is meant to be a non-option/argument/parameter, please specify the start of non-options with '--'. See -h/--help for program information.");
   Some (KUserInput, "Value parse failed for -i: Argument 5x could not be parsed as type signed 32 bit integer.");
   Some (KUserInput, "Value parse failed for -i: Numeric argument 2147483648 is not in the valid range [-2147483648,2147483647].")].
Proof.
  split; [reflexivity|]. split; [|split; [|vm_compute; reflexivity]].
  all: intros x t c H; repeat (destruct H as [H|H]; [try discriminate H; injection H as <- <- <-|]); try destruct H; try split; try discriminate; cbn; auto.
Qed.

(** Full statement: what is called unknown is not declared.  A flag given twice, or by both of its
    names, is called unknown. *)
Theorem C72_repeated_flag_refuted : exists decls vs f, wf_decls decls = true /\ flat_map flag_idents decls = [IdShort "v"; IdLong "verbose"] /\
  forall ndebug args a, In (args, a) [(["-v"; "-v"], "-v"); (["-v"; "--verbose"], "--verbose"); (["--verbose"; "--"; "-v"], "--verbose")] ->
    exists m, snd (parse_args ndebug decls args vs f) = Throw (Exn KUnknownOption ("Unknown option " +s+ a +s+ m)).
Proof.
  exists [DFlag 0 (cfg "v" "verbose")], vars0, no_fs. split; [reflexivity|]. split; [reflexivity|].
  intros [] args a [H|[H|[H|[]]]]; injection H as <- <-; vm_compute; eexists; reflexivity.
Qed.
Print Assumptions C72_repeated_flag_refuted.

(** ** C73: the number of positional words *)

(** [ws] are the words left for the positional options (C12): at least those that can be nothing else *)
Theorem C73_word_count : forall decls args b r ws, wf_decls decls = true -> cut args b r -> accounted decls args ws ->
  List.length (sure_words (flat_map option_idents decls) "" b) + List.length (sure_tail (List.tl r)) <= List.length ws /\
  List.length ws <= List.length (possible_words b) + List.length (filter (fun a => negb (is_empty a)) (List.tl r)).
Proof. exact accounted_bounds. Qed.
Print Assumptions C73_word_count.

Theorem C73_too_many : forall ndebug decls args b r vs f msg, wf_decls decls = true -> cut args b r ->
  (forall x t c, In (DOption x t c) decls -> config_idents c <> [] /\ enum_ok (elem_ty t)) ->
  (forall x t c, In (DPositional x t c) decls -> enum_ok (elem_ty t)) ->
  snd (parse_args ndebug decls args vs f) = Throw (Exn KTooMany msg) ->
  List.length (pos_types decls) < List.length (possible_words b) + List.length (filter (fun a => negb (is_empty a)) (List.tl r)) /\
  forallb (fun t => negb (is_container t)) (pos_types decls) = true.
Proof. exact too_many_lemma. Qed.
Print Assumptions C73_too_many.

Theorem C73_too_few : forall ndebug decls args b r vs f msg, wf_decls decls = true -> cut args b r ->
  (forall x t c, In (DOption x t c) decls -> config_idents c <> [] /\ enum_ok (elem_ty t)) ->
  (forall x t c, In (DPositional x t c) decls -> enum_ok (elem_ty t)) ->
  snd (parse_args ndebug decls args vs f) = Throw (Exn KTooFew msg) ->
  (exists i, In i (flat_map option_idents decls) /\ lacks_value i b /\ msg = "Missing value for option " +s+ dashed i) \/
  List.length (sure_words (flat_map option_idents decls) "" b) + List.length (sure_tail (List.tl r)) < List.length (pos_types decls).
Proof. exact too_few_lemma. Qed.
Print Assumptions C73_too_few.

(** conversely, success means that the numbers agree *)
Theorem C73_success : forall ndebug decls args b r vs f, wf_decls decls = true -> cut args b r ->
  snd (parse_args ndebug decls args vs f) = Ret tt ->
  List.length (pos_types decls) <= List.length (possible_words b) + List.length (filter (fun a => negb (is_empty a)) (List.tl r)) /\
  (forallb (fun t => negb (is_container t)) (pos_types decls) = true ->
     List.length (sure_words (flat_map option_idents decls) "" b) + List.length (sure_tail (List.tl r)) <= List.length (pos_types decls)).
Proof. exact success_count. Qed.
Print Assumptions C73_success.

Example C73_case :
  let decls := [DOption 0 (Scalar int32) (cfg "i" "int"); DPositional 4 (Scalar TString) (cfg nul ""); DPositional 5 (Scalar TString) (cfg nul "")] in
  let args := ["-i"; "5"; "w"; ""; "v"; "--"; "--x"] in
  wf_decls decls = true /\ cut args ["-i"; "5"; "w"; ""; "v"] ["--"; "--x"] /\
  (forall x t c, In (DOption x t c) decls -> config_idents c <> [] /\ enum_ok (elem_ty t)) /\
  (forall x t c, In (DPositional x t c) decls -> enum_ok (elem_ty t)) /\
  sure_words (flat_map option_idents decls) "" ["-i"; "5"; "w"; ""; "v"] = ["w"; "v"] /\ sure_tail ["--x"] = ["--x"] /\
  possible_words ["-i"; "5"; "w"; ""; "v"] = ["5"; "w"; "v"] /\
  okind_of (snd (parse_args false decls args vars0 no_fs)) = OThrow KTooMany /\
  okind_of (snd (parse_args false decls ["-i"; "5"; "w"; ""; "--"; "--x"] vars0 no_fs)) = ORet /\
  okind_of (snd (parse_args false decls ["-i"; "5"; "w"; ""; "--"] vars0 no_fs)) = OThrow KTooFew.
Proof.
  cbn zeta. split; [reflexivity|]. split; [split; [reflexivity|split; [cbn; intuition discriminate|right; eauto]]|].
  split; [|split; [|vm_compute; auto 10]].
  all: intros x t c H; repeat (destruct H as [H|H]; [try discriminate H; injection H as <- <- <-|]); try destruct H; try split; try discriminate; cbn; auto.
Qed.
