(** Properties of the test infrastructure: early_exit_guardian (C104) and EXPECT_THROW_MSG (C105). *)
From Verif Require Import Base StrLib TestRuns TestRunsSpec TestRunsProofs.

(** ** C104 *)

(** If no test ends the process, the guardian says nothing, std::exit is not called by a destructor, and the status is success exactly if all
    expectations hold *)
Theorem C104_complete : forall nd l, Forall calm_test l -> exists code, run_program nd l = Ended code "" false /\ (code = 0%Z <-> Forall good_test l).
Proof. exact complete_lemma. Qed.
Print Assumptions C104_complete.

(** If a test calls std::exit, whatever the status and whatever comes later: failure, and the test is named *)
Theorem C104_early : forall nd before suite name l1 code l2 after, Forall calm_test before -> Forall calm l1 -> ~ In Abandons l1 ->
  run_program nd (before ++ (suite, name, l1 ++ Quits code :: l2) :: after) =
    Ended 1 (nl +s+ "Not all test cases were run!" +s+ nl +s+ "The following test unexpectedly terminated the execution:" +s+ nl +s+ suite +s+ "." +s+ name +s+ nl) true.
Proof. exact early_lemma. Qed.
Print Assumptions C104_early.

(** A program whose status is success has run all its tests, and everything holds *)
Theorem C104_success : forall nd l told again, run_program nd l = Ended 0 told again -> Forall good_test l /\ told = "" /\ again = false.
Proof. exact success_lemma. Qed.
Print Assumptions C104_success.

(** The assertions of the guardian hold *)
Theorem C104_assertions : forall nd l, run_program nd l <> Assertion.
Proof. exact no_assertion. Qed.
Print Assumptions C104_assertions.

Definition sample : list test :=
  [("help_page", "no_information", [Exit_test (Leaves 0); Fine true]); ("help_page", "title", [Fine true; Exit_test (Leaves 0); Exit_test (Leaves 0)])].
Definition with_failure : list test := sample ++ [("parse", "throws", [Abandons; Quits 0]); ("parse", "back", [Exit_test Comes_back])].
Definition with_exit : list test := with_failure ++ [("parse", "exits", [Exit_test (Leaves 0); Quits 0; Fine true]); ("parse", "last", [Fine false])].

Example C104_case : Forall calm_test sample /\ run_program false sample = Ended 0 "" false /\
  Forall calm_test with_failure /\ run_program false with_failure = Ended 1 "" false /\
  run_program false with_exit =
    Ended 1 (nl +s+ "Not all test cases were run!" +s+ nl +s+ "The following test unexpectedly terminated the execution:" +s+ nl +s+ "parse.exits" +s+ nl) true.
Proof. unfold calm_test. split; [repeat constructor|]. split; [vm_compute; reflexivity|]. split; [repeat constructor|]. split; vm_compute; reflexivity. Qed.

(** The property "a test program has no undefined behaviour" is false: in the case the guardian is made for, it calls std::exit in the
    destructor of a static object (C++20 [basic.start.main] 4) *)
Theorem C104_defined_refuted : exists nd l code told, run_program nd l = Ended code told true.
Proof. exists false, with_exit. eexists _, _. vm_compute. reflexivity. Qed.
Print Assumptions C104_defined_refuted.

(** ** C105 *)

(** The expectation holds exactly if the statement throws an object of the class, or of one derived from it, whose what() is the text *)
Theorem C105_holds : forall ty cl cmp st h m t,
  expect_throw_msg ty cl cmp st h m t = [] <-> exists c text, t = Threw c text /\ derived h c /\ c_string text = m.
Proof. exact macro_lemma. Qed.
Print Assumptions C105_holds.

(** what() is the text up to the first NUL *)
Theorem C105_what : forall s, (no_nul s -> c_string s = s) /\ (forall a b, no_nul a -> s = a +s+ String zero b -> c_string s = a).
Proof. exact c_string_lemma. Qed.
Print Assumptions C105_what.

(** at most one failure is reported *)
Theorem C105_once : forall ty cl cmp st h m t, length (expect_throw_msg ty cl cmp st h m t) <= 1.
Proof. exact macro_once. Qed.
Print Assumptions C105_once.

(** The documented exceptions are those that a handler for parser_error catches *)
Theorem C105_documented : forall c, In c documented <-> derived parser_error c.
Proof. exact documented_lemma. Qed.
Print Assumptions C105_documented.
Theorem C105_kinds : forall k, derived parser_error (class_of k) <-> is_parser_error k = true.
Proof. exact kinds_iff. Qed.
Print Assumptions C105_kinds.

Definition plain_text (c : class) : string := "class".
Example C105_case : expect_throw_msg plain_text plain_text (fun _ _ => "") "parser.parse()" unknown_option "Unknown option -x." (Threw unknown_option "Unknown option -x.") = [] /\
  expect_throw_msg plain_text plain_text (fun _ _ => "") "parser.parse()" parser_error "Unknown option -x." (Threw unknown_option "Unknown option -x.") = [] /\
  expect_throw_msg plain_text plain_text (fun _ _ => "differ") "parser.parse()" parser_error "Unknown option -y." (Threw unknown_option "Unknown option -x.") =
    ["parser.parse() throws the correct exception, but the description is incorrect." +s+ nl +s+ "differ"] /\
  expect_throw_msg plain_text (fun _ => "sharg::design_error") (fun _ _ => "") "parser.parse()" design_error "" No_throw =
    ["Expected: parser.parse() throws an exception of type sharg::design_error." +s+ nl +s+ "  Actual: it throws nothing."] /\
  expect_throw_msg (fun _ => "sharg::unknown_option") (fun _ => "sharg::design_error") (fun _ _ => "") "parser.parse()" design_error "" (Threw unknown_option "Unknown") =
    ["Expected: parser.parse() throws an exception of type sharg::design_error." +s+ nl +s+ "  Actual: it throws sharg::unknown_option with description ""Unknown""."] /\
  expect_throw_msg plain_text (fun _ => "sharg::design_error") (fun _ _ => "") "parser.parse()" design_error "" Threw_unknown =
    ["Expected: parser.parse() throws an exception of type sharg::design_error." +s+ nl +s+ "  Actual: it throws an unknown exception."].
Proof. repeat split. Qed.

(** The property "the expectation holds only if the text of the exception is the expected one" is false: NUL ends what(), so the rest of the
    message is not looked at *)
Theorem C105_message_refuted : exists ty cl cmp st h m text, expect_throw_msg ty cl cmp st h m (Threw unknown_option text) = [] /\ text <> m.
Proof.
  exists plain_text, plain_text, (fun _ _ => ""), "parser.parse()", unknown_option, "Unknown option -", ("Unknown option -" +s+ String zero "x.").
  split; [vm_compute; reflexivity|discriminate].
Qed.
Print Assumptions C105_message_refuted.
