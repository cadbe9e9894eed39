(** The parts of the test infrastructure that decide what a run of a test program reports: early_exit_guardian and get_parse_cout_on_exit
    (test/include/sharg/test/test_fixture.hpp), EXPECT_THROW_MSG (test/include/sharg/test/expect_throw_msg.hpp) and the exception classes
    (include/sharg/exceptions.hpp).

    Simplifications: googletest calls SetUp of the environment, the tests, TearDown, once each; it catches exceptions of a test; the text
    googletest prints itself is left out, except for the failures EXPECT_THROW_MSG writes. *)
From Verif Require Import Base.

(** ** early_exit_guardian *)

(** what the process of a death test (test_fixture.hpp 85) does: the statement returns or throws (googletest ends the process with _exit(1): no destructors),
    calls std::exit, or is ended by a signal *)
Inductive child := Comes_back | Leaves (code : Z) | Dies.

(** one statement of a test: an expectation, one that ends the test (ASSERT_*, or an exception), std::exit, a signal, or
    get_parse_cout_on_exit *)
Inductive stmt := Fine (ok : bool) | Abandons | Quits (code : Z) | Crashes | Exit_test (c : child).

(** how a process ends; [told]: what the guardian writes to std::cerr; [again]: std::exit was called by the destructor of a static object *)
Inductive ending := Ended (code : Z) (told : string) (again : bool) | Signalled | Assertion.

Definition exit_success : Z := 0.
Definition exit_failure : Z := 1.

(** test_fixture.hpp 197-213 (get_current_test_name); [None]: no test is running *)
Definition test_text (current : option (string * string)) : string :=
  match current with Some (suite, test) => suite +s+ "." +s+ test | None => "" end.

(** ~early_exit_guardian and check_all_tests_ran, test_fixture.hpp 136-140, 182-193; [code]: the status so far *)
Definition at_exit (active : bool) (current : option (string * string)) (code : Z) : ending :=
  if negb active then Ended code "" false
  else Ended exit_failure (nl +s+ "Not all test cases were run!" +s+ nl +s+ "The following test unexpectedly terminated the execution:" +s+ nl +s+
                           test_text current +s+ nl) true.

(** the process of the death test of get_parse_cout_on_exit: a copy of this one *)
Definition run_child (active : bool) (current : option (string * string)) (c : child) : ending :=
  match c with
  | Comes_back => Ended 1 "" false
  | Leaves code => at_exit active current code
  | Dies => Signalled
  end.

(** testing::ExitedWithCode(EXIT_SUCCESS), test_fixture.hpp 85 *)
Definition exited_with_success (e : ending) : bool := match e with Ended code _ _ => Z.eqb code exit_success | _ => false end.

(** get_parse_cout_on_exit, test_fixture.hpp 78-88, with toggle_guardian (243-246): the flag afterwards, and whether EXPECT_EXIT holds *)
Definition exit_test (active : bool) (current : option (string * string)) (c : child) : bool * bool :=
  let active1 := negb active in
  let ok := exited_with_success (run_child active1 current c) in
  (negb active1, ok).

(** the statements of a test: the flag and whether the test succeeded, or the end of the process *)
Fixpoint run_test (active : bool) (current : string * string) (l : list stmt) (ok : bool) : (bool * bool) + ending :=
  match l with
  | [] => inl (active, ok)
  | Fine b :: l' => run_test active current l' (ok && b)
  | Abandons :: _ => inl (active, false)
  | Quits code :: _ => inr (at_exit active (Some current) code)
  | Crashes :: _ => inr Signalled
  | Exit_test c :: l' => let '(active', b) := exit_test active (Some current) c in run_test active' current l' (ok && b)
  end.

Definition test := (string * string * list stmt)%type.

Fixpoint run_tests (active : bool) (l : list test) (ok : bool) : (bool * bool) + ending :=
  match l with
  | [] => inl (active, ok)
  | (current, body) :: l' =>
      match run_test active current body true with
      | inl (active', b) => run_tests active' l' (ok && b)
      | inr e => inr e
      end
  end.

(** the program: test_environment::SetUp and activate (227-231, 156-160), the tests, TearDown and deactivate (233-237, 162-166),
    main returns what RUN_ALL_TESTS returns *)
Definition run_program (ndebug : bool) (l : list test) : ending :=
  let active := false in
  if negb ndebug && active then Assertion else
  match run_tests true l true with
  | inr e => e
  | inl (active1, ok) =>
      if negb ndebug && negb active1 then Assertion
      else at_exit false None (if ok then exit_success else exit_failure)
  end.

(** ** EXPECT_THROW_MSG *)

(** exceptions.hpp 39-217 and the classes of the standard library above and beside them *)
Inductive class :=
| std_exception | std_runtime_error | std_logic_error | std_out_of_range | std_invalid_argument | std_filesystem_error
| parser_error | unknown_option | too_many_arguments | too_few_arguments | required_option_missing | option_declared_multiple_times
| user_input_error | validation_error | design_error.

Definition base (c : class) : option class :=
  match c with
  | std_exception => None
  | std_runtime_error | std_logic_error => Some std_exception
  | std_out_of_range | std_invalid_argument => Some std_logic_error
  | std_filesystem_error | parser_error => Some std_runtime_error
  | _ => Some parser_error
  end.

Definition class_eqb (a b : class) : bool :=
  match a, b with
  | std_exception, std_exception | std_runtime_error, std_runtime_error | std_logic_error, std_logic_error | std_out_of_range, std_out_of_range
  | std_invalid_argument, std_invalid_argument | std_filesystem_error, std_filesystem_error | parser_error, parser_error | unknown_option, unknown_option
  | too_many_arguments, too_many_arguments | too_few_arguments, too_few_arguments | required_option_missing, required_option_missing
  | option_declared_multiple_times, option_declared_multiple_times | user_input_error, user_input_error | validation_error, validation_error
  | design_error, design_error => true
  | _, _ => false
  end.

(** a handler for references to [handler] catches objects of class [c]; the chain of bases is at most three long *)
Fixpoint caught (fuel : nat) (handler c : class) : bool :=
  class_eqb handler c ||
  match fuel, base c with
  | S fuel', Some b => caught fuel' handler b
  | _, _ => false
  end.

(** the class of an exception of the model *)
Definition class_of (k : exn_kind) : class :=
  match k with
  | KUnknownOption => unknown_option | KTooMany => too_many_arguments | KTooFew => too_few_arguments | KRequiredMissing => required_option_missing
  | KMultiple => option_declared_multiple_times | KUserInput => user_input_error | KValidation => validation_error | KDesign => design_error
  | KStdOutOfRange => std_out_of_range | KStdOther => std_exception
  end.

(** what a statement does: nothing, it throws an object of a class above (the text given to the constructor), or something else *)
Inductive threw := No_throw | Threw (c : class) (text : string) | Threw_unknown.

(** a C string ends at the first NUL: what() *)
Fixpoint c_string (s : string) : string :=
  match s with
  | EmptyString => EmptyString
  | String c s' => if Ascii.eqb c zero then EmptyString else String c (c_string s')
  end.

Section Macro.
Variable type_text : class -> string.             (* GetTypeName(typeid(exception)) *)
Variable class_text : class -> string.            (* #expected_exception *)
Variable compared : string -> string -> string.   (* what EqHelper::Compare says about two texts that differ *)

(** expect_throw_msg.hpp 17-53; [statement]: #statement.  The failures it reports *)
Definition expect_throw_msg (statement : string) (expected : class) (message : string) (t : threw) : list string :=
  match t with
  | No_throw => ["Expected: " +s+ statement +s+ " throws an exception of type " +s+ class_text expected +s+ "." +s+ nl +s+ "  Actual: it throws nothing."]
  | Threw c text =>
      if caught 3 expected c then
        if String.eqb message (c_string text) then []
        else [statement +s+ " throws the correct exception, but the description is incorrect." +s+ nl +s+ compared message (c_string text)]
      else ["Expected: " +s+ statement +s+ " throws an exception of type " +s+ class_text expected +s+ "." +s+ nl +s+ "  Actual: it throws " +s+ type_text c +s+
            " with description """ +s+ c_string text +s+ """."]
  | Threw_unknown => ["Expected: " +s+ statement +s+ " throws an exception of type " +s+ class_text expected +s+ "." +s+ nl +s+
                      "  Actual: it throws an unknown exception."]
  end.
End Macro.
