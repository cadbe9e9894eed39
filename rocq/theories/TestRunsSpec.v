(** Vocabulary for the test infrastructure (C104, C105). *)
From Verif Require Import Base TestRuns.

(** the statements of a test that are executed unless one of them ends the process *)
Fixpoint reached (l : list stmt) : list stmt :=
  match l with [] => [] | Abandons :: _ => [Abandons] | s :: l' => s :: reached l' end.

Definition calm (s : stmt) : Prop := match s with Quits _ | Crashes => False | _ => True end.
(** a death test holds if its process calls std::exit(EXIT_SUCCESS) *)
Definition holds (s : stmt) : Prop := s = Fine true \/ s = Exit_test (Leaves 0).

Definition calm_test (t : test) : Prop := Forall calm (reached (snd t)).
Definition good_test (t : test) : Prop := Forall holds (snd t).

(** the heads of the classes: [class A : public B] *)
Definition heads : list (class * class) :=
  [(std_runtime_error, std_exception); (std_logic_error, std_exception); (std_out_of_range, std_logic_error); (std_invalid_argument, std_logic_error);
   (std_filesystem_error, std_runtime_error); (parser_error, std_runtime_error); (unknown_option, parser_error); (too_many_arguments, parser_error);
   (too_few_arguments, parser_error); (required_option_missing, parser_error); (option_declared_multiple_times, parser_error);
   (user_input_error, parser_error); (validation_error, parser_error); (design_error, parser_error)].

(** the class is the other one, or derived from it *)
Inductive derived (b : class) : class -> Prop :=
| d_same : derived b b
| d_base c c' : In (c, c') heads -> derived b c' -> derived b c.

(** all documented exceptions of the library *)
Definition documented : list class :=
  [parser_error; unknown_option; too_many_arguments; too_few_arguments; required_option_missing; option_declared_multiple_times;
   user_input_error; validation_error; design_error].

(** texts without NUL *)
Definition no_nul (s : string) : Prop := forall a b, s <> a +s+ String zero b.
