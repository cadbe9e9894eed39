(** Vocabulary for programs with subcommands of subcommands. *)
From Verif Require Import Base Fs Values Validators FormatParse Invocation ScanSpec Parser ParserSpec ProgramSpec.

(** the program works on the parser, parses, and goes on with the sub-parser; one list of calls for each level *)
Fixpoint nested (css : list (list call)) : list call :=
  match css with [] => [] | cs :: css' => cs ++ CParse :: map CSub (nested css') end.

(** the sub-parser of the sub-parser ... *)
Fixpoint inner (n : nat) (p : parser) : option parser :=
  match n with
  | O => Some p
  | S n' => match sub_parser p with Some q => inner n' q | None => None end
  end.

Definition goes_on (r : res bool) : Prop := match r with Ret _ | Throw _ => True | _ => False end.

(** a parser made for a subcommand: it is called "name-subcommand", it gets the arguments from the subcommand on, it
    knows how the program was called, and it does no version check of its own *)
Definition made_for (p : parser) (exe : list string) (s : string) (more : list string) : parser :=
  set_executable_name exe (construct 0 (m_app_name (info p) +s+ "-" +s+ s) (s :: more) false []).

(** [descends css w0 ways wn]: level by level; a pair in [ways] for each level: the arguments in front of the
    subcommand, and the subcommand.  In [wn] the innermost parser begins its work. *)
Inductive descends (ndebug : bool) (bk : backend) : list (list call) -> world -> list (list string * string) -> world -> Prop :=
| arrived w : fresh (w_parser w) -> descends ndebug bk [] w [] w
| descend cs css w0 w log a front s more ks w1 r ways wn :
    fresh (w_parser w0) -> run ndebug bk cs w0 = (w, log) -> unparsed log -> (forall c q, In (c, q) log -> goes_on q) ->
    arguments (w_parser w0) = a :: front ++ s :: more -> names_ok (w_parser w) ->
    pieces (options (w_parser w)) (subcommands (w_parser w)) (front ++ s :: more) (ks ++ [KSub s more]) ->
    first_error (bk_tdl bk) (subcommands (w_parser w)) (ks ++ [KSub s more]) = None ->
    step ndebug bk CParse w = (w1, r) -> goes_on r ->
    descends ndebug bk css {| w_parser := made_for (w_parser w) (executable_name (w_parser w0) ++ [a]) s more; w_vars := w_vars w1; w_fs := w_fs w1 |} ways wn ->
    descends ndebug bk (cs :: css) w0 ((front, s) :: ways) wn.

(** the name of a parser reached by subcommands *)
Definition full_name (name : string) (subs : list string) : string := String.concat "-" (name :: subs).

(** the program does not change the parser's information about itself *)
Definition keeps_info (css : list (list call)) : Prop := forall cs c m, In cs css -> In c cs -> c <> CInfo m.
