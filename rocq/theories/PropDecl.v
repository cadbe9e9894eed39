(** Properties of the declaration phase (C92). *)
From Verif Require Import Base StrLib Fs Values Validators FormatParse Invocation ScanSpec Samples
  Parser ParserSpec ParserProofs PropParser DeclSpec DeclProofs.

(** ** C92: every declaration in order is accepted, every other one is rejected with the reason *)

(** Any program, also with calls of parse(), moves, and rejected declarations in between: the next call is accepted if no
    objection applies, and is otherwise rejected with the first one. *)
Theorem C92_verdict : forall ndebug bk w0 w log cs c, fresh (w_parser w0) -> run ndebug bk cs w0 = (w, log) -> shapes c = true ->
  exists m, first_of (objections (history log) (subcommands (w_parser w0) ++ ever_added log) (accepted log) (w_vars w) c) m /\
    snd (step ndebug bk c w) = verdict m.
Proof. exact verdict_lemma. Qed.
Print Assumptions C92_verdict.

(** the first objection is determined *)
Theorem C92_one_reason : forall l m m', first_of l m -> first_of l m' -> m = m'.
Proof. exact first_of_unique. Qed.
Print Assumptions C92_one_reason.

(** in particular, an interface without clashes can be declared *)
Theorem C92_in_order : forall ndebug bk w0 ds, fresh (w_parser w0) -> subcommands (w_parser w0) = [] ->
  forallb good_ident (flat_map decl_idents ds) = true -> NoDup (decl_names ds) -> (forall n, In n (decl_names ds) -> ~ In n reserved) ->
  list_last (pos_types ds) = true -> Forall (plain_decl (w_vars w0)) ds ->
  snd (run ndebug bk (map call_of ds) w0) = map (fun d => (call_of d, Ret true)) ds.
Proof. exact in_order_lemma. Qed.
Print Assumptions C92_in_order.

(** which texts parse() takes for options *)
Theorem C92_announced : forall ndebug bk w0 w log cs t, fresh (w_parser w0) -> run ndebug bk cs w0 = (w, log) ->
  In t (options (w_parser w)) <-> announced (history log) t.
Proof. exact announced_lemma. Qed.
Print Assumptions C92_announced.

(** ** Cases *)

Definition said (log : list (call * res bool)) : list string :=
  map (fun e => match snd e with Ret _ => "accepted" | Throw x => emsg x | _ => "" end) log.

(** a long name is not taken if its short name was objected to; it is, if it was itself objected to only later *)
Example C92_case : let cs := [CAddFlag 2 (cfg "a" "all"); CAddFlag 3 (cfg "a" "any"); CAddFlag 3 (cfg "n" "any");
                              CAddOption 4 (Scalar TString) (required (messaged "none" (cfg "f" "foo"))); CAddOption 4 (Scalar TString) (cfg nul "foo");
                              CAddFlag 3 (cfg "-" ""); CAddFlag 3 (cfg nul ""); CAddFlag 3 (cfg nul "h"); CAddFlag 3 (cfg nul "hh"); CAddFlag 3 (cfg nul "-x");
                              CAddFlag 3 (cfg "z" "a b"); CAddFlag 3 (cfg "z" ""); CAddFlag 3 (cfg "@" "_@-")] in
  let w := app [] in fresh (w_parser w) /\
  said (snd (run false bk0 cs w)) =
    ["accepted"; "Short identifier 'a' was already used before."; "accepted"; "A required option cannot have a default message.";
     "Long identifier 'foo' was already used before."; "Short identifiers may only contain alphanumeric characters, '_', or '@'.";
     "Short and long identifiers may not both be empty."; "Long identifiers must be either empty or longer than one character.";
     "Long identifier 'hh' was already used before."; "Long identifiers may not use '-' as first character.";
     "Long identifiers may only contain alphanumeric characters, '_', '-', or '@'."; "Short identifier 'z' was already used before."; "accepted"] /\
  options (w_parser (fst (run false bk0 cs w))) = ["--foo"; "-f"].
Proof. cbn zeta. split; [exact (fresh_new 1 "app" _ false [] [])|]. split; vm_compute; reflexivity. Qed.

Example C92_positional_case : let p m := CAddPositional 4 (Scalar TString) (messaged m (cfg nul "")) in
  let cs := [CAddPositional 4 (Scalar TString) (cfg "p" ""); p "none"; p ""; CAddPositional 5 (ListOf TString) (cfg nul ""); p ""; CAddSubcommands ["build"]; p ""; CParse; p ""] in
  said (snd (run false bk0 cs (app ["build"]))) =
    ["Positional options are identified by their position on the command line. Short or long ids are not permitted!";
     "A positional option may not have a default message because it is always required."; "accepted"; "accepted";
     "You added a positional option with a list value before so you cannot add any other positional options."; "accepted";
     "You may only specify flags and options for the top-level parser."; "Not enough positional arguments provided (Need at least 2). See -h/--help for more information.";
     "add_positional_option may only be used before calling parse()."].
Proof. vm_compute. reflexivity. Qed.

Example C92_in_order_case : let ds := flat_map call_decl four ++ [DPositional 4 (Scalar TString) (cfg nul ""); DPositional 5 (ListOf TString) (cfg nul "")] in
  let w := app ["word"] in fresh (w_parser w) /\ subcommands (w_parser w) = [] /\ forallb good_ident (flat_map decl_idents ds) = true /\ NoDup (decl_names ds) /\
  (forall n, In n (decl_names ds) -> ~ In n reserved) /\ list_last (pos_types ds) = true /\ Forall (plain_decl (w_vars w)) ds.
Proof.
  cbn zeta. split; [exact (fresh_new 1 "app" _ false [] [])|]. split; [reflexivity|]. split; [reflexivity|].
  split; [vm_compute; repeat constructor; cbn; intuition discriminate|]. split; [vm_compute; intuition congruence|]. split; [reflexivity|].
  repeat constructor; cbn; try discriminate; left; discriminate.
Qed.
