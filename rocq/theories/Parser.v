(** The class [sharg::parser]: include/sharg/parser.hpp, function by function, and
    [parser_meta_data] of include/sharg/auxiliary.hpp 47-109.

    The pages printed on special requests (help, version, exports) and the version check are
    parameters of this file, collected in the record [backend]; they are modelled in other files.

    Simplifications:
    - [std::unordered_set] is a list without regard to order;
    - the lambdas stored in [operations] are represented by what they capture: the address of the
      parser ([this]) and the arguments of the add_* call; a parser object has an address [self], and
      moving the object changes it;
    - [version_check_future] and the destructor (it waits up to three seconds) are not modelled. *)
From Verif Require Import Base Fs Values Validators FormatParse.

(** auxiliary.hpp 47-109 *)
Record meta := {
  m_app_name : string; m_version : string; m_short_description : string; m_author : string; m_email : string;
  m_date : string; m_url : string; m_short_copyright : string; m_long_copyright : string; m_citation : string;
  m_man_page_title : string; m_man_page_section : N;
  m_description : list string; m_synopsis : list string; m_examples : list string }.

(** what the constructor leaves, 181-190; the default of man_page_section is 1 *)
Definition meta_of (name : string) : meta :=
  {| m_app_name := name; m_version := ""; m_short_description := ""; m_author := ""; m_email := ""; m_date := "";
     m_url := ""; m_short_copyright := ""; m_long_copyright := ""; m_citation := ""; m_man_page_title := "";
     m_man_page_section := 1; m_description := []; m_synopsis := []; m_examples := [] |}.

(** 753-761, [std::variant<format_parse, format_help, ...>]; the sub-command list and the developer
    decision given to some constructors are members of the parser that do not change afterwards *)
Inductive format :=
| FParse
| FHelp (advanced : bool)
| FShortHelp
| FVersion
| FHtml
| FMan
| FTdl (cwl : bool)
| FCopyright.

(** elements of [operations], 778-779 *)
Inductive op :=
| OpDecl (d : decl)
| OpSection (title : string) (advanced_only : bool)
| OpSubsection (title : string) (advanced_only : bool)
| OpLine (text : string) (is_paragraph advanced_only : bool)
| OpListItem (key desc : string) (advanced_only : bool).

(** The data members, 713-779.  [self]: address of this object; [gone]: former addresses of this object
    at which there is no parser any more. *)
Inductive parser := MkParser {
  self : nat;
  gone : list nat;
  info : meta;
  parse_was_called : bool;
  has_positional_list_option : bool;
  dev_decision : bool;                  (* version_check_dev_decision == update_notifications::on *)
  user_decision : option bool;          (* version_check_user_decision *)
  sub_parser : option parser;
  subcommands : list string;
  fmt : format;
  used_ids : list string;
  format_arguments : list string;
  arguments : list string;
  executable_name : list string;
  options : list string;
  operations : list (nat * op) }.

Definition set_self (i : nat) (g : list nat) (p : parser) : parser :=
  MkParser i g (info p) (parse_was_called p) (has_positional_list_option p) (dev_decision p) (user_decision p)
    (sub_parser p) (subcommands p) (fmt p) (used_ids p) (format_arguments p) (arguments p) (executable_name p) (options p) (operations p).
Definition set_info (m : meta) (p : parser) : parser :=
  MkParser (self p) (gone p) m (parse_was_called p) (has_positional_list_option p) (dev_decision p) (user_decision p)
    (sub_parser p) (subcommands p) (fmt p) (used_ids p) (format_arguments p) (arguments p) (executable_name p) (options p) (operations p).
Definition set_called (b : bool) (p : parser) : parser :=
  MkParser (self p) (gone p) (info p) b (has_positional_list_option p) (dev_decision p) (user_decision p)
    (sub_parser p) (subcommands p) (fmt p) (used_ids p) (format_arguments p) (arguments p) (executable_name p) (options p) (operations p).
Definition set_has_list (b : bool) (p : parser) : parser :=
  MkParser (self p) (gone p) (info p) (parse_was_called p) b (dev_decision p) (user_decision p)
    (sub_parser p) (subcommands p) (fmt p) (used_ids p) (format_arguments p) (arguments p) (executable_name p) (options p) (operations p).
Definition set_user (d : option bool) (p : parser) : parser :=
  MkParser (self p) (gone p) (info p) (parse_was_called p) (has_positional_list_option p) (dev_decision p) d
    (sub_parser p) (subcommands p) (fmt p) (used_ids p) (format_arguments p) (arguments p) (executable_name p) (options p) (operations p).
Definition set_sub (s : option parser) (p : parser) : parser :=
  MkParser (self p) (gone p) (info p) (parse_was_called p) (has_positional_list_option p) (dev_decision p) (user_decision p)
    s (subcommands p) (fmt p) (used_ids p) (format_arguments p) (arguments p) (executable_name p) (options p) (operations p).
Definition set_subcommands (l : list string) (p : parser) : parser :=
  MkParser (self p) (gone p) (info p) (parse_was_called p) (has_positional_list_option p) (dev_decision p) (user_decision p)
    (sub_parser p) l (fmt p) (used_ids p) (format_arguments p) (arguments p) (executable_name p) (options p) (operations p).
Definition set_fmt (f : format) (p : parser) : parser :=
  MkParser (self p) (gone p) (info p) (parse_was_called p) (has_positional_list_option p) (dev_decision p) (user_decision p)
    (sub_parser p) (subcommands p) f (used_ids p) (format_arguments p) (arguments p) (executable_name p) (options p) (operations p).
Definition set_used_ids (l : list string) (p : parser) : parser :=
  MkParser (self p) (gone p) (info p) (parse_was_called p) (has_positional_list_option p) (dev_decision p) (user_decision p)
    (sub_parser p) (subcommands p) (fmt p) l (format_arguments p) (arguments p) (executable_name p) (options p) (operations p).
Definition set_format_arguments (l : list string) (p : parser) : parser :=
  MkParser (self p) (gone p) (info p) (parse_was_called p) (has_positional_list_option p) (dev_decision p) (user_decision p)
    (sub_parser p) (subcommands p) (fmt p) (used_ids p) l (arguments p) (executable_name p) (options p) (operations p).
Definition set_executable_name (l : list string) (p : parser) : parser :=
  MkParser (self p) (gone p) (info p) (parse_was_called p) (has_positional_list_option p) (dev_decision p) (user_decision p)
    (sub_parser p) (subcommands p) (fmt p) (used_ids p) (format_arguments p) (arguments p) l (options p) (operations p).
Definition set_options (l : list string) (p : parser) : parser :=
  MkParser (self p) (gone p) (info p) (parse_was_called p) (has_positional_list_option p) (dev_decision p) (user_decision p)
    (sub_parser p) (subcommands p) (fmt p) (used_ids p) (format_arguments p) (arguments p) (executable_name p) l (operations p).
Definition set_operations (l : list (nat * op)) (p : parser) : parser :=
  MkParser (self p) (gone p) (info p) (parse_was_called p) (has_positional_list_option p) (dev_decision p) (user_decision p)
    (sub_parser p) (subcommands p) (fmt p) (used_ids p) (format_arguments p) (arguments p) (executable_name p) (options p) l.

(** ** add_subcommands, 652-660 *)

(** [std::ranges::sort] on strings: a total order, so the result is determined by the elements *)
Fixpoint insert_string (x : string) (l : list string) : list string :=
  match l with
  | [] => [x]
  | y :: l' => if str_ltb y x then y :: insert_string x l' else x :: l
  end.
Fixpoint sort_strings (l : list string) : list string :=
  match l with [] => [] | x :: l' => insert_string x (sort_strings l') end.

(** [std::ranges::unique] and [erase]: of equal neighbours only the first is kept *)
Fixpoint unique (l : list string) : list string :=
  match l with
  | [] => []
  | x :: l' => x :: match unique l' with
                    | y :: l'' => if String.eqb x y then l'' else y :: l''
                    | [] => []
                    end
  end.

Definition add_subcommands (l : list string) (p : parser) : parser :=
  set_subcommands (unique (sort_strings (subcommands p ++ l))) p.

(** 764 *)
Definition reserved_ids : list string := ["h"; "hh"; "help"; "advanced-help"; "export-help"; "version"; "copyright"].

(** the constructor, 181-190 (the overload 193-199 only converts argc and argv), at address [i] *)
Definition construct (i : nat) (name : string) (args : list string) (dev : bool) (subs : list string) : parser :=
  add_subcommands subs
    (MkParser i [] (meta_of name) false false dev None None [] FShortHelp reserved_ids [] args [] [] []).

(** ** Checks of declarations *)

Definition design {A} (m : string) : M parser A := throw KDesign m.

(** check_parse_not_called, 1076-1080 *)
Definition check_parse_not_called (fn : string) : M parser unit :=
  fun p => if parse_was_called p then design (fn +s+ " may only be used before calling parse().") p else ret tt p.

(** id_exists, 972-977; as a side effect the identifier is inserted into used_ids *)
Definition id_exists (i : ident) : M parser bool :=
  fun p => if is_empty_id i then (p, Ret false)
           else let s := match i with IdShort c => str1 c | IdLong s => s end in
                if mem s (used_ids p) then (p, Ret true) else (set_used_ids (s :: used_ids p) p, Ret false).

(** the lambda is_valid, 990-994 *)
Definition is_valid (c : chr) : bool :=
  in_range "a" "z" c || in_range "A" "Z" c || in_range "0" "9" c || Ascii.eqb c "@" || Ascii.eqb c "_" || Ascii.eqb c "-".

(** verify_identifiers, 988-1018 *)
Definition verify_short (c : chr) : M parser unit :=
  if Ascii.eqb c nul then ret tt
  else if Ascii.eqb c "-" || negb (is_valid c) then
    design "Short identifiers may only contain alphanumeric characters, '_', or '@'."
  else do e <- id_exists (IdShort c);
       if e then design ("Short identifier '" +s+ str1 c +s+ "' was already used before.") else ret tt.
Definition verify_long (l : string) : M parser unit :=
  if is_empty l then ret tt
  else if (String.length l =? 1)%nat then design "Long identifiers must be either empty or longer than one character."
  else if match snth 0 l with Some c => Ascii.eqb c "-" | None => false end then
    design "Long identifiers may not use '-' as first character."
  else if negb (sall is_valid l) then
    design "Long identifiers may only contain alphanumeric characters, '_', '-', or '@'."
  else do e <- id_exists (IdLong l);
       if e then design ("Long identifier '" +s+ l +s+ "' was already used before.") else ret tt.
Definition verify_identifiers (c : chr) (l : string) : M parser unit :=
  if Ascii.eqb c nul && is_empty l then design "Short and long identifiers may not both be empty."
  else verify_short c ;; verify_long l.

(** [options.emplace(...)] *)
Definition register (s : string) : M parser unit := modify (fun p => set_options (s :: options p) p).

(** verify_option_config, 1022-1033 *)
Definition verify_option_config (c : config) : M parser unit :=
  verify_identifiers (c_short c) (c_long c) ;;
  (if Ascii.eqb (c_short c) nul then ret tt else register ("-" +s+ str1 (c_short c))) ;;
  (if is_empty (c_long c) then ret tt else register ("--" +s+ c_long c)) ;;
  (if c_required c && negb (is_empty (c_default_message c)) then design "A required option cannot have a default message."
   else ret tt).

(** verify_flag_config, 1037-1043 *)
Definition verify_flag_config (c : config) : M parser unit :=
  verify_identifiers (c_short c) (c_long c) ;;
  (if negb (is_empty (c_default_message c)) then
     design "A flag may not have a default message because the default is always `false`."
   else ret tt).

(** verify_positional_option_config, 1047-1065 *)
Definition verify_positional_option_config (c : config) : M parser unit :=
  fun p =>
    (if negb (Ascii.eqb (c_short c) nul) || negb (is_empty (c_long c)) then
       design ("Positional options are identified by their position on the command line. "
               +s+ "Short or long ids are not permitted!")
     else if c_advanced c || c_hidden c then
       design "Positional options are always required and therefore cannot be advanced nor hidden!"
     else if match subcommands p with [] => false | _ => true end then
       design "You may only specify flags and options for the top-level parser."
     else if has_positional_list_option p then
       design ("You added a positional option with a list value before so you cannot add "
               +s+ "any other positional options.")
     else if negb (is_empty (c_default_message c)) then
       design "A positional option may not have a default message because it is always required."
     else ret tt) p.

(** [operations.push_back(...)] with a lambda capturing [this] *)
Definition defer (o : op) : M parser unit := modify (fun p => set_operations (operations p ++ [(self p, o)]) p).

(** ** The add_* functions *)

(** add_option, 241-257 *)
Definition add_option (x : addr) (t : vty) (c : config) : M parser unit :=
  check_parse_not_called "add_option" ;; verify_option_config c ;; defer (OpDecl (DOption x t c)).

(** add_flag, 274-293; [value]: the present value of the variable *)
Definition add_flag (value : bool) (x : addr) (c : config) : M parser unit :=
  check_parse_not_called "add_flag" ;;
  verify_flag_config c ;;
  (if value then design "A flag's default value must be false." else ret tt) ;;
  defer (OpDecl (DFlag x c)).

(** add_positional_option, 325-344 *)
Definition add_positional_option (x : addr) (t : vty) (c : config) : M parser unit :=
  check_parse_not_called "add_positional_option" ;;
  verify_positional_option_config c ;;
  (if is_container t then modify (set_has_list true) else ret tt) ;;
  defer (OpDecl (DPositional x t c)).

(** add_section 532-546, add_subsection 559-573, add_line 587-601, add_list_item 624-638 *)
Definition add_section (title : string) (adv : bool) : M parser unit :=
  check_parse_not_called "add_section" ;; defer (OpSection title adv).
Definition add_subsection (title : string) (adv : bool) : M parser unit :=
  check_parse_not_called "add_subsection" ;; defer (OpSubsection title adv).
Definition add_line (text : string) (par adv : bool) : M parser unit :=
  check_parse_not_called "add_line" ;; defer (OpLine text par adv).
Definition add_list_item (key desc : string) (adv : bool) : M parser unit :=
  check_parse_not_called "add_list_item" ;; defer (OpListItem key desc adv).

(** get_sub_parser, 448-456 *)
Definition get_sub_parser : M parser parser :=
  fun p => match sub_parser p with
           | None => design "No subcommand was provided at the construction of the argument parser!" p
           | Some q => (p, Ret q)
           end.

(** is_option_set, 490-517; [IdShort]: called with a char, [IdLong]: called with a string *)
Definition is_option_set (i : ident) : M parser bool :=
  fun p =>
    (if negb (parse_was_called p) then
       design "You can only ask which options have been set after calling the function `parse()`."
     else if match i with IdLong s => (String.length s =? 1)%nat | IdShort _ => false end then
       design ("Long option identifiers must be longer than one character! If "
               +s+ match i with IdLong s => s | IdShort c => str1 c end
               +s+ "' was meant to be a short identifier, please pass it as a char ('') not a string"
               +s+ " (""""" +s+ ")!")
     else if negb (mem match i with IdLong s => s | IdShort c => str1 c end (used_ids p)) then
       design "You can only ask for option identifiers that you added with add_option() before."
     else ret match find_option_id i (fst (split_eoo (format_arguments p))) with Some _ => true | None => false end) p.

(** ** Finding out what the user wants, 808-964 *)

Section with_build.
Variable ndebug : bool.

(** Parts outside this file.  [bk_tdl]: the build has the TDL library; [bk_page]: what a format other than
    format_parse prints; [bk_version_check]: run_version_check, 1114-1125. *)
Record page_request := {
  pr_format : format; pr_info : meta; pr_subcommands : list string; pr_dev : bool; pr_executable : list string;
  pr_ops : list op; pr_vars : store }.
Record backend := {
  bk_tdl : bool;
  bk_page : page_request -> res string;
  bk_version_check : meta -> bool -> option bool -> fs -> fs * res unit }.
Variable bk : backend.

(** to_string.hpp: supported_exports *)
Definition supported_exports : string := if bk_tdl bk then "[html, man, ctd, cwl]" else "[html, man]".

Definition push_arg (a : string) : M parser unit :=
  modify (fun p => set_format_arguments (format_arguments p ++ [a]) p).

Definition select (f : format) : M parser unit := modify (set_fmt f).

(** the message of 855-859: the separator after the last name is replaced *)
Definition unknown_subcommand_message (subs : list string) : string :=
  let m := "You specified an unknown subcommand! Available subcommands are: [" +s+ sconcat (map (fun c => c +s+ ", ") subs) in
  stake (String.length m - 2) m +s+ "]. Use -h/--help for more information.".

(** the new sub-parser, 837-846; [rest]: the arguments from the subcommand on.  It lives on the heap;
    addresses only matter per parser, so every sub-parser gets address 0. *)
Definition new_sub_parser (p : parser) (arg : string) (rest : list string) : parser :=
  let q := construct 0 (m_app_name (info p) +s+ "-" +s+ arg) rest false [] in
  set_executable_name (executable_name p ++ executable_name q) q.

(** the lambda found_subcommand, 831-866; [rest] starts with [arg] *)
Definition found_subcommand (arg : string) (rest : list string) : M parser bool :=
  fun p =>
    match subcommands p with
    | [] => (p, Ret false)
    | _ => if mem arg (subcommands p) then (set_sub (Some (new_sub_parser p arg rest)) p, Ret true)
           else if negb (starts_with "-" arg) then throw KUserInput (unknown_subcommand_message (subcommands p)) p
           else (p, Ret false)
    end.

(** 923-934 *)
Definition export_format (v : string) : M parser unit :=
  if String.eqb v "html" then select FHtml
  else if String.eqb v "man" then select FMan
  else if String.eqb v "ctd" then select (FTdl false)
  else if String.eqb v "cwl" then select (FTdl true)
  else throw KValidation ("Validation failed for option --export-help: Value must be one of " +s+ supported_exports +s+ ".").

(** 941-946 *)
Definition version_check_value (v : string) : M parser unit :=
  if String.eqb v "1" || String.eqb v "true" then modify (set_user (Some true))
  else if String.eqb v "0" || String.eqb v "false" then modify (set_user (Some false))
  else throw KValidation "Value for option --version-check must be true (1) or false (0).".

(** the loop 869-953 over the arguments after the first *)
Fixpoint scan_arguments (l : list string) : M parser unit :=
  match l with
  | [] => ret tt
  | arg :: l' =>
      fun p =>
        if mem arg (options p) then
          (push_arg arg ;;
           match l' with
           | v :: l'' => push_arg v ;; scan_arguments l''
           | [] => ret tt
           end) p
        else
          (do found <- found_subcommand arg l;
           if found then ret tt
           else if String.eqb arg "-h" || String.eqb arg "--help" then select (FHelp false) ;; scan_arguments l'
           else if String.eqb arg "-hh" || String.eqb arg "--advanced-help" then select (FHelp true) ;; scan_arguments l'
           else if String.eqb arg "--version" then select FVersion ;; scan_arguments l'
           else if String.eqb arg "--copyright" then select FCopyright ;; scan_arguments l'
           else if String.eqb arg "--export-help" then
             match l' with
             | [] => throw KTooFew "Option --export-help must be followed by a value."
             | v :: l'' => export_format v ;; scan_arguments l''
             end
           else if starts_with "--export-help=" arg then
             export_format (sdrop (String.length "--export-help=") arg) ;; scan_arguments l'
           else if String.eqb arg "--version-check" then
             match l' with
             | [] => throw KTooFew "Option --version-check must be followed by a value."
             | v :: l'' => version_check_value v ;; scan_arguments l''
             end
           else push_arg arg ;; scan_arguments l') p
  end.

(** 955-963 *)
Definition settle_format : M parser unit :=
  modify (fun p => match fmt p with
                   | FShortHelp =>
                       match format_arguments p, sub_parser p with
                       | [], None => p
                       | _, _ => set_fmt FParse p
                       end
                   | _ => p
                   end).

(** determine_format_and_subcommand, 808-964; with an empty vector the assertion 810 fails or
    [*arguments.begin()] is undefined *)
Definition determine_format_and_subcommand : M parser unit :=
  fun p => match arguments p with
           | [] => (p, if ndebug then UB else AssertFail)
           | a :: l => (modify (fun p => set_executable_name (executable_name p ++ [a]) p) ;;
                        scan_arguments l ;; settle_format) p
           end.

(** ** parse *)

(** [std::regex_match(s, "^[a-zA-Z0-9_-]+$")] *)
Definition name_char (c : chr) : bool :=
  in_range "a" "z" c || in_range "A" "Z" c || in_range "0" "9" c || Ascii.eqb c "_" || Ascii.eqb c "-".
Definition name_matches (s : string) : bool := negb (is_empty s) && sall name_char s.

(** verify_app_and_subcommand_names, 1089-1107 *)
Definition verify_app_and_subcommand_names : M parser unit :=
  fun p =>
    (if negb (name_matches (m_app_name (info p))) then
       design ("The application name must only contain alpha-numeric characters or '_' and '-' "
               +s+ "(regex: ""^[a-zA-Z0-9_-]+$"").")
     else if negb (forallb name_matches (subcommands p)) then
       design ("The subcommand name must only contain alpha-numeric characters or '_' and '-' "
               +s+ "(regex: ""^[a-zA-Z0-9_-]+$"").")
     else ret tt) p.

(** 427-429: the operations that reach this parser's format.  An operation created when the object was
    somewhere else is applied to the parser there (a moved-from parser, nothing visible happens) or, if there
    is none, behaves in an undefined way. *)
Fixpoint apply_operations (i : nat) (dead : list nat) (l : list (nat * op)) : res (list op) :=
  match l with
  | [] => Ret []
  | (owner, o) :: l' =>
      if Nat.eqb owner i then lift_res (apply_operations i dead l') (fun r => Ret (o :: r))
      else if existsb (Nat.eqb owner) dead then UB
      else apply_operations i dead l'
  end.

Definition ops_decls (l : list op) : list decl := flat_map (fun o => match o with OpDecl d => [d] | _ => [] end) l.

(** The world of a program using a parser: the parser, the bound variables, the file system. *)
Record world := { w_parser : parser; w_vars : store; w_fs : fs }.

Definition on_parser {A} (m : M parser A) : M world A :=
  fun w => let '(p, r) := m (w_parser w) in ({| w_parser := p; w_vars := w_vars w; w_fs := w_fs w |}, r).

(** run_version_check, 1114-1125 *)
Definition run_version_check : M world unit :=
  fun w => let p := w_parser w in
           let '(f, r) := bk_version_check bk (info p) (dev_decision p) (user_decision p) (w_fs w) in
           ({| w_parser := p; w_vars := w_vars w; w_fs := f |}, r).

(** parse_format, 1137-1148, and the exit 438-439 *)
Definition parse_format (l : list op) : M world unit :=
  fun w =>
    let p := w_parser w in
    match fmt p with
    | FParse => let '(st, r) := parse_args ndebug (ops_decls l) (format_arguments p) (w_vars w) (w_fs w) in
                ({| w_parser := p; w_vars := vars st; w_fs := fsys st |}, r)
    | f => (w, lift_res (bk_page bk {| pr_format := f; pr_info := info p; pr_subcommands := subcommands p;
                                       pr_dev := dev_decision p; pr_executable := executable_name p; pr_ops := l;
                                       pr_vars := w_vars w |})
                 (fun out => Exit out))
    end.

(** parse, 414-440 *)
Definition parse : M world unit :=
  fun w =>
    if parse_was_called (w_parser w) then throw KDesign "The function parse() must only be called once!" w
    else
      (on_parser (modify (set_called true)) ;;
       on_parser verify_app_and_subcommand_names ;;
       on_parser determine_format_and_subcommand ;;
       do l <- (fun w => (w, apply_operations (self (w_parser w)) (gone (w_parser w)) (operations (w_parser w))));
       run_version_check ;;
       parse_format l) w.

(** ** Programs using a parser *)

(** Everything a program can do with a parser (and with the sub-parser, if there is one).  [CMove i alive]: the
    parser is moved to the object at address [i]; [alive] tells whether the old object continues to exist.
    [CInfo], [CAssign] and [CFs]: the program changes the public member info, a variable, the file system. *)
Inductive call :=
| CAddOption (x : addr) (t : vty) (c : config)
| CAddFlag (x : addr) (c : config)
| CAddPositional (x : addr) (t : vty) (c : config)
| CAddSection (title : string) (adv : bool)
| CAddSubsection (title : string) (adv : bool)
| CAddLine (text : string) (par adv : bool)
| CAddListItem (key desc : string) (adv : bool)
| CAddSubcommands (l : list string)
| CParse
| CIsSet (i : ident)
| CSub (c : call)
| CInfo (m : meta)
| CMove (i : nat) (alive : bool)
| CAssign (x : addr) (v : val)
| CFs (f : fs).

Definition move_to (i : nat) (alive : bool) (p : parser) : parser :=
  let dead := (if alive then gone p else self p :: gone p) in
  set_self i (filter (fun j => negb (Nat.eqb i j)) dead) p.

(** One call; functions returning nothing return [true]. *)
Fixpoint step (c : call) : M world bool :=
  match c with
  | CAddOption x t c => on_parser (add_option x t c) ;; ret true
  | CAddFlag x c => fun w => (on_parser (add_flag (as_bool (w_vars w x)) x c) ;; ret true) w
  | CAddPositional x t c => on_parser (add_positional_option x t c) ;; ret true
  | CAddSection s a => on_parser (add_section s a) ;; ret true
  | CAddSubsection s a => on_parser (add_subsection s a) ;; ret true
  | CAddLine s b a => on_parser (add_line s b a) ;; ret true
  | CAddListItem k d a => on_parser (add_list_item k d a) ;; ret true
  | CAddSubcommands l => on_parser (modify (add_subcommands l)) ;; ret true
  | CParse => parse ;; ret true
  | CIsSet i => on_parser (is_option_set i)
  | CSub c => fun w =>
      match get_sub_parser (w_parser w) with
      | (p, Ret q) =>
          let '(w', r) := step c {| w_parser := q; w_vars := w_vars w; w_fs := w_fs w |} in
          ({| w_parser := set_sub (Some (w_parser w')) p; w_vars := w_vars w'; w_fs := w_fs w' |}, r)
      | (p, Throw e) => (w, Throw e)
      | _ => (w, UB)
      end
  | CInfo m => on_parser (modify (set_info m)) ;; ret true
  | CMove i alive => on_parser (modify (move_to i alive)) ;; ret true
  | CAssign x v => modify (fun w => {| w_parser := w_parser w; w_vars := set_var (w_vars w) x v; w_fs := w_fs w |}) ;; ret true
  | CFs f => modify (fun w => {| w_parser := w_parser w; w_vars := w_vars w; w_fs := f |}) ;; ret true
  end.

(** A program run: the calls in order, exceptions being caught by the program; the run ends when the
    process exits or its behaviour is undefined.  Every call that was made comes with its result. *)
Fixpoint run (cs : list call) (w : world) : world * list (call * res bool) :=
  match cs with
  | [] => (w, [])
  | c :: cs' =>
      let '(w1, r) := step c w in
      match r with
      | Ret _ | Throw _ => let '(w2, l) := run cs' w1 in (w2, (c, r) :: l)
      | _ => (w1, [(c, r)])
      end
  end.

End with_build.
