(** Vocabulary for statements about parsers and the programs using them. *)
From Verif Require Import Base Fs Values Validators FormatParse Invocation ScanSpec Parser.
From Coq Require Import Sorting.Sorted.

(** a parser as it comes out of the constructor; [exe]: sub-parsers get the calls that led to them *)
Inductive fresh : parser -> Prop :=
| fresh_new i name args dev subs exe : fresh (set_executable_name exe (construct i name args dev subs)).

(** ** Histories *)

(** the declaration made by a call *)
Definition call_decl (c : call) : list decl :=
  match c with
  | CAddOption x t c => [DOption x t c]
  | CAddFlag x c => [DFlag x c]
  | CAddPositional x t c => [DPositional x t c]
  | _ => []
  end.

Definition returned (r : res bool) : bool := match r with Ret _ => true | _ => false end.

(** the declarations that were accepted, in order *)
Definition accepted (log : list (call * res bool)) : list decl :=
  flat_map (fun e => if returned (snd e) then call_decl (fst e) else []) log.

(** the name of an identifier without dashes *)
Definition id_name (i : ident) : string := match i with IdShort c => str1 c | IdLong s => s end.

Definition decl_names (ds : list decl) : list string := map id_name (flat_map decl_idents ds).

(** identifiers every application has *)
Definition reserved : list string := ["h"; "hh"; "help"; "advanced-help"; "export-help"; "version"; "copyright"].

(** the subcommands ever named to add_subcommands *)
Definition ever_added (log : list (call * res bool)) : list string :=
  flat_map (fun e => match fst e with CAddSubcommands l => l | _ => [] end) log.

(** calls that shape the interface *)
Definition shapes (c : call) : bool :=
  match c with
  | CAddOption _ _ _ | CAddFlag _ _ | CAddPositional _ _ _ | CAddSection _ _ | CAddSubsection _ _ | CAddLine _ _ _
  | CAddListItem _ _ _ => true
  | _ => false
  end.

Definition survived (r : res bool) : Prop := match r with Ret _ | Throw _ => True | _ => False end.

(** names used by the following call, in declarations or questions *)
Definition call_names (c : call) : list string :=
  match c with
  | CAddOption _ _ c | CAddFlag _ c => map id_name (config_idents c)
  | CIsSet i => [id_name i]
  | _ => []
  end.

Definition is_move (c : call) : bool := match c with CMove _ _ => true | _ => false end.

(** ** What the arguments ask for *)

(** The arguments after the program name fall into these pieces.  [KAlone], [KNoValue] and [KSub] can only be the
    last piece. *)
Inductive piece :=
| KValue (o v : string)                    (* an option and its value *)
| KAlone (o : string)                      (* an option without value *)
| KPage (a : string) (f : format)          (* -h, --help, ... *)
| KExport (v : string) (joined : bool)     (* --export-help v, --export-help=v *)
| KCheck (v : string)                      (* --version-check v *)
| KNoValue (a : string)                    (* --export-help or --version-check without value *)
| KSub (s : string) (rest : list string)   (* a subcommand and all that follows *)
| KWord (a : string).                      (* anything else *)

Definition piece_texts (k : piece) : list string :=
  match k with
  | KValue o v => [o; v]
  | KAlone o => [o]
  | KPage a _ => [a]
  | KExport v false => ["--export-help"; v]
  | KExport v true => ["--export-help=" +s+ v]
  | KCheck v => ["--version-check"; v]
  | KNoValue a => [a]
  | KSub s rest => s :: rest
  | KWord a => [a]
  end.

Definition pages : list (string * format) :=
  [("-h", FHelp false); ("--help", FHelp false); ("-hh", FHelp true); ("--advanced-help", FHelp true);
   ("--version", FVersion); ("--copyright", FCopyright)].

(** an argument with a special meaning *)
Definition special (a : string) : Prop :=
  (exists f, In (a, f) pages) \/ a = "--export-help" \/ (exists v, a = "--export-help=" +s+ v) \/ a = "--version-check".

Definition piece_ok (opts subs : list string) (k : piece) : Prop :=
  match k with
  | KValue o v => In o opts
  | KAlone o => In o opts
  | KSub s rest => ~ In s opts /\ In s subs
  | KPage a f => In (a, f) pages /\ ~ In a opts /\ ~ In a subs
  | KExport v j => (j = false -> ~ In "--export-help" opts /\ ~ In "--export-help" subs) /\
                   (j = true -> ~ In ("--export-help=" +s+ v) opts /\ ~ In ("--export-help=" +s+ v) subs)
  | KCheck v => ~ In "--version-check" opts /\ ~ In "--version-check" subs
  | KNoValue a => (a = "--export-help" \/ a = "--version-check") /\ ~ In a opts /\ ~ In a subs
  | KWord a => ~ special a /\ ~ In a opts /\ ~ In a subs
  end.

Definition must_be_last (k : piece) : bool :=
  match k with KAlone _ | KNoValue _ | KSub _ _ => true | _ => false end.

(** [args] falls into the pieces [ks] *)
Inductive pieces (opts subs : list string) : list string -> list piece -> Prop :=
| pieces_nil : pieces opts subs [] []
| pieces_last k : piece_ok opts subs k -> must_be_last k = true -> pieces opts subs (piece_texts k) [k]
| pieces_cons k args ks : piece_ok opts subs k -> must_be_last k = false -> pieces opts subs args ks ->
    pieces opts subs (piece_texts k ++ args) (k :: ks).

Definition exports : list (string * format) := [("html", FHtml); ("man", FMan); ("ctd", FTdl false); ("cwl", FTdl true)].
Definition checks_values : list (string * bool) := [("1", true); ("true", true); ("0", false); ("false", false)].

Fixpoint lookup {A} (k : string) (l : list (string * A)) : option A :=
  match l with [] => None | (k', v) :: l' => if String.eqb k k' then Some v else lookup k l' end.

(** the error a piece causes; [tdl]: the build has the TDL library; [subs]: with subcommands, words are not accepted *)
Definition piece_error (tdl : bool) (subs : list string) (k : piece) : option exn :=
  match k with
  | KExport v _ =>
      match lookup v exports with
      | Some _ => None
      | None => Some (Exn KValidation ("Validation failed for option --export-help: Value must be one of "
                                       +s+ (if tdl then "[html, man, ctd, cwl]." else "[html, man].")))
      end
  | KCheck v =>
      match lookup v checks_values with
      | Some _ => None
      | None => Some (Exn KValidation "Value for option --version-check must be true (1) or false (0).")
      end
  | KNoValue a => Some (Exn KTooFew ("Option " +s+ a +s+ " must be followed by a value."))
  | KWord a =>
      match subs with
      | [] => None
      | _ => if begins "-" a then None
             else Some (Exn KUserInput ("You specified an unknown subcommand! Available subcommands are: ["
                                        +s+ String.concat ", " subs +s+ "]. Use -h/--help for more information."))
      end
  | _ => None
  end.

Fixpoint first_error (tdl : bool) (subs : list string) (ks : list piece) : option exn :=
  match ks with
  | [] => None
  | k :: ks' => match piece_error tdl subs k with Some e => Some e | None => first_error tdl subs ks' end
  end.

Fixpoint last_some {A B} (f : A -> option B) (l : list A) : option B :=
  match l with
  | [] => None
  | a :: l' => match last_some f l' with Some b => Some b | None => f a end
  end.

(** the page a piece asks for *)
Definition piece_page (k : piece) : option format :=
  match k with KPage _ f => Some f | KExport v _ => lookup v exports | _ => None end.

Definition piece_check (k : piece) : option bool := match k with KCheck v => lookup v checks_values | _ => None end.

(** what is left for the application's own options *)
Definition own_texts (k : piece) : list string :=
  match k with KValue _ _ | KAlone _ | KWord _ => piece_texts k | _ => [] end.

Definition piece_sub (k : piece) : option (string * list string) :=
  match k with KSub s rest => Some (s, s :: rest) | _ => None end.

(** the format parse() ends up with *)
Definition chosen (ks : list piece) : format :=
  match last_some piece_page ks with
  | Some f => f
  | None => match flat_map own_texts ks, last_some piece_sub ks with
            | [], None => FShortHelp
            | _, _ => FParse
            end
  end.

(** names accepted for applications and subcommands *)
Definition good_name (s : string) : Prop :=
  s <> "" /\ forall c, In c (chars s) -> is_alnum c = true \/ c = "_"%char \/ c = "-"%char.

(** ** Parsers ready for parse() *)

(** the help page elements and declarations that were accepted, in order *)
Definition call_op (c : call) : list op :=
  match c with
  | CAddSection s a => [OpSection s a]
  | CAddSubsection s a => [OpSubsection s a]
  | CAddLine s b a => [OpLine s b a]
  | CAddListItem k d a => [OpListItem k d a]
  | _ => map OpDecl (call_decl c)
  end.
Definition accepted_ops (log : list (call * res bool)) : list op :=
  flat_map (fun e => if returned (snd e) then call_op (fst e) else []) log.

(** the program has neither parsed nor moved the parser, and no declaration of an option or flag was rejected *)
Definition plain_phase (log : list (call * res bool)) : Prop :=
  forall c r, In (c, r) log -> c <> CParse /\ is_move c = false /\
    match c with CAddOption _ _ _ | CAddFlag _ _ => returned r = true | _ => True end.

(** [w] is reached from a fresh parser by such a program *)
Definition prepared (ndebug : bool) (bk : backend) (w0 w : world) (log : list (call * res bool)) : Prop :=
  fresh (w_parser w0) /\ (exists cs, run ndebug bk cs w0 = (w, log)) /\ plain_phase log.

(** the same with declarations rejected *)
Definition unparsed (log : list (call * res bool)) : Prop := forall c r, In (c, r) log -> c <> CParse /\ is_move c = false.
Definition assembled (ndebug : bool) (bk : backend) (w0 w : world) (log : list (call * res bool)) : Prop :=
  fresh (w_parser w0) /\ (exists cs, run ndebug bk cs w0 = (w, log)) /\ unparsed log.

(** the options an interface declares, as written on the command line *)
Definition option_texts (ds : list decl) : list string := map dashed (flat_map option_idents ds).

(** what a run of parse() is expected to do once the arguments turned out to consist of pieces without error *)
Definition expected (ndebug : bool) (bk : backend) (m : meta) (subs : list string) (dev : bool) (exe : list string)
    (ops : list op) (ds : list decl) (ks : list piece) (vs : store) (f : fs) : store * fs * res unit :=
  match bk_version_check bk m dev (last_some piece_check ks) f with
  | (f', Ret tt) =>
      match chosen ks with
      | FParse => let '(st, r) := parse_args ndebug ds (flat_map own_texts ks) vs f' in (vars st, fsys st, r)
      | fm => (vs, f', lift_res (bk_page bk {| pr_format := fm; pr_info := m; pr_subcommands := subs; pr_dev := dev;
                                              pr_executable := exe; pr_ops := ops; pr_vars := vs |}) (fun out => Exit out))
      end
  | (f', r) => (vs, f', r)
  end.

Definition with_value {A} (r : res A) : res bool := lift_res r (fun _ => Ret true).

(** ** Declarations *)

Definition declares_something (c : call) : bool :=
  match c with CAddOption _ _ _ | CAddFlag _ _ | CAddPositional _ _ _ => true | _ => false end.

(** the option texts a call would announce *)
Definition call_texts (c : call) : list string :=
  match c with CAddOption _ _ c => map dashed (config_idents c) | _ => [] end.

(** the names mentioned by declarations, rejected or not *)
Definition tried_names (log : list (call * res bool)) : list string :=
  flat_map (fun e => match fst e with CAddOption _ _ c | CAddFlag _ c => map id_name (config_idents c) | _ => [] end) log.

(** a parser apart from its bookkeeping of names *)
Definition without_names (p : parser) : parser := set_used_ids [] (set_options [] p).

(** two runs cannot be told apart by their outcomes, the variables or the file system *)
Definition indistinguishable (a b : world * list (call * res bool)) : Prop :=
  snd a = snd b /\ w_vars (fst a) = w_vars (fst b) /\ w_fs (fst a) = w_fs (fst b).
