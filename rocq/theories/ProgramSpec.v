(** Vocabulary for statements about whole runs of parse(). *)
From Verif Require Import Base Fs Values Validators FormatParse Invocation ScanSpec Parser ParserSpec ReadingSpec
  HelpSpec VersionCheck VersionSpec.

(** the same option, flag or positional option, described differently *)
Definition same_config (c c' : config) : Prop :=
  c_short c = c_short c' /\ c_long c = c_long c' /\ c_required c = c_required c' /\ c_validator c = c_validator c'.
Definition same_role (d d' : decl) : Prop :=
  match d, d' with
  | DOption x t c, DOption x' t' c' => x = x' /\ t = t' /\ same_config c c'
  | DFlag x c, DFlag x' c' => x = x' /\ c_short c = c_short c' /\ c_long c = c_long c'
  | DPositional x t c, DPositional x' t' c' => x = x' /\ t = t' /\ c_validator c = c_validator c'
  | _, _ => False
  end.

Definition options_of (ds : list decl) : list decl := filter (fun d => match d with DOption _ _ _ => true | _ => false end) ds.
Definition flags_of (ds : list decl) : list decl := filter (fun d => match d with DFlag _ _ => true | _ => false end) ds.
Definition positionals_of (ds : list decl) : list decl := filter (fun d => match d with DPositional _ _ _ => true | _ => false end) ds.

(** the same interface: options, flags and positional options each in the same order, however they are
    mixed and described *)
Definition same_interface (ds ds' : list decl) : Prop :=
  Forall2 same_role (options_of ds) (options_of ds') /\
  Forall2 same_role (flags_of ds) (flags_of ds') /\
  Forall2 same_role (positionals_of ds) (positionals_of ds').

(** parse() as seen from outside: what the arguments after the program name have to be like for parse() to
    return, and the variables and files afterwards.  [announced]: the texts known as options when parse() is
    called. *)
Definition names_ok (p : parser) : Prop :=
  good_name (m_app_name (info p)) /\ forall s, In s (subcommands p) -> good_name s.

(** [consulted]: the arguments fall into the pieces [ks] without error, the version check was passed *)
Definition consulted (bk : backend) (p : parser) (announced args : list string) (ks : list piece) (f f1 : fs) : Prop :=
  names_ok p /\ pieces announced (subcommands p) args ks /\ first_error (bk_tdl bk) (subcommands p) ks = None /\
  bk_version_check bk (info p) (dev_decision p) (last_some piece_check ks) f = (f1, Ret tt).

Definition run_understood (ndebug : bool) (bk : backend) (p : parser) (ds : list decl) (announced args : list string)
    (vs : store) (f : fs) (vs' : store) (f' : fs) : Prop :=
  exists ks f1, consulted bk p announced args ks f f1 /\ chosen ks = FParse /\
    understood ndebug ds (flat_map own_texts ks) vs f1 vs' f'.

(** a page is printed *)
Definition run_prints (bk : backend) (p : parser) (exe : list string) (ops : list op) (announced args : list string)
    (vs : store) (f f1 : fs) (out : string) : Prop :=
  exists ks, consulted bk p announced args ks f f1 /\ chosen ks <> FParse /\
    bk_page bk {| pr_format := chosen ks; pr_info := info p; pr_subcommands := subcommands p; pr_dev := dev_decision p;
                  pr_executable := exe; pr_ops := ops; pr_vars := vs |} = Ret out.

(** neither printing a page nor the version check ends the program *)
Definition no_early_exit (bk : backend) : Prop :=
  (forall m dev user f out, snd (bk_version_check bk m dev user f) <> Exit out) /\ (forall r out, bk_page bk r <> Exit out).

(** the call a program makes, on whichever (sub-)parser *)
Fixpoint innermost (c : call) : call := match c with CSub c' => innermost c' | _ => c end.

(** a return, an exit after a page, or an exception of the library *)
Definition proper (k : okind) : Prop :=
  match k with ORet | OExit => True | OThrow e => is_parser_error e = true | _ => False end.

(** the texts on the requested page are fit for it (see C44 and C46) *)
Definition page_ok (r : page_request) : Prop :=
  match pr_format r with
  | FHelp _ => has_commands (pr_info r) = true /\ forallb intact (page_texts r) = true
  | FShortHelp => has_commands (pr_info r) = true /\
      forallb intact (map to_blank (m_synopsis (pr_info r)) ++ map from_blank (m_synopsis (pr_info r))) = true
  | FVersion => forallb intact [m_app_name (pr_info r); m_version (pr_info r); m_date (pr_info r); m_url (pr_info r)] = true
  | FHtml => has_commands (pr_info r) = true /\ forallb neat (page_texts r) = true
  | FMan => has_commands (pr_info r) = true
  | _ => True
  end.

(** the version check finds the places it needs (see C62) *)
Definition machine_ok (ve : venv) (f : fs) : Prop :=
  exists home, ve_home ve = Some home /\ (exists m, Fs.lookup f (ve_tmp ve) = Some (NDir m)) /\
    (ve_ndebug ve = true \/ (f (comps (ve_tmp ve) ++ ["dummy.txt"]) = None /\ f (cookie_dir home ++ ["dummy.txt"]) = None)).
