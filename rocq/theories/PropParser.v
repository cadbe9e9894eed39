(** Properties of parsers under arbitrary programs (C13, C20 - C31, C52, C56). *)
From Verif Require Import Base StrLib Fs Values Validators FormatParse Invocation ScanSpec Samples
  Parser ParserSpec ParserProofs ParserPieces ParserReading ParserOutcomes.

(** ** Cases for the examples *)

Definition bk0 : backend :=
  {| bk_tdl := false; bk_page := fun r => Ret (m_app_name (pr_info r)); bk_version_check := fun _ _ _ f => (f, Ret tt) |}.
Definition app_with (args subs : list string) : world :=
  {| w_parser := construct 1 "app" ("./app" :: args) false subs; w_vars := vars0; w_fs := no_fs |}.
Definition app (args : list string) : world := app_with args [].
Definition messaged (m : string) (c : config) : config :=
  {| c_short := c_short c; c_long := c_long c; c_desc := c_desc c; c_default_message := m;
     c_advanced := c_advanced c; c_hidden := c_hidden c; c_required := c_required c; c_validator := c_validator c;
     c_vhelp := c_vhelp c |}.
Definition kinds (log : list (call * res bool)) : list okind := map (fun e => okind_of (snd e)) log.
Definition answers (log : list (call * res bool)) : list (option bool) :=
  map (fun e => match snd e with Ret b => Some b | _ => None end) log.

(** add_option -i --int; add_option -l --list; add_flag -a --all; add_flag -b --brief *)
Definition four : list call :=
  [CAddOption 0 (Scalar int32) (cfg "i" "int"); CAddOption 1 (ListOf int32) (cfg "l" "list");
   CAddFlag 2 (cfg "a" "all"); CAddFlag 3 (cfg "b" "brief")].

(** ** C21 *)

Theorem C21_identifiers : forall ndebug bk w cs, fresh (w_parser w) -> forall log, log = snd (run ndebug bk cs w) ->
  NoDup (decl_names (accepted log)) /\ forallb good_ident (flat_map decl_idents (accepted log)) = true /\
  forall n, In n (decl_names (accepted log)) -> ~ In n reserved.
Proof. intros ndebug bk w cs F log ->. now apply identifiers_lemma. Qed.
Print Assumptions C21_identifiers.

(** a name in use, a reserved name, a bad name, a one-letter long name *)
Example C21_case :
  let cs := four ++ [CAddOption 4 (Scalar TString) (cfg nul "all"); CAddFlag 2 (cfg nul "help"); CAddFlag 2 (cfg nul "a=b");
                     CAddFlag 2 (cfg nul "z"); CAddFlag 2 (cfg "z" "a-z")] in
  let log := snd (run false bk0 cs (app ["-i3"])) in
  kinds log = [ORet; ORet; ORet; ORet; OThrow KDesign; OThrow KDesign; OThrow KDesign; OThrow KDesign; ORet] /\
  decl_names (accepted log) = ["i"; "int"; "l"; "list"; "a"; "all"; "b"; "brief"; "z"; "a-z"] /\ fresh (w_parser (app ["-i3"])).
Proof. split; [reflexivity|]. split; [reflexivity|]. exact (fresh_new 1 "app" _ false [] []). Qed.

(** ** C22 *)

(** A rejected declaration only leaves traces in the bookkeeping of names... *)
Theorem C22_only_names : forall ndebug bk c w w1 e, declares_something c = true -> step ndebug bk c w = (w1, Throw e) ->
  without_names (w_parser w1) = without_names (w_parser w) /\ w_vars w1 = w_vars w /\ w_fs w1 = w_fs w.
Proof. exact rejected_kind. Qed.
Print Assumptions C22_only_names.

Theorem C22_positional : forall ndebug bk x t c w w1 e, step ndebug bk (CAddPositional x t c) w = (w1, Throw e) -> w1 = w.
Proof. exact rejected_positional. Qed.
Print Assumptions C22_positional.

(** ... which nobody notices who uses neither the names in further calls nor the option's texts on the command line.
    Full statement: for all [cs] and arguments (refuted below). *)
Theorem C22_unnoticed_partial : forall ndebug bk c w w1 e cs, declares_something c = true -> step ndebug bk c w = (w1, Throw e) ->
  (forall c', In c' cs -> forall n, In n (call_names c') -> ~ In n (call_names c)) ->
  (forall a, In a (List.tl (arguments (w_parser w))) -> ~ In a (call_texts c)) ->
  indistinguishable (run ndebug bk cs w1) (run ndebug bk cs w) /\
  without_names (w_parser (fst (run ndebug bk cs w1))) = without_names (w_parser (fst (run ndebug bk cs w))).
Proof. exact rejected_lemma. Qed.
Print Assumptions C22_unnoticed_partial.

Definition bad_foo : call := CAddOption 4 (Scalar TString) (required (messaged "none" (cfg "f" "foo"))).

Example C22_case : let w := app ["--int"; "5"; "-a"] in
  okind_of (snd (step false bk0 bad_foo w)) = OThrow KDesign /\
  (forall c', In c' (four ++ [CParse]) -> forall n, In n (call_names c') -> ~ In n (call_names bad_foo)) /\
  (forall a, In a (List.tl (arguments (w_parser w))) -> ~ In a (call_texts bad_foo)) /\
  kinds (snd (run false bk0 (four ++ [CParse]) (fst (step false bk0 bad_foo w)))) = [ORet; ORet; ORet; ORet; ORet].
Proof.
  split; [reflexivity|]. split; [|split; [|reflexivity]].
  - intros c' [<-|[<-|[<-|[<-|[<-|[]]]]]] n; vm_compute; intros H1 H2; decompose [or] H1; subst; try contradiction; decompose [or] H2; try contradiction; discriminate.
  - intros a [<-|[<-|[<-|[]]]]; vm_compute; intros H; decompose [or] H; try contradiction; discriminate.
Qed.

(** the name stays occupied *)
Theorem C22_name_refuted : exists w c w1 e cs, declares_something c = true /\ step false bk0 c w = (w1, Throw e) /\
  ~ indistinguishable (run false bk0 cs w1) (run false bk0 cs w).
Proof.
  exists (app []), bad_foo. eexists _, _, [CAddOption 4 (Scalar TString) (cfg "f" "foo")].
  split; [reflexivity|]. split; [reflexivity|]. intros [H _]. apply (f_equal kinds) in H. revert H. vm_compute. discriminate.
Qed.
Print Assumptions C22_name_refuted.

(** the argument after the option's text stays its value: no help page for [app --foo --help] *)
Theorem C22_option_refuted : exists w c w1 e, declares_something c = true /\ step false bk0 c w = (w1, Throw e) /\
  arguments (w_parser w) = ["./app"; "--foo"; "--help"] /\
  kinds (snd (run false bk0 [CParse] w)) = [OExit] /\ kinds (snd (run false bk0 [CParse] w1)) = [OThrow KUnknownOption].
Proof.
  exists (app ["--foo"; "--help"]), bad_foo. eexists _, _. repeat split; reflexivity.
Qed.
Print Assumptions C22_option_refuted.

(** also for a flag whose variable is true, and for the short name beside a bad long name *)
Theorem C22_flag_refuted : exists w c w1 e cs, c = CAddFlag 7 (cfg "f" "foo") /\ step false bk0 c w = (w1, Throw e) /\
  kinds (snd (run false bk0 cs w)) = [ORet; ORet] /\ kinds (snd (run false bk0 cs w1)) = [ORet; OThrow KDesign].
Proof.
  exists {| w_parser := w_parser (app []); w_vars := set_var vars0 7 (VBool true); w_fs := no_fs |}, (CAddFlag 7 (cfg "f" "foo")).
  eexists _, _, [CAssign 7 (VBool false); CAddFlag 7 (cfg "f" "foo")]. repeat split; reflexivity.
Qed.
Print Assumptions C22_flag_refuted.

Theorem C22_short_name_refuted : exists w c w1 e cs, c = CAddFlag 2 (cfg "f" "-foo") /\ step false bk0 c w = (w1, Throw e) /\
  kinds (snd (run false bk0 cs w)) = [ORet] /\ kinds (snd (run false bk0 cs w1)) = [OThrow KDesign].
Proof.
  exists (app []), (CAddFlag 2 (cfg "f" "-foo")). eexists _, _, [CAddFlag 2 (cfg "f" "foo")]. repeat split; reflexivity.
Qed.
Print Assumptions C22_short_name_refuted.

(** ** C23 *)

Theorem C23_list_last : forall ndebug bk w cs, fresh (w_parser w) -> forall log d1 x t c d2, log = snd (run ndebug bk cs w) ->
  accepted log = d1 ++ DPositional x t c :: d2 -> is_container t = true -> pos_types d2 = [].
Proof. exact list_last_split. Qed.
Print Assumptions C23_list_last.

Example C23_case :
  let cs := [CAddPositional 4 (Scalar TString) (cfg nul ""); CAddPositional 5 (ListOf TString) (cfg nul "");
             CAddFlag 2 (cfg "a" "all"); CAddPositional 4 (Scalar TString) (cfg nul ""); CAddPositional 5 (ListOf TString) (cfg nul "")] in
  let log := snd (run false bk0 cs (app [])) in
  kinds log = [ORet; ORet; ORet; OThrow KDesign; OThrow KDesign] /\ pos_types (accepted log) = [Scalar TString; ListOf TString].
Proof. split; reflexivity. Qed.

(** ** C24 *)

(** Full statement: also if subcommands are added after positional options (refuted below). *)
Theorem C24_positional_partial : forall ndebug bk i name args dev subs exe vs f cs l1 x t c r l2,
  let w := {| w_parser := set_executable_name exe (construct i name args dev subs); w_vars := vs; w_fs := f |} in
  snd (run ndebug bk cs w) = l1 ++ (CAddPositional x t c, r) :: l2 -> returned r = true -> subs = [] /\ ever_added l1 = [].
Proof. exact positional_first_lemma. Qed.
Print Assumptions C24_positional_partial.

Example C24_case : let log := snd (run false bk0 [CAddSubcommands ["build"]; CAddPositional 4 (Scalar TString) (cfg nul "")] (app [])) in
  kinds log = [ORet; OThrow KDesign] /\
  kinds (snd (run false bk0 [CAddPositional 4 (Scalar TString) (cfg nul "")] (app []))) = [ORet].
Proof. split; reflexivity. Qed.

(** The other order is accepted; the positional option can then only get a value that begins with a dash or comes after a word that is
    the identifier of an option (behind "--"). *)
Theorem C24_order_refuted : exists w cs, fresh (w_parser w) /\
  cs = [CAddPositional 4 (Scalar TString) (cfg nul ""); CAddSubcommands ["build"]; CParse] /\ arguments (w_parser w) = ["./app"; "word"] /\
  kinds (snd (run false bk0 cs w)) = [ORet; ORet; OThrow KUserInput].
Proof. exists (app ["word"]). eexists. split; [exact (fresh_new 1 "app" _ false [] [])|]. split; [reflexivity|]. split; reflexivity. Qed.
Print Assumptions C24_order_refuted.

(** exactly when both are there *)
Theorem C24_exact : forall ndebug bk i name args dev subs exe vs f cs,
  let w := {| w_parser := set_executable_name exe (construct i name args dev subs); w_vars := vs; w_fs := f |} in
  let log := snd (run ndebug bk cs w) in
  ((exists x t c, In (DPositional x t c) (accepted log)) /\ subcommands (w_parser (fst (run ndebug bk cs w))) <> []) <->
  exists l1 x t c r l2, log = l1 ++ (CAddPositional x t c, r) :: l2 /\ returned r = true /\ exists s l l3 r' l4, l2 = l3 ++ (CAddSubcommands (s :: l), r') :: l4.
Proof. exact both_lemma. Qed.
Print Assumptions C24_exact.

Example C24_case_both : let calls := [CAddPositional 4 (Scalar TString) (cfg nul ""); CAddSubcommands ["build"]; CParse] in
  accepted (snd (run false bk0 calls (app ["-"]))) = [DPositional 4 (Scalar TString) (cfg nul "")] /\ subcommands (w_parser (fst (run false bk0 calls (app ["-"])))) = ["build"] /\
  kinds (snd (run false bk0 calls (app ["-"]))) = [ORet; ORet; ORet] /\ w_vars (fst (run false bk0 calls (app ["-"]))) 4 = VStr "-" /\
  kinds (snd (run false bk0 calls (app ["--"; "-x"; "build"]))) = [ORet; ORet; ORet] /\ w_vars (fst (run false bk0 calls (app ["--"; "-x"; "build"]))) 4 = VStr "-x" /\
  kinds (snd (run false bk0 calls (app ["--"; "x"]))) = [ORet; ORet; OThrow KUserInput] /\ kinds (snd (run false bk0 calls (app ["build"]))) = [ORet; ORet; OThrow KTooFew].
Proof. repeat split; vm_compute; reflexivity. Qed.

(** ** C25 *)

Theorem C25_frozen : forall ndebug bk cs w c, In CParse (map fst (snd (run ndebug bk cs w))) -> shapes c = true \/ c = CParse ->
  exists m, step ndebug bk c (fst (run ndebug bk cs w)) = (fst (run ndebug bk cs w), Throw (Exn KDesign m)).
Proof. exact frozen_lemma. Qed.
Print Assumptions C25_frozen.

Example C25_case :
  kinds (snd (run false bk0 (four ++ [CParse; CAddFlag 2 (cfg "z" ""); CParse; CAddLine "text" true false; CIsSet (IdLong "all")])
                (app ["--all"; "--strange"]))) =
  [ORet; ORet; ORet; ORet; OThrow KUnknownOption; OThrow KDesign; OThrow KDesign; OThrow KDesign; ORet].
Proof. reflexivity. Qed.

(** ** C26 *)

Theorem C26_subcommands : forall ndebug bk i name args dev subs exe vs f cs,
  let w := {| w_parser := set_executable_name exe (construct i name args dev subs); w_vars := vs; w_fs := f |} in
  let p := w_parser (fst (run ndebug bk cs w)) in
  sorted (subcommands p) /\ forall s, In s (subcommands p) <-> In s subs \/ In s (ever_added (snd (run ndebug bk cs w))).
Proof. exact subcommands_lemma. Qed.
Print Assumptions C26_subcommands.

Example C26_case : subcommands (w_parser (fst (run false bk0 [CAddSubcommands ["push"; "add"]; CAddFlag 2 (cfg "a" "all");
    CAddSubcommands ["pull"; "push"; "Zip"]; CAddSubcommands []] (app_with [] ["pull"; "add"; "add"])))) = ["Zip"; "add"; "pull"; "push"].
Proof. reflexivity. Qed.

(** ** C28: what the arguments mean *)

(** every argument vector falls into pieces, in exactly one way *)
Theorem C28_pieces_exist : forall opts subs args, exists ks, pieces opts subs args ks.
Proof. intros opts subs args. exact (pieces_exist opts subs (List.length args) args (le_n _)). Qed.
Print Assumptions C28_pieces_exist.
Theorem C28_pieces_unique : forall opts subs args ks ks', pieces opts subs args ks -> pieces opts subs args ks' -> ks = ks'.
Proof. intros opts subs args ks ks' H. exact (pieces_unique opts subs args ks H ks'). Qed.
Print Assumptions C28_pieces_unique.

(** parse() does what the pieces say *)
Theorem C28_parse : forall ndebug bk w0 w log a args ks, prepared ndebug bk w0 w log -> arguments (w_parser w0) = a :: args ->
  good_name (m_app_name (info (w_parser w))) -> (forall s, In s (subcommands (w_parser w)) -> good_name s) ->
  pieces (option_texts (accepted log)) (subcommands (w_parser w)) args ks ->
  exists w1 r, step ndebug bk CParse w = (w1, r) /\
  match first_error (bk_tdl bk) (subcommands (w_parser w)) ks with
  | Some e => w_vars w1 = w_vars w /\ w_fs w1 = w_fs w /\ r = Throw e
  | None => (w_vars w1, w_fs w1, r) =
      (let '(vs, f, r) := expected ndebug bk (info (w_parser w)) (subcommands (w_parser w)) (dev_decision (w_parser w0))
                            (executable_name (w_parser w0) ++ [a]) (accepted_ops log) (accepted log) ks (w_vars w) (w_fs w)
       in (vs, f, with_value r))
  end.
Proof. exact parse_outcome. Qed.
Print Assumptions C28_parse.

(** -i takes --help as its value; the last request wins; the check's value is taken out *)
Definition mixed : list string := ["-i"; "--help"; "-a"; "--version"; "--version-check"; "0"; "--export-help=man"; "x"; "-l"].
Lemma mixed_pieces : pieces ["-i"; "--int"; "-l"; "--list"] [] mixed
  [KValue "-i" "--help"; KWord "-a"; KPage "--version" FVersion; KCheck "0"; KExport "man" true; KWord "x"; KAlone "-l"].
Proof.
  assert (W : forall a, mem a ["-i"; "--int"; "-l"; "--list"; "-h"; "--help"; "-hh"; "--advanced-help"; "--version"; "--copyright"; "--export-help"; "--version-check"] = false ->
    starts_with "--export-help=" a = false -> piece_ok ["-i"; "--int"; "-l"; "--list"] [] (KWord a)).
  { intros a H E. apply mem_false in H. split; [|split; [|intros []]].
    - intros [[f Hf]|[->|[[v ->]| ->]]].
      + apply H. cbn in Hf. cbn. decompose [or] Hf; try contradiction; match goal with X : (_, _) = (_, _) |- _ => injection X as <- _ end; tauto.
      + apply H. cbn. tauto.
      + destruct v; vm_compute in E; discriminate E.
      + apply H. cbn. tauto.
    - intros Hi. apply H. cbn in *. tauto. }
  apply (pieces_cons _ _ (KValue "-i" "--help")); [cbn; tauto|reflexivity|].
  apply (pieces_cons _ _ (KWord "-a")); [now apply W|reflexivity|].
  apply (pieces_cons _ _ (KPage "--version" FVersion)); [cbn; intuition discriminate|reflexivity|].
  apply (pieces_cons _ _ (KCheck "0")); [cbn; intuition discriminate|reflexivity|].
  apply (pieces_cons _ _ (KExport "man" true)); [cbn; intuition discriminate|reflexivity|].
  apply (pieces_cons _ _ (KWord "x")); [now apply W|reflexivity|].
  apply (pieces_last _ _ (KAlone "-l")); [cbn; tauto|reflexivity].
Qed.

Lemma four_log args : snd (run false bk0 four (app args)) = map (fun c => (c, Ret true)) four.
Proof. vm_compute. reflexivity. Qed.

Lemma four_prepared args : let w := fst (run false bk0 four (app args)) in exists log, prepared false bk0 (app args) w log /\
  accepted log = flat_map call_decl four.
Proof.
  cbn zeta. exists (snd (run false bk0 four (app args))). split.
  - split; [exact (fresh_new 1 "app" _ false [] [])|]. split; [exists four; apply surjective_pairing|].
    rewrite four_log. intros c r [H|[H|[H|[H|[]]]]]; injection H as <- <-; (split; [discriminate|split; reflexivity]).
  - rewrite four_log. reflexivity.
Qed.

Example C28_case : exists w log, prepared false bk0 (app mixed) w log /\ accepted log = flat_map call_decl four /\
  arguments (w_parser (app mixed)) = "./app" :: mixed /\ option_texts (accepted log) = ["-i"; "--int"; "-l"; "--list"] /\
  (exists ks, pieces (option_texts (accepted log)) (subcommands (w_parser w)) mixed ks /\ first_error (bk_tdl bk0) [] ks = None /\ chosen ks = FMan) /\
  snd (step false bk0 CParse w) = Exit "app".
Proof.
  destruct (four_prepared mixed) as (log & P & A). eexists _, log. split; [exact P|]. split; [exact A|]. split; [reflexivity|].
  rewrite A. split; [reflexivity|]. split.
  - eexists. split; [exact mixed_pieces|]. split; reflexivity.
  - vm_compute. reflexivity.
Qed.

(** The requests are also honoured behind "--" (C13: everything there should be positional). *)
Theorem C13_special_request_refuted : exists w, fresh (w_parser w) /\ arguments (w_parser w) = ["./app"; "--"; "--help"] /\
  kinds (snd (run false bk0 [CAddPositional 4 (Scalar TString) (cfg nul ""); CParse] w)) = [ORet; OExit].
Proof. exists (app ["--"; "--help"]). split; [exact (fresh_new 1 "app" _ false [] [])|]. split; reflexivity. Qed.
Print Assumptions C13_special_request_refuted.

(** ** C29 *)

Theorem C29_handover : forall ndebug bk w0 w log a args ks s rest, prepared ndebug bk w0 w log -> arguments (w_parser w0) = a :: args ->
  good_name (m_app_name (info (w_parser w))) -> (forall s, In s (subcommands (w_parser w)) -> good_name s) ->
  pieces (option_texts (accepted log)) (subcommands (w_parser w)) args ks -> first_error (bk_tdl bk) (subcommands (w_parser w)) ks = None ->
  last_some piece_sub ks = Some (s, rest) ->
  exists w1 r q front, step ndebug bk CParse w = (w1, r) /\ args = front ++ rest /\ (exists more, rest = s :: more) /\ In s (subcommands (w_parser w)) /\
    sub_parser (w_parser w1) = Some q /\ fresh q /\ arguments q = rest /\ subcommands q = [] /\ dev_decision q = false /\
    m_app_name (info q) = m_app_name (info (w_parser w)) +s+ "-" +s+ s /\ good_name (m_app_name (info q)) /\
    executable_name q = executable_name (w_parser w0) ++ [a].
Proof. exact handover_lemma. Qed.
Print Assumptions C29_handover.

(** the front part: if it holds no special requests, exactly these arguments are parsed by the top-level parser *)
Theorem C29_front : forall opts subs args ks s rest, pieces opts subs args ks -> last_some piece_sub ks = Some (s, rest) ->
  exists front ks', args = front ++ rest /\ ks = ks' ++ [KSub s (List.tl rest)] /\ pieces opts subs front ks' /\
  ((forall k, In k ks' -> match k with KValue _ _ | KAlone _ | KWord _ => True | _ => False end) -> flat_map own_texts ks = front).
Proof. exact front_lemma. Qed.
Print Assumptions C29_front.

(** working with the sub-parser is working with a parser of its own, at any depth *)
Theorem C29_sub_program : forall ndebug bk cs w q w1 log, sub_parser (w_parser w) = Some q ->
  run ndebug bk cs {| w_parser := q; w_vars := w_vars w; w_fs := w_fs w |} = (w1, log) ->
  run ndebug bk (map CSub cs) w =
  ({| w_parser := set_sub (Some (w_parser w1)) (w_parser w); w_vars := w_vars w1; w_fs := w_fs w1 |},
   map (fun e => (CSub (fst e), snd e)) log).
Proof. exact sub_run. Qed.
Print Assumptions C29_sub_program.

(** another word *)
Theorem C29_unknown_word : forall ndebug bk w0 w log a args ks1 word ks2, prepared ndebug bk w0 w log -> arguments (w_parser w0) = a :: args ->
  good_name (m_app_name (info (w_parser w))) -> (forall s, In s (subcommands (w_parser w)) -> good_name s) ->
  pieces (option_texts (accepted log)) (subcommands (w_parser w)) args (ks1 ++ KWord word :: ks2) ->
  first_error (bk_tdl bk) (subcommands (w_parser w)) ks1 = None -> subcommands (w_parser w) <> [] -> begins "-" word = false ->
  exists w1, step ndebug bk CParse w =
    (w1, Throw (Exn KUserInput ("You specified an unknown subcommand! Available subcommands are: [" +s+
                                String.concat ", " (subcommands (w_parser w)) +s+ "]. Use -h/--help for more information."))) /\
    w_vars w1 = w_vars w /\ w_fs w1 = w_fs w.
Proof. exact unknown_word. Qed.
Print Assumptions C29_unknown_word.

(** no sub-parser before parse() and none without a subcommand: design error, nothing changes *)
Theorem C29_no_sub_parser : forall ndebug bk w0 w log c, prepared ndebug bk w0 w log ->
  let refused := Throw (Exn KDesign "No subcommand was provided at the construction of the argument parser!") in
  step ndebug bk (CSub c) w = (w, refused) /\
  forall a args ks w1 r, arguments (w_parser w0) = a :: args ->
    good_name (m_app_name (info (w_parser w))) -> (forall s, In s (subcommands (w_parser w)) -> good_name s) ->
    pieces (option_texts (accepted log)) (subcommands (w_parser w)) args ks -> first_error (bk_tdl bk) (subcommands (w_parser w)) ks = None ->
    last_some piece_sub ks = None -> step ndebug bk CParse w = (w1, r) -> step ndebug bk (CSub c) w1 = (w1, refused).
Proof.
  intros ndebug bk w0 w log c P. split; [exact (no_sub_before ndebug bk w0 w log c P)|].
  intros a args ks w1 r. exact (fun A => no_handover ndebug bk w0 w log a args ks c w1 r P A).
Qed.
Print Assumptions C29_no_sub_parser.
Example C29_case_none :
  kinds (snd (run false bk0 (four ++ [CSub CParse; CParse; CSub CParse]) (app_with ["-i"; "3"; "-a"] ["pull"; "push"]))) =
  [ORet; ORet; ORet; ORet; OThrow KDesign; ORet; OThrow KDesign].
Proof. vm_compute. reflexivity. Qed.

Example C29_case :
  let cs := four ++ [CParse; CSub (CAddSubcommands ["origin"]); CSub (CAddFlag 2 (cfg "f" "force")); CSub CParse;
                     CSub (CSub (CAddPositional 4 (Scalar TString) (cfg nul ""))); CSub (CSub CParse)] in
  let w := fst (run false bk0 cs (app_with ["-i"; "push"; "-a"; "push"; "-f"; "origin"; "push"] ["pull"; "push"])) in
  let log := snd (run false bk0 cs (app_with ["-i"; "push"; "-a"; "push"; "-f"; "origin"; "push"] ["pull"; "push"])) in
  (* -i is an int option, "push" is no value for it *)
  kinds log = [ORet; ORet; ORet; ORet; OThrow KUserInput; ORet; ORet; ORet; ORet; ORet] /\ w_vars w 4 = VStr "push" /\
  match sub_parser (w_parser w) with
  | Some q => arguments q = ["push"; "-f"; "origin"; "push"] /\ m_app_name (info q) = "app-push" /\
      match sub_parser q with
      | Some q' => arguments q' = ["origin"; "push"] /\ m_app_name (info q') = "app-push-origin" /\
                   executable_name q' = ["./app"; "push"; "origin"]
      | None => False
      end
  | None => False
  end.
Proof. vm_compute. repeat split. Qed.

(** ** C30 *)

Theorem C30_names : forall ndebug bk w, parse_was_called (w_parser w) = false ->
  ~ (good_name (m_app_name (info (w_parser w))) /\ forall s, In s (subcommands (w_parser w)) -> good_name s) ->
  exists m, step ndebug bk CParse w = ({| w_parser := set_called true (w_parser w); w_vars := w_vars w; w_fs := w_fs w |}, Throw (Exn KDesign m)).
Proof. exact named_step. Qed.
Print Assumptions C30_names.

Example C30_case : let w s := {| w_parser := construct 1 s ["x"] false []; w_vars := vars0; w_fs := no_fs |} in
  map (fun s => okind_of (snd (step false bk0 CParse (w s)))) [""; "my app"; "b" +s+ str1 (ascii_of_nat 10); "my_app-2"] =
  [OThrow KDesign; OThrow KDesign; OThrow KDesign; OExit].
Proof. reflexivity. Qed.

(** ** C31 *)

Theorem C31_values : forall ndebug bk w0 w log a args ks1 k ks2, prepared ndebug bk w0 w log -> arguments (w_parser w0) = a :: args ->
  good_name (m_app_name (info (w_parser w))) -> (forall s, In s (subcommands (w_parser w)) -> good_name s) ->
  pieces (option_texts (accepted log)) (subcommands (w_parser w)) args (ks1 ++ k :: ks2) ->
  first_error (bk_tdl bk) (subcommands (w_parser w)) ks1 = None ->
  let rejected kind m := exists w1, step ndebug bk CParse w = (w1, Throw (Exn kind m)) /\ w_vars w1 = w_vars w /\ w_fs w1 = w_fs w in
  match k with
  | KExport v _ => ~ In v ["html"; "man"; "ctd"; "cwl"] ->
      rejected KValidation ("Validation failed for option --export-help: Value must be one of " +s+
                            (if bk_tdl bk then "[html, man, ctd, cwl]." else "[html, man]."))
  | KCheck v => ~ In v ["0"; "1"; "true"; "false"] ->
      rejected KValidation "Value for option --version-check must be true (1) or false (0)."
  | KNoValue a => rejected KTooFew ("Option " +s+ a +s+ " must be followed by a value.")
  | _ => True
  end.
Proof. exact values_rejected. Qed.
Print Assumptions C31_values.

(** accepted values select the page and the decision, and are not seen by the application's options *)
Theorem C31_accepted : forall v, In v ["html"; "man"; "ctd"; "cwl"] <-> lookup v exports <> None.
Proof. exact exports_iff. Qed.
Print Assumptions C31_accepted.
Theorem C31_not_passed_on : forall ndebug bk w0 w log a args ks w1 r, prepared ndebug bk w0 w log -> arguments (w_parser w0) = a :: args ->
  good_name (m_app_name (info (w_parser w))) -> (forall s, In s (subcommands (w_parser w)) -> good_name s) ->
  pieces (option_texts (accepted log)) (subcommands (w_parser w)) args ks -> first_error (bk_tdl bk) (subcommands (w_parser w)) ks = None ->
  step ndebug bk CParse w = (w1, r) ->
  user_decision (w_parser w1) = last_some piece_check ks /\ fmt (w_parser w1) = chosen ks /\
  format_arguments (w_parser w1) = flat_map (fun k => match k with KExport _ _ | KCheck _ => [] | _ => own_texts k end) ks.
Proof. exact not_passed_on. Qed.
Print Assumptions C31_not_passed_on.

Example C31_case :
  map (fun args => okind_of (snd (step false bk0 CParse (fst (run false bk0 four (app args))))))
    [["--version-check"; "yes"]; ["--version-check"; "TRUE"]; ["--version-check"; "true"; "-a"]; ["--version-check"]; ["-a"; "--version-check=1"];
     ["--export-help"; "pdf"]; ["--export-help=man"]; ["--export-help"; "html"]; ["-a"; "--export-help"]; ["--export-help="]] =
  [OThrow KValidation; OThrow KValidation; ORet; OThrow KTooFew; OThrow KUnknownOption;
   OThrow KValidation; OExit; OExit; OThrow KTooFew; OThrow KValidation].
Proof. reflexivity. Qed.

(** version-check is not a reserved identifier: an option of this name takes the user's decision away *)
Theorem C31_own_option_refuted : exists w cs, fresh (w_parser w) /\ cs = [CAddOption 4 (Scalar TString) (cfg nul "version-check"); CParse] /\
  arguments (w_parser w) = ["./app"; "--version-check"; "0"] /\ kinds (snd (run false bk0 cs w)) = [ORet; ORet] /\
  w_vars (fst (run false bk0 cs w)) 4 = VStr "0" /\ user_decision (w_parser (fst (run false bk0 cs w))) = None.
Proof.
  exists (app ["--version-check"; "0"]). eexists. split; [exact (fresh_new 1 "app" _ false [] [])|]. split; [reflexivity|].
  split; [reflexivity|]. split; [reflexivity|]. split; reflexivity.
Qed.
Print Assumptions C31_own_option_refuted.

(** ** C27 *)

Theorem C27_rejected : forall ndebug bk cs w0 w log i, fresh (w_parser w0) -> run ndebug bk cs w0 = (w, log) ->
  ~ In CParse (map fst log) \/ (exists s, i = IdLong s /\ String.length s = 1) \/ (~ In (id_name i) (tried_names log) /\ ~ In (id_name i) reserved) ->
  exists m, step ndebug bk (CIsSet i) w = (w, Throw (Exn KDesign m)).
Proof. exact set_rejects. Qed.
Print Assumptions C27_rejected.

(** for every declared identifier and every argument vector: true iff some argument before "--" looks like it *)
Theorem C27_answers : forall ndebug bk w0 w log a args ks w1 r i b rest, prepared ndebug bk w0 w log -> arguments (w_parser w0) = a :: args ->
  good_name (m_app_name (info (w_parser w))) -> (forall s, In s (subcommands (w_parser w)) -> good_name s) ->
  pieces (option_texts (accepted log)) (subcommands (w_parser w)) args ks -> first_error (bk_tdl bk) (subcommands (w_parser w)) ks = None ->
  step ndebug bk CParse w = (w1, r) -> In i (flat_map decl_idents (accepted log)) -> cut (flat_map own_texts ks) b rest ->
  exists answer, step ndebug bk (CIsSet i) w1 = (w1, Ret answer) /\ (answer = true <-> exists t, In t b /\ looks_like i t = true).
Proof. exact set_answers. Qed.
Print Assumptions C27_answers.

(** Full statement: also for flags, and for the other identifier of the same option (refuted below).  For a well-formed
    command line and an option's identifier the answer is the right one. *)
Theorem C27_options_partial : forall ndebug bk w0 w log a inv w1 r i, prepared ndebug bk w0 w log -> arguments (w_parser w0) = a :: render inv ->
  good_name (m_app_name (info (w_parser w))) -> subcommands (w_parser w) = [] ->
  wf_invocation (accepted log) inv = true -> (forall t, In t (render inv) -> ~ special t) ->
  step ndebug bk CParse w = (w1, r) -> In i (flat_map option_idents (accepted log)) ->
  exists answer, step ndebug bk (CIsSet i) w1 = (w1, Ret answer) /\ (answer = true <-> values_of (items inv) i <> []).
Proof. exact set_options_lemma. Qed.
Print Assumptions C27_options_partial.

Example C27_case : exists w log, prepared false bk0 (app (render sample_inv)) w log /\ accepted log = flat_map call_decl four /\
  wf_invocation (accepted log) sample_inv = true /\ subcommands (w_parser w) = [] /\
  map (fun i => snd (step false bk0 (CIsSet i) (fst (step false bk0 CParse w)))) [IdShort "i"; IdLong "int"; IdLong "list"; IdShort "l"] =
  [Ret true; Ret false; Ret true; Ret false] /\
  map (values_of (items sample_inv)) [IdShort "i"; IdLong "int"; IdLong "list"; IdShort "l"] = [[Some "5"]; []; [Some "1"; Some "-2"]; []].
Proof.
  destruct (four_prepared (render sample_inv)) as (log & P & A). eexists _, log. split; [exact P|]. split; [exact A|]. rewrite A.
  split; [reflexivity|]. split; [reflexivity|]. split; vm_compute; reflexivity.
Qed.

(** asking for -i although --int was given; for the flag b in the cluster -ab; for the flag a although "-a" was a value *)
Theorem C27_other_name_refuted : exists cs w, cs = four ++ [CParse; CIsSet (IdLong "int"); CIsSet (IdShort "i")] /\
  arguments (w_parser w) = ["./app"; "--int"; "5"] /\ fresh (w_parser w) /\
  answers (snd (run false bk0 cs w)) = [Some true; Some true; Some true; Some true; Some true; Some true; Some false].
Proof. eexists _, (app ["--int"; "5"]). split; [reflexivity|]. split; [reflexivity|]. split; [exact (fresh_new 1 "app" _ false [] [])|]. reflexivity. Qed.
Print Assumptions C27_other_name_refuted.

Theorem C27_cluster_refuted : exists cs w, cs = four ++ [CParse; CIsSet (IdShort "b")] /\ arguments (w_parser w) = ["./app"; "-ab"] /\
  fresh (w_parser w) /\ w_vars (fst (run false bk0 cs w)) 3 = VBool true /\
  answers (snd (run false bk0 cs w)) = [Some true; Some true; Some true; Some true; Some true; Some false].
Proof.
  eexists _, (app ["-ab"]). split; [reflexivity|]. split; [reflexivity|]. split; [exact (fresh_new 1 "app" _ false [] [])|]. split; reflexivity.
Qed.
Print Assumptions C27_cluster_refuted.

Theorem C27_value_refuted : exists cs w, cs = [CAddOption 4 (Scalar TString) (cfg "s" ""); CAddFlag 2 (cfg "a" "all"); CParse; CIsSet (IdShort "a")] /\
  arguments (w_parser w) = ["./app"; "-s"; "-a"] /\ fresh (w_parser w) /\
  w_vars (fst (run false bk0 cs w)) 4 = VStr "-a" /\ w_vars (fst (run false bk0 cs w)) 2 = VBool false /\
  answers (snd (run false bk0 cs w)) = [Some true; Some true; Some true; Some true].
Proof.
  eexists _, (app ["-s"; "-a"]). split; [reflexivity|]. split; [reflexivity|]. split; [exact (fresh_new 1 "app" _ false [] [])|].
  split; [reflexivity|]. split; reflexivity.
Qed.
Print Assumptions C27_value_refuted.

(** reserved identifiers were never added with add_option() but are accepted *)
Theorem C27_reserved_refuted : exists cs w, cs = [CAddFlag 2 (cfg "a" "all"); CParse; CIsSet (IdLong "help")] /\ fresh (w_parser w) /\
  answers (snd (run false bk0 cs w)) = [Some true; Some true; Some false].
Proof. eexists _, (app ["-a"]). split; [reflexivity|]. split; [exact (fresh_new 1 "app" _ false [] [])|]. reflexivity. Qed.
Print Assumptions C27_reserved_refuted.

(** ** C52 *)

(** Full statement: without the third hypothesis (refuted below): a parser may be moved before anything is added to it,
    or after parse(). *)
Theorem C52_move_partial : forall ndebug bk cs1 cs2 w0 w log i alive w1 r, fresh (w_parser w0) -> run ndebug bk cs1 w0 = (w, log) ->
  accepted_ops log = [] \/ In CParse (map fst log) ->
  (forall c, In c cs2 -> is_move c = false) ->
  step ndebug bk (CMove i alive) w = (w1, r) ->
  r = Ret true /\ indistinguishable (run ndebug bk cs2 w1) (run ndebug bk cs2 w).
Proof. exact move_lemma. Qed.
Print Assumptions C52_move_partial.

Example C52_case :
  let cs1 := [CAddFlag 2 (cfg "-" ""); CAddSubcommands ["push"]; CMove 7 false] in
  let log := snd (run false bk0 cs1 (app ["-ab"])) in
  accepted_ops log = [] /\ kinds log = [OThrow KDesign; ORet; ORet] /\
  kinds (snd (run false bk0 (cs1 ++ [CMove 1 false] ++ four ++ [CParse; CMove 3 false; CIsSet (IdShort "a")]) (app ["-ab"]))) =
  [OThrow KDesign; ORet; ORet; ORet; ORet; ORet; ORet; ORet; ORet; ORet; ORet].
Proof. split; [reflexivity|]. split; reflexivity. Qed.

(** moved after declaring options: they are unknown to the new object *)
Theorem C52_lost_refuted : exists w cs, fresh (w_parser w) /\ cs = [CAddFlag 2 (cfg "a" "all"); CMove 2 true; CParse] /\
  arguments (w_parser w) = ["./app"; "-a"] /\ kinds (snd (run false bk0 cs w)) = [ORet; ORet; OThrow KUnknownOption] /\
  kinds (snd (run false bk0 [CAddFlag 2 (cfg "a" "all"); CParse] w)) = [ORet; ORet].
Proof.
  exists (app ["-a"]). eexists. split; [exact (fresh_new 1 "app" _ false [] [])|]. split; [reflexivity|]. split; [reflexivity|]. split; reflexivity.
Qed.
Print Assumptions C52_lost_refuted.

(** and undefined behaviour if the old object is gone (e.g. returned from a function), for every declaration and
    argument vector that is accepted so far *)
Theorem C52_dangling_refuted : exists w, fresh (w_parser w) /\ arguments (w_parser w) = ["./app"; "-a"] /\
  kinds (snd (run false bk0 [CAddFlag 2 (cfg "a" "all"); CMove 2 false; CParse] w)) = [ORet; ORet; OUB].
Proof. exists (app ["-a"]). split; [exact (fresh_new 1 "app" _ false [] [])|]. split; reflexivity. Qed.
Print Assumptions C52_dangling_refuted.

(** ** C20 at the level of the parser *)

(** An empty argument vector (argc = 0) is not handled. *)
Theorem C20_empty_vector_refuted : exists w, fresh (w_parser w) /\ arguments (w_parser w) = [] /\
  kinds (snd (run true bk0 [CParse] w)) = [OUB] /\ kinds (snd (run false bk0 [CParse] w)) = [OAssert].
Proof.
  exists {| w_parser := construct 1 "app" [] false []; w_vars := vars0; w_fs := no_fs |}. split; [exact (fresh_new 1 "app" _ false [] [])|].
  split; [reflexivity|]. split; reflexivity.
Qed.
Print Assumptions C20_empty_vector_refuted.

(** ** C56: from declarations and command line to variables *)

(** also if declarations were rejected *)
Theorem C56_end_to_end : forall ndebug bk w0 w log a inv f1, assembled ndebug bk w0 w log -> arguments (w_parser w0) = a :: render inv ->
  good_name (m_app_name (info (w_parser w))) -> subcommands (w_parser w) = [] ->
  wf_invocation (accepted log) inv = true -> render inv <> [] -> (forall t, In t (render inv) -> ~ special t) ->
  bk_version_check bk (info (w_parser w)) (dev_decision (w_parser w0)) None (w_fs w) = (f1, Ret tt) ->
  exists w1 r, step ndebug bk CParse w = (w1, r) /\
    let '(st, e) := eval ndebug (accepted log) inv {| s_vars := w_vars w; s_fs := f1 |} in
    w_vars w1 = s_vars st /\ w_fs w1 = s_fs st /\ okind_of r = okind_of e.
Proof. exact end_to_end. Qed.
Print Assumptions C56_end_to_end.

Definition simple_inv : invocation :=
  {| items := [IOpt (IdShort "i") Joined "5"; ICluster "ab"; IOpt (IdLong "list") Separate "-1"; IOpt (IdLong "list") Equals "4"]; tail := None |}.
Example C56_case : exists w log, prepared false bk0 (app (render simple_inv)) w log /\
  wf_invocation (accepted log) simple_inv = true /\ render simple_inv = ["-i5"; "-ab"; "--list"; "-1"; "--list=4"] /\
  (forall t, In t (render simple_inv) -> ~ special t) /\
  snd (step false bk0 CParse w) = Ret true /\
  map (w_vars (fst (step false bk0 CParse w))) [0; 1; 2; 3] = [VInt 5; VList [VInt (-1); VInt 4]; VBool true; VBool true].
Proof.
  destruct (four_prepared (render simple_inv)) as (log & P & A). eexists _, log. split; [exact P|]. rewrite A.
  split; [reflexivity|]. split; [reflexivity|]. split.
  - intros t Ht [[f Hf]|[E|[[v E]|E]]]; cbn in Ht; decompose [or] Ht; subst; try contradiction; try discriminate;
      cbn in Hf; intuition discriminate.
  - split; vm_compute; reflexivity.
Qed.

(** a rejected option --foo in between *)
Example C56_rejected_case : let cs := CAddFlag 3 (cfg nul "help") :: bad_foo :: four in
  let w := fst (run false bk0 cs (app (render simple_inv))) in let log := snd (run false bk0 cs (app (render simple_inv))) in
  assembled false bk0 (app (render simple_inv)) w log /\ kinds log = [OThrow KDesign; OThrow KDesign; ORet; ORet; ORet; ORet] /\
  accepted log = flat_map call_decl four /\ wf_invocation (accepted log) simple_inv = true /\
  map (w_vars (fst (step false bk0 CParse w))) [0; 1; 2; 3] = [VInt 5; VList [VInt (-1); VInt 4]; VBool true; VBool true].
Proof.
  cbn zeta. set (cs := CAddFlag 3 (cfg nul "help") :: bad_foo :: four).
  assert (L : map fst (snd (run false bk0 cs (app (render simple_inv)))) = cs) by reflexivity.
  split; [split; [exact (fresh_new 1 "app" _ false [] [])|split; [exists cs; apply surjective_pairing|]]|].
  - intros c r H. assert (Hc : In c cs) by (rewrite <- L; now apply (in_map fst) in H).
    cbn in Hc. decompose [or] Hc; subst; try contradiction; (split; [discriminate|reflexivity]).
  - split; [reflexivity|]. split; [reflexivity|]. split; [reflexivity|]. vm_compute. reflexivity.
Qed.
