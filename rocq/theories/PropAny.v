(** Properties of parse() for programs in which declarations may have been rejected (C27, C28, C29, C31, C79). *)
From Verif Require Import Base StrLib Fs Values Validators FormatParse Invocation ScanSpec Samples Parser ParserSpec ParserProofs ParserPieces
  ProgramSpec PropProgram DeclSpec DeclProofs AnyProgram.

(** parse() does what the pieces say, also if declarations were rejected: what counts is which texts are known as options *)
Theorem C28_any : forall ndebug bk w0 w log opts a args ks, assembled ndebug bk w0 w log -> announces log opts -> arguments (w_parser w0) = a :: args ->
  good_name (m_app_name (info (w_parser w))) -> (forall s, In s (subcommands (w_parser w)) -> good_name s) ->
  pieces opts (subcommands (w_parser w)) args ks ->
  exists w1 r, step ndebug bk CParse w = (w1, r) /\
  match first_error (bk_tdl bk) (subcommands (w_parser w)) ks with
  | Some e => w_vars w1 = w_vars w /\ w_fs w1 = w_fs w /\ r = Throw e
  | None => (w_vars w1, w_fs w1, r) =
      (let '(vs, f, r) := expected ndebug bk (info (w_parser w)) (subcommands (w_parser w)) (dev_decision (w_parser w0))
                            (executable_name (w_parser w0) ++ [a]) (accepted_ops log) (accepted log) ks (w_vars w) (w_fs w)
       in (vs, f, with_value r))
  end.
Proof. exact parse_outcome_any. Qed.
Print Assumptions C28_any.

Theorem C29_handover_any : forall ndebug bk w0 w log opts a args ks s rest, assembled ndebug bk w0 w log -> announces log opts -> arguments (w_parser w0) = a :: args ->
  good_name (m_app_name (info (w_parser w))) -> (forall s, In s (subcommands (w_parser w)) -> good_name s) ->
  pieces opts (subcommands (w_parser w)) args ks -> first_error (bk_tdl bk) (subcommands (w_parser w)) ks = None ->
  last_some piece_sub ks = Some (s, rest) ->
  exists w1 r q front, step ndebug bk CParse w = (w1, r) /\ args = front ++ rest /\ (exists more, rest = s :: more) /\ In s (subcommands (w_parser w)) /\
    sub_parser (w_parser w1) = Some q /\ fresh q /\ arguments q = rest /\ subcommands q = [] /\ dev_decision q = false /\
    m_app_name (info q) = m_app_name (info (w_parser w)) +s+ "-" +s+ s /\ good_name (m_app_name (info q)) /\
    executable_name q = executable_name (w_parser w0) ++ [a].
Proof. exact handover_any. Qed.
Print Assumptions C29_handover_any.

Theorem C29_unknown_word_any : forall ndebug bk w0 w log opts a args ks1 word ks2, assembled ndebug bk w0 w log -> announces log opts -> arguments (w_parser w0) = a :: args ->
  good_name (m_app_name (info (w_parser w))) -> (forall s, In s (subcommands (w_parser w)) -> good_name s) ->
  pieces opts (subcommands (w_parser w)) args (ks1 ++ KWord word :: ks2) ->
  first_error (bk_tdl bk) (subcommands (w_parser w)) ks1 = None -> subcommands (w_parser w) <> [] -> begins "-" word = false ->
  exists w1, step ndebug bk CParse w =
    (w1, Throw (Exn KUserInput ("You specified an unknown subcommand! Available subcommands are: [" +s+
                                String.concat ", " (subcommands (w_parser w)) +s+ "]. Use -h/--help for more information."))) /\
    w_vars w1 = w_vars w /\ w_fs w1 = w_fs w.
Proof. exact unknown_word_any. Qed.
Print Assumptions C29_unknown_word_any.

Theorem C29_no_sub_parser_any : forall ndebug bk w0 w log opts a args ks c w1 r, assembled ndebug bk w0 w log -> announces log opts -> arguments (w_parser w0) = a :: args ->
  good_name (m_app_name (info (w_parser w))) -> (forall s, In s (subcommands (w_parser w)) -> good_name s) ->
  pieces opts (subcommands (w_parser w)) args ks -> first_error (bk_tdl bk) (subcommands (w_parser w)) ks = None ->
  last_some piece_sub ks = None -> step ndebug bk CParse w = (w1, r) ->
  step ndebug bk (CSub c) w1 = (w1, Throw (Exn KDesign "No subcommand was provided at the construction of the argument parser!")).
Proof. exact no_handover_any. Qed.
Print Assumptions C29_no_sub_parser_any.

Theorem C31_values_any : forall ndebug bk w0 w log opts a args ks1 k ks2, assembled ndebug bk w0 w log -> announces log opts -> arguments (w_parser w0) = a :: args ->
  good_name (m_app_name (info (w_parser w))) -> (forall s, In s (subcommands (w_parser w)) -> good_name s) ->
  pieces opts (subcommands (w_parser w)) args (ks1 ++ k :: ks2) ->
  first_error (bk_tdl bk) (subcommands (w_parser w)) ks1 = None ->
  let rejected kind m := exists w1, step ndebug bk CParse w = (w1, Throw (Exn kind m)) /\ w_vars w1 = w_vars w /\ w_fs w1 = w_fs w in
  match k with
  | KExport v _ => ~ In v ["html"; "man"; "ctd"; "cwl"] ->
      rejected KValidation ("Validation failed for option --export-help: Value must be one of " +s+
                            (if bk_tdl bk then "[html, man, ctd, cwl]." else "[html, man]."))
  | KCheck v => ~ In v ["0"; "1"; "true"; "false"] ->
      rejected KValidation "Value for option --version-check must be true (1) or false (0)."
  | KNoValue a => rejected KTooFew ("Option " +s+ a +s+ " must be followed by a value.")
  | _ => True
  end.
Proof. exact values_rejected_any. Qed.
Print Assumptions C31_values_any.

Theorem C31_not_passed_on_any : forall ndebug bk w0 w log opts a args ks w1 r, assembled ndebug bk w0 w log -> announces log opts -> arguments (w_parser w0) = a :: args ->
  good_name (m_app_name (info (w_parser w))) -> (forall s, In s (subcommands (w_parser w)) -> good_name s) ->
  pieces opts (subcommands (w_parser w)) args ks -> first_error (bk_tdl bk) (subcommands (w_parser w)) ks = None ->
  step ndebug bk CParse w = (w1, r) ->
  user_decision (w_parser w1) = last_some piece_check ks /\ fmt (w_parser w1) = chosen ks /\
  format_arguments (w_parser w1) = flat_map (fun k => match k with KExport _ _ | KCheck _ => [] | _ => own_texts k end) ks.
Proof. exact not_passed_on_any. Qed.
Print Assumptions C31_not_passed_on_any.

(** for every identifier of an accepted declaration *)
Theorem C27_answers_any : forall ndebug bk w0 w log opts a args ks w1 r i b rest, assembled ndebug bk w0 w log -> announces log opts -> arguments (w_parser w0) = a :: args ->
  good_name (m_app_name (info (w_parser w))) -> (forall s, In s (subcommands (w_parser w)) -> good_name s) ->
  pieces opts (subcommands (w_parser w)) args ks -> first_error (bk_tdl bk) (subcommands (w_parser w)) ks = None ->
  step ndebug bk CParse w = (w1, r) -> In i (flat_map decl_idents (accepted log)) -> cut (flat_map own_texts ks) b rest ->
  exists answer, step ndebug bk (CIsSet i) w1 = (w1, Ret answer) /\ (answer = true <-> exists t, In t b /\ looks_like i t = true).
Proof. exact set_answers_any. Qed.
Print Assumptions C27_answers_any.

(** two programs with the same interface that also know the same texts as options *)
Theorem C79_programs_any : forall nd bk opts w0 w log w0' w' log' a a' args ks, assembled nd bk w0 w log -> assembled nd bk w0' w' log' -> announces log opts -> announces log' opts ->
  arguments (w_parser w0) = a :: args -> arguments (w_parser w0') = a' :: args ->
  same_interface (accepted log) (accepted log') -> subcommands (w_parser w) = subcommands (w_parser w') ->
  names_ok (w_parser w) -> names_ok (w_parser w') ->
  (forall user, bk_version_check bk (info (w_parser w)) (dev_decision (w_parser w)) user (w_fs w) =
                bk_version_check bk (info (w_parser w')) (dev_decision (w_parser w')) user (w_fs w')) ->
  w_vars w = w_vars w' -> w_fs w = w_fs w' ->
  pieces opts (subcommands (w_parser w)) args ks ->
  let r := step nd bk CParse w in let r' := step nd bk CParse w' in
  w_vars (fst r) = w_vars (fst r') /\ w_fs (fst r) = w_fs (fst r') /\
  (chosen ks = FParse \/ first_error (bk_tdl bk) (subcommands (w_parser w)) ks <> None -> snd r = snd r').
Proof. exact same_program_any. Qed.
Print Assumptions C79_programs_any.

(** the program of PropProgram.v, in which "-s" and "--some" belong to a rejected declaration *)
Example C28_any_case : forall args, announces (log_of args) ["--some"; "-s"; "--int"; "-i"] /\
  option_texts (accepted (log_of args)) = ["-i"; "--int"].
Proof.
  intros args. split; [|reflexivity]. intros t.
  rewrite <- (announced_lemma false lib (start args) (world_of args) (log_of args) program t (fresh_new 1 "app" _ true [] []) (surjective_pairing _)).
  reflexivity.
Qed.
(** so "--help" is its value, and the version page is printed *)
Example C28_any_pieces : pieces ["--some"; "-s"; "--int"; "-i"] [] ["-s"; "--help"; "--version"] [KValue "-s" "--help"; KPage "--version" FVersion] /\
  okind_of (snd (step false lib CParse (world_of ["-s"; "--help"; "--version"]))) = OExit.
Proof.
  split; [|vm_compute; reflexivity].
  apply (pieces_cons _ _ (KValue "-s" "--help")); [cbn; tauto|reflexivity|].
  apply (pieces_cons _ _ (KPage "--version" FVersion) [] []); [cbn; intuition discriminate|reflexivity|constructor].
Qed.
