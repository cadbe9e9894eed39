(** parse() after any sequence of declarations, accepted or not (C27, C28, C29, C31, C79): the lemmas of ParserOutcomes.v for
    every list [opts] of the texts announced as options by some declaration. *)
From Verif Require Import Base StrLib Fs Values Validators FormatParse Invocation InvocationProofs ScanSpec ScanProofs
  Parser ParserSpec ParserProofs ParserPieces ParserReading ParserSim ParserOutcomes ProgramSpec ProgramProofs ProgramOutcomes DeclSpec DeclProofs.

Lemma announces_pieces ndebug bk w0 w log opts subs args ks : assembled ndebug bk w0 w log -> announces log opts ->
  pieces opts subs args ks -> pieces (options (w_parser w)) subs args ks.
Proof.
  intros (F & (cs & R) & _) O. apply pieces_ext. intros t. specialize (O t). pose proof (announced_lemma ndebug bk w0 w log cs t F R). tauto.
Qed.
Lemma parse_any ndebug bk w0 w log opts a args ks : assembled ndebug bk w0 w log -> announces log opts -> arguments (w_parser w0) = a :: args ->
  good_name (m_app_name (info (w_parser w))) -> (forall s, In s (subcommands (w_parser w)) -> good_name s) ->
  pieces opts (subcommands (w_parser w)) args ks ->
  match first_error (bk_tdl bk) (subcommands (w_parser w)) ks with
  | Some e => exists p', step ndebug bk CParse w = (with_parser p' w, Throw e)
  | None => exists p',
      (let '(vs, f, r) := expected ndebug bk (info (w_parser w)) (subcommands (w_parser w)) (dev_decision (w_parser w0))
                            (executable_name (w_parser w0) ++ [a]) (accepted_ops log) (accepted log) ks (w_vars w) (w_fs w) in
       step ndebug bk CParse w = ({| w_parser := p'; w_vars := vs; w_fs := f |}, with_value r)) /\
      parsed ks a (w_parser w) p'
  end.
Proof.
  intros P O A N1 N2 K. apply (parse_assembled ndebug bk w0 w log a args ks P A N1 N2). exact (announces_pieces _ _ _ _ _ _ _ _ _ P O K).
Qed.

Lemma set_answers_any ndebug bk w0 w log opts a args ks w1 r i b rest : assembled ndebug bk w0 w log -> announces log opts -> arguments (w_parser w0) = a :: args ->
  good_name (m_app_name (info (w_parser w))) -> (forall s, In s (subcommands (w_parser w)) -> good_name s) ->
  pieces opts (subcommands (w_parser w)) args ks -> first_error (bk_tdl bk) (subcommands (w_parser w)) ks = None ->
  step ndebug bk CParse w = (w1, r) -> In i (flat_map decl_idents (accepted log)) -> cut (flat_map own_texts ks) b rest ->
  exists answer, step ndebug bk (CIsSet i) w1 = (w1, Ret answer) /\ (answer = true <-> exists t, In t b /\ looks_like i t = true).
Proof.
  intros P O A N1 N2 K E S I C.
  pose proof (parse_any ndebug bk w0 w log opts a args ks P O A N1 N2 K) as H. rewrite E in H. destruct H as (p' & H & Q).
  assert (Ep : w_parser w1 = p').
  { destruct (expected ndebug bk _ _ _ _ _ _ _ _ _) as [[vs f] r']. rewrite S in H. injection H as -> _. reflexivity. }
  destruct Q as (Kp & Cl & _ & Fa & _). destruct (assembled_raw ndebug bk _ _ _ P) as [Rd Gs].
  pose proof P as (F & (cs & Rn) & _). pose proof (wf_lemma ndebug bk w0 cs F) as W. rewrite Rn in W. cbn [snd] in W.
  unfold wf_decls in W. apply andb_prop in W as [W _]. apply andb_prop in W as [W _]. rewrite forallb_forall in W. specialize (W i I).
  cbn [step]. unfold on_parser, is_option_set. rewrite Ep, Cl, Fa. cbn [negb].
  replace (match i with IdShort _ => false | IdLong s => (String.length s =? 1)%nat end) with false.
  2:{ destruct i as [c|s]; [reflexivity|]. symmetry. apply Nat.eqb_neq. intros L. cbn [good_ident] in W.
      apply andb_prop in W as [W _]. apply andb_prop in W as [W _]. apply Nat.leb_le in W. lia. }
  change (match i with IdShort c => str1 c | IdLong s => s end) with (id_name i).
  rewrite (kept_used _ _ Kp), (proj2 (mem_spec (id_name i) (used_ids (w_parser w)))).
  2:{ apply (gs_used _ _ _ Gs). unfold decl_names. apply in_map, I. }
  cbn [negb]. rewrite (cut_split _ _ _ C). cbn [fst]. rewrite find_option_id_looks by now apply good_nonempty.
  unfold ret. eexists. split; [rewrite <- Ep; f_equal; now destruct w1|].
  apply split_first_some.
Qed.

Lemma handover_any ndebug bk w0 w log opts a args ks s rest : assembled ndebug bk w0 w log -> announces log opts -> arguments (w_parser w0) = a :: args ->
  good_name (m_app_name (info (w_parser w))) -> (forall s, In s (subcommands (w_parser w)) -> good_name s) ->
  pieces opts (subcommands (w_parser w)) args ks -> first_error (bk_tdl bk) (subcommands (w_parser w)) ks = None ->
  last_some piece_sub ks = Some (s, rest) ->
  exists w1 r q front, step ndebug bk CParse w = (w1, r) /\ args = front ++ rest /\ (exists more, rest = s :: more) /\ In s (subcommands (w_parser w)) /\
    sub_parser (w_parser w1) = Some q /\ fresh q /\ arguments q = rest /\ subcommands q = [] /\ dev_decision q = false /\
    m_app_name (info q) = m_app_name (info (w_parser w)) +s+ "-" +s+ s /\ good_name (m_app_name (info q)) /\
    executable_name q = executable_name (w_parser w0) ++ [a].
Proof.
  intros P O A N1 N2 K E S.
  pose proof (parse_any ndebug bk w0 w log opts a args ks P O A N1 N2 K) as H. rewrite E in H. destruct H as (p' & H & Q).
  destruct (pieces_sub _ _ _ _ _ _ K S) as (I & (more & M) & front & F & _).
  destruct Q as (_ & _ & _ & _ & _ & _ & Sb). rewrite S in Sb. destruct (assembled_raw ndebug bk _ _ _ P) as [Rd Gs].
  destruct (expected ndebug bk _ _ _ _ _ _ _ _ _) as [[vs f] r'].
  eexists _, _, _, front. split; [exact H|]. split; [exact F|]. split; [eauto|]. split; [exact I|]. cbn [w_parser]. split; [exact Sb|].
  split; [constructor|]. split; [reflexivity|]. split; [reflexivity|]. split; [reflexivity|]. split; [reflexivity|].
  split; [apply good_name_sub; auto|]. cbn. now rewrite app_nil_r, (rw_exe _ _ _ Rd).
Qed.

Lemma no_handover_any ndebug bk w0 w log opts a args ks c w1 r : assembled ndebug bk w0 w log -> announces log opts -> arguments (w_parser w0) = a :: args ->
  good_name (m_app_name (info (w_parser w))) -> (forall s, In s (subcommands (w_parser w)) -> good_name s) ->
  pieces opts (subcommands (w_parser w)) args ks -> first_error (bk_tdl bk) (subcommands (w_parser w)) ks = None ->
  last_some piece_sub ks = None -> step ndebug bk CParse w = (w1, r) ->
  step ndebug bk (CSub c) w1 = (w1, Throw (Exn KDesign "No subcommand was provided at the construction of the argument parser!")).
Proof.
  intros P O A N1 N2 K E S St. apply no_sub_step.
  pose proof (parse_any ndebug bk w0 w log opts a args ks P O A N1 N2 K) as H. rewrite E in H. destruct H as (p' & H & Q).
  destruct Q as (_ & _ & _ & _ & _ & _ & Sb). rewrite S in Sb. destruct (assembled_raw ndebug bk _ _ _ P) as [Rd Gs].
  destruct (expected ndebug bk _ _ _ _ _ _ _ _ _) as [[vs f] r']. rewrite St in H. injection H as -> _. exact Sb.
Qed.

Lemma no_sub_before_any ndebug bk w0 w log c : assembled ndebug bk w0 w log ->
  step ndebug bk (CSub c) w = (w, Throw (Exn KDesign "No subcommand was provided at the construction of the argument parser!")).
Proof. intros P. apply no_sub_step. destruct (assembled_raw ndebug bk _ _ _ P) as [Rd Gs]. apply (rw_sub _ _ _ Rd). Qed.

Lemma parse_outcome_any ndebug bk w0 w log opts a args ks : assembled ndebug bk w0 w log -> announces log opts -> arguments (w_parser w0) = a :: args ->
  good_name (m_app_name (info (w_parser w))) -> (forall s, In s (subcommands (w_parser w)) -> good_name s) ->
  pieces opts (subcommands (w_parser w)) args ks ->
  exists w1 r, step ndebug bk CParse w = (w1, r) /\
  match first_error (bk_tdl bk) (subcommands (w_parser w)) ks with
  | Some e => w_vars w1 = w_vars w /\ w_fs w1 = w_fs w /\ r = Throw e
  | None => (w_vars w1, w_fs w1, r) =
      (let '(vs, f, r) := expected ndebug bk (info (w_parser w)) (subcommands (w_parser w)) (dev_decision (w_parser w0))
                            (executable_name (w_parser w0) ++ [a]) (accepted_ops log) (accepted log) ks (w_vars w) (w_fs w)
       in (vs, f, with_value r))
  end.
Proof.
  intros P O A N1 N2 K. pose proof (parse_any ndebug bk w0 w log opts a args ks P O A N1 N2 K) as H.
  destruct (first_error (bk_tdl bk) (subcommands (w_parser w)) ks).
  - destruct H as (p' & H). eexists _, _. split; [exact H|]. cbn. eauto.
  - destruct H as (p' & H & _). destruct (expected ndebug bk _ _ _ _ _ _ _ _ _) as [[vs f] r]. eexists _, _. split; [exact H|]. reflexivity.
Qed.

Lemma error_outcome_any ndebug bk w0 w log opts a args ks1 k ks2 e : assembled ndebug bk w0 w log -> announces log opts -> arguments (w_parser w0) = a :: args ->
  good_name (m_app_name (info (w_parser w))) -> (forall s, In s (subcommands (w_parser w)) -> good_name s) ->
  pieces opts (subcommands (w_parser w)) args (ks1 ++ k :: ks2) ->
  first_error (bk_tdl bk) (subcommands (w_parser w)) ks1 = None -> piece_error (bk_tdl bk) (subcommands (w_parser w)) k = Some e ->
  exists w1, step ndebug bk CParse w = (w1, Throw e) /\ w_vars w1 = w_vars w /\ w_fs w1 = w_fs w.
Proof.
  intros P O A N1 N2 K E1 E2. destruct (parse_outcome_any ndebug bk w0 w log opts a args _ P O A N1 N2 K) as (w1 & r & S & H).
  rewrite (first_error_at _ _ _ _ _ _ E1 E2) in H. destruct H as (H1 & H2 & ->). eauto.
Qed.

Lemma unknown_word_any ndebug bk w0 w log opts a args ks1 word ks2 : assembled ndebug bk w0 w log -> announces log opts -> arguments (w_parser w0) = a :: args ->
  good_name (m_app_name (info (w_parser w))) -> (forall s, In s (subcommands (w_parser w)) -> good_name s) ->
  pieces opts (subcommands (w_parser w)) args (ks1 ++ KWord word :: ks2) ->
  first_error (bk_tdl bk) (subcommands (w_parser w)) ks1 = None -> subcommands (w_parser w) <> [] -> begins "-" word = false ->
  exists w1, step ndebug bk CParse w =
    (w1, Throw (Exn KUserInput ("You specified an unknown subcommand! Available subcommands are: [" +s+
                                String.concat ", " (subcommands (w_parser w)) +s+ "]. Use -h/--help for more information."))) /\
    w_vars w1 = w_vars w /\ w_fs w1 = w_fs w.
Proof.
  intros P O A N1 N2 K E1 Ne B. apply (error_outcome_any ndebug bk w0 w log opts a args ks1 (KWord word) ks2); auto.
  cbn [piece_error]. rewrite B. destruct (subcommands (w_parser w)); [contradiction|reflexivity].
Qed.

Lemma values_rejected_any ndebug bk w0 w log opts a args ks1 k ks2 : assembled ndebug bk w0 w log -> announces log opts -> arguments (w_parser w0) = a :: args ->
  good_name (m_app_name (info (w_parser w))) -> (forall s, In s (subcommands (w_parser w)) -> good_name s) ->
  pieces opts (subcommands (w_parser w)) args (ks1 ++ k :: ks2) ->
  first_error (bk_tdl bk) (subcommands (w_parser w)) ks1 = None ->
  let rejected kind m := exists w1, step ndebug bk CParse w = (w1, Throw (Exn kind m)) /\ w_vars w1 = w_vars w /\ w_fs w1 = w_fs w in
  match k with
  | KExport v _ => ~ In v ["html"; "man"; "ctd"; "cwl"] ->
      rejected KValidation ("Validation failed for option --export-help: Value must be one of " +s+
                            (if bk_tdl bk then "[html, man, ctd, cwl]." else "[html, man]."))
  | KCheck v => ~ In v ["0"; "1"; "true"; "false"] ->
      rejected KValidation "Value for option --version-check must be true (1) or false (0)."
  | KNoValue a => rejected KTooFew ("Option " +s+ a +s+ " must be followed by a value.")
  | _ => True
  end.
Proof.
  intros P O A N1 N2 K E rejected. pose proof (fun e => error_outcome_any ndebug bk w0 w log opts a args ks1 k ks2 e P O A N1 N2 K E) as H.
  destruct k; auto.
  - intros V. apply H. cbn [piece_error]. now rewrite (proj2 (lookup_none v exports) V).
  - intros V. apply H. cbn [piece_error]. rewrite (proj2 (lookup_none v checks_values)); [reflexivity|]. cbn in *. tauto.
  - apply H. reflexivity.
Qed.

Lemma not_passed_on_any ndebug bk w0 w log opts a args ks w1 r : assembled ndebug bk w0 w log -> announces log opts -> arguments (w_parser w0) = a :: args ->
  good_name (m_app_name (info (w_parser w))) -> (forall s, In s (subcommands (w_parser w)) -> good_name s) ->
  pieces opts (subcommands (w_parser w)) args ks -> first_error (bk_tdl bk) (subcommands (w_parser w)) ks = None ->
  step ndebug bk CParse w = (w1, r) ->
  user_decision (w_parser w1) = last_some piece_check ks /\ fmt (w_parser w1) = chosen ks /\
  format_arguments (w_parser w1) = flat_map (fun k => match k with KExport _ _ | KCheck _ => [] | _ => own_texts k end) ks.
Proof.
  intros P O A N1 N2 K E S. pose proof (parse_any ndebug bk w0 w log opts a args ks P O A N1 N2 K) as H. rewrite E in H. destruct H as (p' & H & Q).
  destruct (expected ndebug bk _ _ _ _ _ _ _ _ _) as [[vs f] r']. rewrite S in H. injection H as -> _. cbn [w_parser].
  destruct Q as (_ & _ & _ & F1 & F2 & F3 & _). split; [exact F3|]. split; [exact F2|]. rewrite F1. clear.
  induction ks as [|k ks IH]; cbn; [reflexivity|]. rewrite IH. now destruct k.
Qed.

Lemma set_options_any ndebug bk w0 w log opts a inv w1 r i : assembled ndebug bk w0 w log -> announces log opts -> arguments (w_parser w0) = a :: render inv ->
  good_name (m_app_name (info (w_parser w))) -> subcommands (w_parser w) = [] ->
  wf_invocation (accepted log) inv = true -> (forall t, In t (render inv) -> ~ special t) ->
  step ndebug bk CParse w = (w1, r) -> In i (flat_map option_idents (accepted log)) ->
  exists answer, step ndebug bk (CIsSet i) w1 = (w1, Ret answer) /\ (answer = true <-> values_of (items inv) i <> []).
Proof.
  intros P O A N S W Sp St I.
  destruct (pieces_exist opts [] (List.length (render inv)) (render inv) (le_n _)) as [ks K].
  destruct (no_special_pieces (bk_tdl bk) _ _ _ K Sp) as (Q & E & _ & _ & _). pose proof (own_front _ _ _ _ K Q) as Own.
  assert (N2 : forall s, In s (subcommands (w_parser w)) -> good_name s) by (rewrite S; intros s []).
  pose proof P as (F & (cs & Rn) & _). pose proof (wf_lemma ndebug bk w0 cs F) as Wd. rewrite Rn in Wd. cbn [snd] in Wd.
  assert (Hgo : forall j, In j (flat_map option_idents (accepted log)) -> good_ident j = true).
  { unfold wf_decls in Wd. apply andb_prop in Wd as [Wd' _]. apply andb_prop in Wd' as [Hg _]. rewrite forallb_forall in Hg.
    intros j H. apply Hg, flat_map_decl_idents. now left. }
  rewrite <- S in K, E.
  destruct (set_answers_any ndebug bk w0 w log opts a (render inv) ks w1 r i (flat_map render_item (items inv)) (render_tail (tail inv))
              P O A N N2 K E St) as (answer & H1 & H2).
  - apply flat_map_decl_idents. now left.
  - rewrite Own. unfold wf_invocation in W. apply andb_prop in W as [W _]. apply andb_prop in W as [W _].
    split; [reflexivity|]. split; [now apply (render_items_no_eoo (flat_map option_idents (accepted log)))|].
    destruct (tail inv) as [ws|]; [right; eexists; reflexivity|now left].
  - exists answer. split; [exact H1|]. rewrite H2. now apply (option_looks (accepted log)).
Qed.

Lemma same_program_any nd bk opts w0 w log w0' w' log' a a' args ks :
  assembled nd bk w0 w log -> assembled nd bk w0' w' log' -> announces log opts -> announces log' opts ->
  arguments (w_parser w0) = a :: args -> arguments (w_parser w0') = a' :: args ->
  same_interface (accepted log) (accepted log') -> subcommands (w_parser w) = subcommands (w_parser w') ->
  names_ok (w_parser w) -> names_ok (w_parser w') ->
  (forall user, bk_version_check bk (info (w_parser w)) (dev_decision (w_parser w)) user (w_fs w) =
                bk_version_check bk (info (w_parser w')) (dev_decision (w_parser w')) user (w_fs w')) ->
  w_vars w = w_vars w' -> w_fs w = w_fs w' ->
  pieces opts (subcommands (w_parser w)) args ks ->
  let r := step nd bk CParse w in let r' := step nd bk CParse w' in
  w_vars (fst r) = w_vars (fst r') /\ w_fs (fst r) = w_fs (fst r') /\
  (chosen ks = FParse \/ first_error (bk_tdl bk) (subcommands (w_parser w)) ks <> None -> snd r = snd r').
Proof.
  intros P P' O O' A A' S U [N1 N2] [N1' N2'] V EV EF K.
  pose proof (parse_any nd bk w0 w log opts a args ks P O A N1 N2 K) as H.
  rewrite U in K.
  pose proof (parse_any nd bk w0' w' log' opts a' args ks P' O' A' N1' N2' K) as H'. cbn zeta.
  rewrite <- U in H'.
  pose proof (assembled_raw _ _ _ _ _ P) as [R _]. pose proof (assembled_raw _ _ _ _ _ P') as [R' _].
  destruct (first_error (bk_tdl bk) (subcommands (w_parser w)) ks) as [e|].
  { destruct H as [p ->], H' as [p' ->]. cbn. rewrite EV, EF. auto. }
  destruct H as (p & H & _), H' as (p' & H' & _). unfold expected in H, H'.
  rewrite <- (rw_dev _ _ _ R) in H. rewrite <- (rw_dev _ _ _ R') in H'. rewrite <- V in H'.
  destruct (bk_version_check bk (info (w_parser w)) (dev_decision (w_parser w)) (last_some piece_check ks) (w_fs w)) as [f1 [[]|e|o| | |]].
  2-6: rewrite H, H'; cbn; rewrite EV; auto.
  destruct (chosen ks).
  2-8: rewrite H, H'; cbn; rewrite EV; repeat split; intros [X|X]; [discriminate|now destruct X].
  rewrite <- EV, <- (same_interface_args nd _ _ _ _ _ S) in H'.
  destruct (parse_args nd (accepted log) (flat_map own_texts ks) (w_vars w) f1) as [st q]. rewrite H, H'. cbn. auto.
Qed.

