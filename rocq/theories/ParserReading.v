(** Proofs about parse() on a parser prepared by an arbitrary program. *)
From Verif Require Import Base StrLib Fs Values Validators FormatParse Invocation InvocationProofs ScanSpec ScanProofs Parser ParserSpec ParserProofs ParserPieces.

Section reading.
Variable ndebug : bool.
Variable bk : backend.

(** ** The state before parse() *)

Record ready (ds : list decl) (ops : list op) (p0 p : parser) : Prop := {
  rd_called : parse_was_called p = false;
  rd_fmt : fmt p = FShortHelp;
  rd_fargs : format_arguments p = [];
  rd_user : user_decision p = None;
  rd_sub : sub_parser p = None;
  rd_exe : executable_name p = executable_name p0;
  rd_args : arguments p = arguments p0;
  rd_dev : dev_decision p = dev_decision p0;
  rd_ops : map snd (operations p) = ops;
  rd_own : forall o, In o (operations p) -> fst o = self p;
  rd_used : forall n, In n (used_ids p) <-> In n reserved \/ In n (decl_names ds);
  rd_opts : forall n, In n (options p) <-> In n (option_texts ds) }.

Lemma ready_fresh p : fresh p -> ready [] [] p p.
Proof. intros []. constructor; try reflexivity; cbn; try tauto. Qed.

Lemma ready_but ids opts ds ops p0 p q ds' :
  ready ds ops p0 p -> declares ids opts p q (Ret tt) -> but_ids p q ->
  (forall n, In n (decl_names ds') <-> In n (decl_names ds) \/ In n (map id_name ids)) ->
  (forall n, In n (option_texts ds') <-> In n (option_texts ds) \/ In n opts) ->
  ready ds' ops p0 q.
Proof.
  intros [] [] B Hn Ho. destruct (dc_ok eq_refl) as (G & N & K & KO).
  constructor; try (rewrite B; cbn; assumption).
  - intros n. rewrite Hn. split.
    + intros H. apply dc_used in H as [H|H]; [apply rd_used0 in H; tauto|tauto].
    + intros [H|[H|H]]; [apply dc_used', rd_used0; tauto|apply dc_used', rd_used0; tauto|now apply K].
  - intros n. rewrite Ho. split.
    + intros H. apply dc_opts in H as [H|H]; [apply rd_opts0 in H; tauto|tauto].
    + intros [H|H]; [apply dc_opts', rd_opts0, H|auto].
Qed.

Lemma ready_pushed ds ops p0 p o : ready ds ops p0 p -> ready ds (ops ++ [o]) p0 (pushed o p).
Proof.
  intros []. constructor; cbn; auto.
  - now rewrite map_app, rd_ops0.
  - intros o'. rewrite in_app_iff. intros [H|[<-|[]]]; auto.
Qed.

Lemma ready_names ds ds' ops p0 p : ready ds ops p0 p -> decl_names ds' = decl_names ds -> option_texts ds' = option_texts ds -> ready ds' ops p0 p.
Proof. intros [] H1 H2. constructor; auto; rewrite ?H1, ?H2; auto. Qed.

Lemma option_texts_app a b : option_texts (a ++ b) = option_texts a ++ option_texts b.
Proof. unfold option_texts. now rewrite flat_map_app, map_app. Qed.

Lemma ready_step ds ops p0 c w w1 r : ready ds ops p0 (w_parser w) -> step ndebug bk c w = (w1, r) ->
  (c <> CParse /\ is_move c = false /\ match c with CAddOption _ _ _ | CAddFlag _ _ => returned r = true | _ => True end) ->
  ready (ds ++ if returned r then call_decl c else []) (ops ++ if returned r then call_op c else []) p0 (w_parser w1).
Proof.
  intros R H (C1 & C2 & C3). destruct (section_op c) as [o|] eqn:S.
  { replace (ds ++ _) with ds by (destruct c; try discriminate S; destruct (returned r); cbn; now rewrite app_nil_r).
    destruct (step_section _ _ _ _ _ _ _ S H) as [(_ & -> & m & ->)|(_ & -> & ->)]; cbn [returned].
    - rewrite app_nil_r. exact R.
    - replace (call_op c) with [o] by (destruct c; try discriminate S; injection S as <-; reflexivity). now apply ready_pushed. }
  destruct c; try discriminate S; try discriminate C2; try congruence; cbn [call_decl call_op map].
  - rewrite C3. apply step_option in H as (p' & ra & H & -> & Q). rewrite (proj1 Q C3) in *. apply add_option_spec in H as [D K].
    destruct (K eq_refl) as (_ & q & B & ->). cbn [w_parser with_parser]. apply ready_pushed.
    eapply ready_but; [exact R| |exact B| |].
    + destruct D. constructor; cbn in *; eauto.
    + intros n. rewrite decl_names_app, in_app_iff. unfold decl_names at 2. cbn [flat_map]. unfold decl_idents. cbn [option_idents flag_idents].
      rewrite !app_nil_r. reflexivity.
    + intros n. rewrite option_texts_app, in_app_iff. unfold option_texts at 2. cbn [flat_map option_idents]. rewrite !app_nil_r. reflexivity.
  - rewrite C3. apply step_flag in H as (p' & ra & H & -> & Q). rewrite (proj1 Q C3) in *. apply add_flag_spec in H as [D K].
    destruct (K eq_refl) as (_ & _ & q & B & ->). cbn [w_parser with_parser]. apply ready_pushed.
    eapply ready_but with (opts := []); [exact R| |exact B| |].
    + destruct D. constructor; cbn in *; eauto.
    + intros n. rewrite decl_names_app, in_app_iff. unfold decl_names at 2. cbn [flat_map]. unfold decl_idents. cbn [option_idents flag_idents].
      rewrite !app_nil_r. reflexivity.
    + intros n. rewrite option_texts_app, in_app_iff. cbn. tauto.
  - apply step_positional in H as (p' & ra & H & -> & Q). cbn [w_parser with_parser].
    apply add_positional_spec in H as [[-> [m ->]]|(-> & _ & I & S1 & L & ->)].
    + destruct (returned r); [discriminate (proj1 Q eq_refl)|]. now rewrite !app_nil_r.
    + rewrite (proj2 Q eq_refl). apply ready_pushed. eapply ready_names with (ds := ds).
      * destruct R. constructor; assumption.
      * now rewrite decl_names_app, app_nil_r.
      * now rewrite option_texts_app, app_nil_r.
  - cbn in H. injection H as <- <-. cbn [returned]. rewrite !app_nil_r. destruct R. constructor; assumption.
  - replace (ds ++ _) with ds by (destruct (returned r); now rewrite app_nil_r).
    replace (ops ++ _) with ops by (destruct (returned r); now rewrite app_nil_r).
    cbn [step] in H. unfold on_parser in H. pose proof (is_option_set_parser i (w_parser w)) as K.
    destruct (is_option_set i (w_parser w)) as [p' r']. injection H as <- <-. cbn in *. now subst.
  - replace (ds ++ _) with ds by (destruct (returned r); now rewrite app_nil_r).
    replace (ops ++ _) with ops by (destruct (returned r); now rewrite app_nil_r).
    cbn [step] in H. unfold get_sub_parser in H. rewrite (rd_sub _ _ _ _ R) in H. unfold design, throw in H. injection H as <- <-. exact R.
  - cbn in H. injection H as <- <-. cbn [returned]. rewrite !app_nil_r. destruct R. constructor; assumption.
  - cbn in H. injection H as <- <-. cbn [returned]. rewrite !app_nil_r. destruct R. constructor; assumption.
  - cbn in H. injection H as <- <-. cbn [returned]. rewrite !app_nil_r. destruct R. constructor; assumption.
Qed.

Lemma ready_run cs p0 : forall w ds ops, ready ds ops p0 (w_parser w) -> plain_phase (snd (run ndebug bk cs w)) ->
  ready (ds ++ accepted (snd (run ndebug bk cs w))) (ops ++ accepted_ops (snd (run ndebug bk cs w))) p0 (w_parser (fst (run ndebug bk cs w))).
Proof.
  induction cs as [|c cs IH]; intros w ds ops R P.
  { cbn. now rewrite !app_nil_r. }
  rewrite run_cons in *. destruct (step ndebug bk c w) as [w1 r] eqn:E.
  assert (C : c <> CParse /\ is_move c = false /\ match c with CAddOption _ _ _ | CAddFlag _ _ => returned r = true | _ => True end).
  { apply (P c r). destruct r; now left. }
  pose proof (ready_step _ _ _ _ _ _ _ R E C) as R1.
  destruct (match r with Ret _ | Throw _ => true | _ => false end).
  - cbn [fst snd] in *. unfold accepted, accepted_ops. cbn [flat_map fst snd]. rewrite !app_assoc. apply IH; [exact R1|].
    intros c' r' H. apply P. now right.
  - cbn [fst snd accepted accepted_ops flat_map]. rewrite !app_nil_r. exact R1.
Qed.

Lemma prepared_ready w0 w log : prepared ndebug bk w0 w log ->
  ready (accepted log) (accepted_ops log) (w_parser w0) (w_parser w) /\ good_state (accepted log) (subcommands (w_parser w)) (w_parser w).
Proof.
  intros (F & (cs & R) & P). split.
  - pose proof (ready_run cs (w_parser w0) w0 [] [] (ready_fresh _ F)) as K. rewrite R in K. exact (K P).
  - pose proof (history ndebug bk w0 cs F) as K. rewrite R in K. destruct K. constructor; auto. tauto.
Qed.

(** ** Operations of an unmoved parser *)

Lemma apply_own i dead l : (forall o, In o l -> fst o = i) -> apply_operations i dead l = Ret (map snd l).
Proof.
  induction l as [|[j o] l IH]; intros H; [reflexivity|]. cbn [apply_operations map snd].
  pose proof (H (j, o) (or_introl eq_refl)) as K. cbn in K. subst j. rewrite Nat.eqb_refl, IH; [reflexivity|].
  intros o' Ho. apply H. now right.
Qed.

(** ** Names *)

Lemma name_char_iff c : name_char c = true <-> is_alnum c = true \/ c = "_"%char \/ c = "-"%char.
Proof.
  unfold name_char, is_alnum, is_lower, is_upper, is_digit. rewrite !orb_true_iff, !Ascii.eqb_eq. tauto.
Qed.
Lemma name_matches_iff s : name_matches s = true <-> good_name s.
Proof.
  unfold name_matches, good_name. rewrite andb_true_iff, negb_true_iff, is_empty_false, sall_forallb, forallb_forall.
  split; intros [H1 H2]; (split; [exact H1|]); intros c Hc; apply name_char_iff; auto.
Qed.

Lemma names_bad p : ~ (good_name (m_app_name (info p)) /\ forall s, In s (subcommands p) -> good_name s) ->
  exists m, verify_app_and_subcommand_names p = (p, Throw (Exn KDesign m)).
Proof.
  intros H. unfold verify_app_and_subcommand_names. destruct (name_matches (m_app_name (info p))) eqn:E; cbn [negb]; [|eexists; reflexivity].
  destruct (forallb name_matches (subcommands p)) eqn:E2; cbn [negb]; [|eexists; reflexivity].
  exfalso. apply H. split; [now apply name_matches_iff|]. rewrite forallb_forall in E2. intros s Hs. now apply name_matches_iff, E2.
Qed.
Lemma names_good p : good_name (m_app_name (info p)) -> (forall s, In s (subcommands p) -> good_name s) ->
  verify_app_and_subcommand_names p = (p, Ret tt).
Proof.
  intros H1 H2. unfold verify_app_and_subcommand_names. rewrite (proj2 (name_matches_iff _) H1). cbn [negb].
  replace (forallb name_matches (subcommands p)) with true; [reflexivity|]. symmetry. apply forallb_forall. intros s Hs. apply name_matches_iff, H2, Hs.
Qed.

(** pieces only depend on which options and subcommands there are *)
Lemma piece_ok_ext o o' s s' k : (forall a, In a o <-> In a o') -> (forall a, In a s <-> In a s') -> piece_ok o s k -> piece_ok o' s' k.
Proof. intros H1 H2. destruct k; cbn; rewrite ?H1, ?H2; auto. Qed.
Lemma pieces_ext o o' s args ks : (forall a, In a o <-> In a o') -> pieces o s args ks -> pieces o' s args ks.
Proof. intros H. induction 1; constructor; auto; eapply piece_ok_ext; eauto; tauto. Qed.

(** ** Parsers with rejected declarations *)

Record raw (ops : list op) (p0 p : parser) : Prop := {
  rw_called : parse_was_called p = false;
  rw_fmt : fmt p = FShortHelp;
  rw_fargs : format_arguments p = [];
  rw_user : user_decision p = None;
  rw_sub : sub_parser p = None;
  rw_exe : executable_name p = executable_name p0;
  rw_args : arguments p = arguments p0;
  rw_dev : dev_decision p = dev_decision p0;
  rw_ops : map snd (operations p) = ops;
  rw_own : forall o, In o (operations p) -> fst o = self p }.

(** the fields parse() relies on, apart from the operations *)
Record bare (p0 p : parser) : Prop := {
  br_called : parse_was_called p = false;
  br_fmt : fmt p = FShortHelp;
  br_fargs : format_arguments p = [];
  br_user : user_decision p = None;
  br_sub : sub_parser p = None;
  br_exe : executable_name p = executable_name p0;
  br_args : arguments p = arguments p0;
  br_dev : dev_decision p = dev_decision p0 }.

Lemma raw_bare ops p0 p : raw ops p0 p -> bare p0 p.
Proof. intros []. now constructor. Qed.

Lemma raw_fresh p : fresh p -> raw [] p p.
Proof. intros []. constructor; try reflexivity; cbn; tauto. Qed.

Lemma raw_but ops p0 p q : raw ops p0 p -> but_ids p q -> raw ops p0 q.
Proof. intros [] B. constructor; rewrite B; cbn; assumption. Qed.

Lemma raw_pushed ops p0 p o : raw ops p0 p -> raw (ops ++ [o]) p0 (pushed o p).
Proof.
  intros []. constructor; cbn; auto.
  - now rewrite map_app, rw_ops0.
  - intros o'. rewrite in_app_iff. intros [H|[<-|[]]]; auto.
Qed.

Lemma raw_step ops p0 c w w1 r : raw ops p0 (w_parser w) -> step ndebug bk c w = (w1, r) -> c <> CParse /\ is_move c = false ->
  raw (ops ++ if returned r then call_op c else []) p0 (w_parser w1).
Proof.
  intros R H (C1 & C2). destruct (section_op c) as [o|] eqn:S.
  { destruct (step_section _ _ _ _ _ _ _ S H) as [(_ & -> & m & ->)|(_ & -> & ->)]; cbn [returned].
    - rewrite app_nil_r. exact R.
    - replace (call_op c) with [o] by (destruct c; try discriminate S; injection S as <-; reflexivity). now apply raw_pushed. }
  destruct c; try discriminate S; try discriminate C2; try congruence; cbn [call_decl call_op map].
  - apply step_option in H as (p' & ra & H & -> & Q). apply add_option_spec in H as [D K]. cbn [w_parser with_parser].
    destruct (returned r) eqn:Er.
    + destruct (K (proj1 Q eq_refl)) as (_ & q & B & ->). apply raw_pushed. eapply raw_but; eauto.
    + rewrite app_nil_r. eapply raw_but; [exact R|]. apply (dc_throw _ _ _ _ _ D). intros E. apply Q in E. discriminate E.
  - apply step_flag in H as (p' & ra & H & -> & Q). apply add_flag_spec in H as [D K]. cbn [w_parser with_parser].
    destruct (returned r) eqn:Er.
    + destruct (K (proj1 Q eq_refl)) as (_ & _ & q & B & ->). apply raw_pushed. eapply raw_but; eauto.
    + rewrite app_nil_r. eapply raw_but; [exact R|]. apply (dc_throw _ _ _ _ _ D). intros E. apply Q in E. discriminate E.
  - apply step_positional in H as (p' & ra & H & -> & Q). cbn [w_parser with_parser].
    apply add_positional_spec in H as [[-> [m ->]]|(-> & _ & I & S1 & L & ->)].
    + destruct (returned r); [discriminate (proj1 Q eq_refl)|]. now rewrite !app_nil_r.
    + rewrite (proj2 Q eq_refl). apply raw_pushed. destruct R. constructor; assumption.
  - cbn in H. injection H as <- <-. cbn [returned]. rewrite !app_nil_r. destruct R. constructor; assumption.
  - replace (ops ++ _) with ops by (destruct (returned r); now rewrite app_nil_r).
    cbn [step] in H. unfold on_parser in H. pose proof (is_option_set_parser i (w_parser w)) as K.
    destruct (is_option_set i (w_parser w)) as [p' r']. injection H as <- <-. cbn in *. now subst.
  - replace (ops ++ _) with ops by (destruct (returned r); now rewrite app_nil_r).
    cbn [step] in H. unfold get_sub_parser in H. rewrite (rw_sub _ _ _ R) in H. unfold design, throw in H. injection H as <- <-. exact R.
  - cbn in H. injection H as <- <-. cbn [returned]. rewrite !app_nil_r. destruct R. constructor; assumption.
  - cbn in H. injection H as <- <-. cbn [returned]. rewrite !app_nil_r. destruct R. constructor; assumption.
  - cbn in H. injection H as <- <-. cbn [returned]. rewrite !app_nil_r. destruct R. constructor; assumption.
Qed.

Lemma raw_run cs p0 : forall w ops, raw ops p0 (w_parser w) -> unparsed (snd (run ndebug bk cs w)) ->
  raw (ops ++ accepted_ops (snd (run ndebug bk cs w))) p0 (w_parser (fst (run ndebug bk cs w))).
Proof.
  induction cs as [|c cs IH]; intros w ops R P.
  { cbn. now rewrite !app_nil_r. }
  rewrite run_cons in *. destruct (step ndebug bk c w) as [w1 r] eqn:E.
  assert (C : c <> CParse /\ is_move c = false) by (apply (P c r); destruct r; now left).
  pose proof (raw_step _ _ _ _ _ _ R E C) as R1.
  destruct (match r with Ret _ | Throw _ => true | _ => false end).
  - cbn [fst snd] in *. unfold accepted_ops. cbn [flat_map fst snd]. rewrite !app_assoc. apply IH; [exact R1|].
    intros c' r' H. apply (P c' r'). now right.
  - cbn [fst snd accepted_ops flat_map]. rewrite !app_nil_r. exact R1.
Qed.

Lemma assembled_raw w0 w log : assembled ndebug bk w0 w log ->
  raw (accepted_ops log) (w_parser w0) (w_parser w) /\ good_state (accepted log) (subcommands (w_parser w)) (w_parser w).
Proof.
  intros (F & (cs & R) & P). split.
  - pose proof (raw_run cs (w_parser w0) w0 [] (raw_fresh _ F)) as K. rewrite R in K. exact (K P).
  - pose proof (history ndebug bk w0 cs F) as K. rewrite R in K. destruct K. constructor; auto. tauto.
Qed.

Lemma prepared_assembled w0 w log : prepared ndebug bk w0 w log -> assembled ndebug bk w0 w log.
Proof. intros (F & R & P). split; [exact F|]. split; [exact R|]. intros c r H. apply P in H. tauto. Qed.

(** ** parse() *)

Lemma parse_named w : parse_was_called (w_parser w) = false ->
  ~ (good_name (m_app_name (info (w_parser w))) /\ forall s, In s (subcommands (w_parser w)) -> good_name s) ->
  exists m, parse ndebug bk w = (with_parser (set_called true (w_parser w)) w, Throw (Exn KDesign m)).
Proof.
  intros C H. unfold parse. rewrite C. destruct (names_bad (set_called true (w_parser w))) as [m Hm]; [exact H|].
  exists m. unfold bind, on_parser at 1, modify. cbn [w_parser w_vars w_fs]. unfold on_parser at 1. cbn [w_parser w_vars w_fs]. rewrite Hm. reflexivity.
Qed.

(** the parser after a successful determination of the format *)
Definition parsed (ks : list piece) (a : string) (p p' : parser) : Prop :=
  kept p p' /\ parse_was_called p' = true /\ executable_name p' = executable_name p ++ [a] /\
  format_arguments p' = flat_map own_texts ks /\ fmt p' = chosen ks /\ user_decision p' = last_some piece_check ks /\
  sub_parser p' = match last_some piece_sub ks with
                  | Some (s, rest) => Some (new_sub_parser (set_executable_name (executable_name p ++ [a]) p) s rest)
                  | None => None
                  end.

Lemma pages_not_short opts subs args ks : pieces opts subs args ks -> last_some piece_page ks <> Some FShortHelp.
Proof.
  assert (K : forall k, piece_ok opts subs k -> piece_page k <> Some FShortHelp).
  { intros k. destruct k; cbn [piece_page]; try discriminate.
    - intros (H & _) [= ->]. cbn in H. destruct H as [H|[H|[H|[H|[H|[H|[]]]]]]]; discriminate H.
    - intros _. cbn. repeat (match goal with |- context [String.eqb v ?t] => destruct (String.eqb v t); [discriminate|] end). discriminate. }
  induction 1 as [|k Hk L|k args ks Hk L Hp IH]; cbn [last_some]; [discriminate|auto|].
  destruct (last_some piece_page ks); auto.
Qed.

Lemma determine_bare p0 p a args ks : bare p0 p -> arguments p = a :: args ->
  pieces (options p) (subcommands p) args ks ->
  match first_error (bk_tdl bk) (subcommands p) ks with
  | Some e => exists p', determine_format_and_subcommand ndebug bk (set_called true p) = (p', Throw e)
  | None => exists p', determine_format_and_subcommand ndebug bk (set_called true p) = (p', Ret tt) /\ parsed ks a p p'
  end.
Proof.
  intros R E H. unfold determine_format_and_subcommand. cbn [arguments set_called]. rewrite E.
  rewrite (bind_ret_step _ _ _ (set_executable_name (executable_name p ++ [a]) (set_called true p)) tt) by reflexivity.
  pose proof (scan_pieces bk _ _ _ _ H (set_executable_name (executable_name p ++ [a]) (set_called true p)) eq_refl eq_refl) as S.
  pose proof (pages_not_short _ _ _ _ H) as N.
  destruct (first_error (bk_tdl bk) (subcommands p) ks).
  - destruct S as (p' & S). exists p'. unfold bind. now rewrite S.
  - destruct S as (p' & S & Sc). rewrite (bind_ret_step _ _ _ _ _ S). unfold settle_format, modify.
    eexists. split; [reflexivity|]. destruct Sc, R.
    cbn [set_called set_executable_name format_arguments fmt user_decision sub_parser executable_name parse_was_called] in *.
    rewrite br_fmt0, br_fargs0, br_user0, br_sub0 in *. cbn [app] in sc_args.
    assert (Hk : kept p p') by (eapply kept_trans; [|exact sc_kept]; constructor; reflexivity).
    assert (Hu : user_decision p' = last_some piece_check ks).
    { rewrite sc_user. destruct (last_some piece_check ks); reflexivity. }
    assert (Hs : sub_parser p' = match last_some piece_sub ks with Some (s, rest) => Some (new_sub_parser (set_executable_name (executable_name p ++ [a]) p) s rest) | None => None end).
    { rewrite sc_sub. destruct (last_some piece_sub ks) as [[s rest]|]; reflexivity. }
    unfold parsed, chosen. destruct (last_some piece_page ks) as [fm|] eqn:EP.
    { rewrite sc_fmt. destruct fm; auto 10. congruence. }
    rewrite sc_fmt, <- sc_args. destruct (format_arguments p') as [|x l] eqn:EF.
    + rewrite Hs. destruct (last_some piece_sub ks) as [[s rest]|].
      * cbn [set_fmt parse_was_called executable_name format_arguments fmt user_decision sub_parser].
        split; [destruct Hk; constructor; assumption|]. auto 10.
      * rewrite EF. auto 10.
    + cbn [set_fmt parse_was_called executable_name format_arguments fmt user_decision sub_parser]. rewrite EF.
      split; [destruct Hk; constructor; assumption|]. auto 10.
Qed.

(** the whole of parse() *)
Lemma value_step {A} (m : M world A) w : bind m (fun _ => ret true) w = (fst (m w), with_value (snd (m w))).
Proof. unfold bind. destruct (m w) as [w1 [a|e|o| | |]]; reflexivity. Qed.

Lemma parse_bare p0 w a args ks : bare p0 (w_parser w) -> arguments p0 = a :: args ->
  good_name (m_app_name (info (w_parser w))) -> (forall s, In s (subcommands (w_parser w)) -> good_name s) ->
  pieces (options (w_parser w)) (subcommands (w_parser w)) args ks ->
  match first_error (bk_tdl bk) (subcommands (w_parser w)) ks with
  | Some e => exists p', step ndebug bk CParse w = (with_parser p' w, Throw e)
  | None => exists p',
      (let '(vs, f, r) := match apply_operations (self (w_parser w)) (gone (w_parser w)) (operations (w_parser w)) with
                          | Ret l => expected ndebug bk (info (w_parser w)) (subcommands (w_parser w)) (dev_decision p0)
                            (executable_name p0 ++ [a]) l (ops_decls l) ks (w_vars w) (w_fs w)
                          | r => (w_vars w, w_fs w, lift_res r (fun _ => Ret tt))
                          end in
       step ndebug bk CParse w = ({| w_parser := p'; w_vars := vs; w_fs := f |}, with_value r)) /\
      parsed ks a (w_parser w) p'
  end.
Proof.
  intros R E N1 N2 H.
  pose proof (determine_bare _ _ a args ks R (eq_trans (br_args _ _ R) E) H) as D.
  cbn [step]. rewrite value_step. unfold parse. rewrite (br_called _ _ R).
  rewrite (bind_ret_step _ _ _ (with_parser (set_called true (w_parser w)) w) tt) by reflexivity.
  rewrite (bind_ret_step _ _ _ (with_parser (set_called true (w_parser w)) w) tt).
  2:{ unfold on_parser. cbn [w_parser with_parser]. rewrite names_good; [reflexivity|exact N1|exact N2]. }
  destruct (first_error (bk_tdl bk) (subcommands (w_parser w)) ks) as [e|].
  { destruct D as (p' & D). exists p'. rewrite (bind_throw_step _ _ _ (with_parser p' w) e); [reflexivity|].
    unfold on_parser. cbn [w_parser with_parser]. now rewrite D. }
  destruct D as (p' & D & S). exists p'. split; [|exact S].
  destruct S as (K & C & Ex & FA & FM & U & Sb).
  rewrite (bind_ret_step _ _ _ (with_parser p' w) tt).
  2:{ unfold on_parser. cbn [w_parser with_parser]. rewrite D. reflexivity. }
  rewrite <- (kept_self _ _ K), <- (kept_gone _ _ K), <- (kept_ops _ _ K).
  destruct (apply_operations (self p') (gone p') (operations p')) as [l|e|o| | |] eqn:Ap;
    try (unfold bind; cbn [w_parser with_parser]; rewrite Ap; destruct w; reflexivity).
  rewrite (bind_ret_step _ _ _ (with_parser p' w) l).
  2:{ cbn [w_parser with_parser]. now rewrite Ap. }
  unfold bind, run_version_check. cbn [w_parser with_parser w_vars w_fs].
  rewrite (kept_info _ _ K), (kept_dev _ _ K), U, (br_dev _ _ R). unfold expected.
  destruct (bk_version_check bk (info (w_parser w)) (dev_decision p0) (last_some piece_check ks) (w_fs w)) as [f' [[]|e|o| | |]];
    try reflexivity.
  unfold parse_format. cbn [w_parser w_vars w_fs]. rewrite FM.
  destruct (chosen ks) eqn:Ech; cbn [fst snd];
    try (rewrite (kept_info _ _ K), (kept_subs _ _ K), (kept_dev _ _ K), Ex, (br_exe _ _ R), (br_dev _ _ R); reflexivity).
  rewrite FA. destruct (parse_args ndebug (ops_decls l) (flat_map own_texts ks) (w_vars w) f') as [st r]. reflexivity.
Qed.

Lemma parse_assembled w0 w log a args ks : assembled ndebug bk w0 w log -> arguments (w_parser w0) = a :: args ->
  good_name (m_app_name (info (w_parser w))) -> (forall s, In s (subcommands (w_parser w)) -> good_name s) ->
  pieces (options (w_parser w)) (subcommands (w_parser w)) args ks ->
  match first_error (bk_tdl bk) (subcommands (w_parser w)) ks with
  | Some e => exists p', step ndebug bk CParse w = (with_parser p' w, Throw e)
  | None => exists p',
      (let '(vs, f, r) := expected ndebug bk (info (w_parser w)) (subcommands (w_parser w)) (dev_decision (w_parser w0))
                            (executable_name (w_parser w0) ++ [a]) (accepted_ops log) (accepted log) ks (w_vars w) (w_fs w) in
       step ndebug bk CParse w = ({| w_parser := p'; w_vars := vs; w_fs := f |}, with_value r)) /\
      parsed ks a (w_parser w) p'
  end.
Proof.
  intros P E N1 N2 H. destruct (assembled_raw _ _ _ P) as [R G].
  pose proof (parse_bare _ _ a args ks (raw_bare _ _ _ R) E N1 N2 H) as B.
  rewrite (apply_own _ _ _ (rw_own _ _ _ R)), (rw_ops _ _ _ R) in B.
  replace (ops_decls (accepted_ops log)) with (accepted log) in B; [exact B|].
  rewrite <- (rw_ops _ _ _ R). symmetry. apply (gs_ops _ _ _ G).
Qed.

Lemma parse_prepared w0 w log a args ks : prepared ndebug bk w0 w log -> arguments (w_parser w0) = a :: args ->
  good_name (m_app_name (info (w_parser w))) -> (forall s, In s (subcommands (w_parser w)) -> good_name s) ->
  pieces (option_texts (accepted log)) (subcommands (w_parser w)) args ks ->
  match first_error (bk_tdl bk) (subcommands (w_parser w)) ks with
  | Some e => exists p', step ndebug bk CParse w = (with_parser p' w, Throw e)
  | None => exists p',
      (let '(vs, f, r) := expected ndebug bk (info (w_parser w)) (subcommands (w_parser w)) (dev_decision (w_parser w0))
                            (executable_name (w_parser w0) ++ [a]) (accepted_ops log) (accepted log) ks (w_vars w) (w_fs w) in
       step ndebug bk CParse w = ({| w_parser := p'; w_vars := vs; w_fs := f |}, with_value r)) /\
      parsed ks a (w_parser w) p'
  end.
Proof.
  intros P E N1 N2 H. apply (parse_assembled w0 w log a args ks (prepared_assembled _ _ _ P) E N1 N2).
  destruct (prepared_ready _ _ _ P) as [R _]. eapply pieces_ext; [|exact H]. intros s. symmetry. apply (rd_opts _ _ _ _ R).
Qed.

End reading.
