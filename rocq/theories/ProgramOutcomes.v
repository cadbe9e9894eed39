(** parse() ends in a documented way; descriptions do not matter. *)
From Verif Require Import Base StrLib Fs Values Validators FormatParse Invocation InvocationProofs ValuesSpec ScanSpec ScanProofs ScanOutcomes
  Parser ParserSpec ParserProofs ParserPieces ParserReading ParserOutcomes ReadingSpec HelpSpec HelpExport HelpEntries HelpExportProofs HelpLayout HelpOther
  VersionCheck VersionSpec VersionRuns ProgramSpec ProgramProofs ProgramBackend.

Lemma page_ok_proper pe r : page_ok r -> pr_format r <> FParse -> proper (okind_of (lift_res (page pe r) (fun out => @Exit unit out))).
Proof.
  intros H N. unfold page_ok in H.
  assert (G : (exists out, page pe r = Ret out) -> proper (okind_of (lift_res (page pe r) (fun out => @Exit unit out)))).
  { intros [out ->]. exact Logic.I. }
  destruct (pr_format r) eqn:F.
  - congruence.
  - destruct H. apply G. now apply (help_page_succeeds pe r advanced).
  - destruct H. apply G. now apply short_help_succeeds.
  - apply G. now apply version_page_succeeds.
  - destruct H as [H1 H2]. destruct (html_page_nested pe r F H1 H2) as (out & E & _). apply G. eauto.
  - apply G. now apply man_page_succeeds.
  - unfold page. rewrite F. destruct (pe_tdl pe); [exact Logic.I|reflexivity].
  - apply G. now apply copyright_page_succeeds.
Qed.

Lemma piece_error_proper tdl subs k e : piece_error tdl subs k = Some e -> is_parser_error (ekind e) = true.
Proof.
  destruct k; cbn [piece_error]; try discriminate.
  - destruct (ParserSpec.lookup v ParserSpec.exports); [discriminate|]. now intros [= <-].
  - destruct (ParserSpec.lookup v checks_values); [discriminate|]. now intros [= <-].
  - now intros [= <-].
  - destruct subs; [discriminate|]. destruct (begins "-" a); [discriminate|]. now intros [= <-].
Qed.
Lemma first_error_proper tdl subs ks e : first_error tdl subs ks = Some e -> is_parser_error (ekind e) = true.
Proof.
  induction ks as [|k ks IH]; cbn [first_error]; [discriminate|]. destruct (piece_error tdl subs k) eqn:E; [|exact IH].
  intros [= ->]. now apply piece_error_proper in E.
Qed.

Lemma documented_proper k : ScanSpec.documented k -> proper k.
Proof. destruct k; cbn; auto. Qed.

Lemma parse_proper nd pe ve w0 w log a args : assembled nd (backend_of pe ve) w0 w log -> arguments (w_parser w0) = a :: args ->
  (forall d, In d (accepted log) -> sound_decl nd d) -> machine_ok ve (w_fs w) ->
  (forall fm, page_ok {| pr_format := fm; pr_info := info (w_parser w); pr_subcommands := subcommands (w_parser w); pr_dev := dev_decision (w_parser w);
                         pr_executable := executable_name (w_parser w0) ++ [a]; pr_ops := accepted_ops log; pr_vars := w_vars w |}) ->
  proper (okind_of (snd (step nd (backend_of pe ve) CParse w))).
Proof.
  intros P A Hd (home & M1 & M2 & M3) Hp. destruct (names_ok_dec (w_parser w)) as [N|N].
  2:{ destruct (assembled_bad _ _ _ _ _ P N) as [m ->]. reflexivity. }
  destruct (pieces_exist (options (w_parser w)) (subcommands (w_parser w)) (List.length args) args (le_n _)) as [ks K].
  destruct (assembled_outcome _ _ _ _ _ _ _ _ P A N K) as (w1 & r & -> & H). cbn [snd].
  destruct (first_error _ _ ks) as [e|] eqn:E.
  { destruct H as (_ & _ & ->). now apply first_error_proper in E. }
  unfold expected in H. cbn [backend_of bk_version_check] in H.
  assert (Hv : exists st, version_check ve (info (w_parser w)) (dev_decision (w_parser w)) (last_some piece_check ks)
                  {| vs_fs := w_fs w; vs_log := [] |} = (st, Ret tt)).
  { apply (never_fails ve home); [exact M1|exact (proj2 (name_matches_iff _) (proj1 N))|exact M2|exact M3]. }
  destruct Hv as [st Hv]. rewrite Hv in H.
  assert (Q : forall q : res unit, proper (okind_of q) -> proper (okind_of (with_value q))) by (intros [[]|e|o| | |]; auto).
  destruct (chosen ks) eqn:C.
  2-8: apply (f_equal snd) in H; cbn [snd] in H; rewrite H; apply Q, page_ok_proper; [apply Hp|discriminate].
  pose proof (documented_lemma nd (accepted log) (flat_map own_texts ks) (w_vars w) (vs_fs st) Hd) as D.
  destruct (parse_args nd (accepted log) (flat_map own_texts ks) (w_vars w) (vs_fs st)) as [st1 q].
  apply (f_equal snd) in H. cbn [snd] in H. rewrite H. apply Q, documented_proper, D.
  right. pose proof (assembled_wf _ _ _ _ _ P) as W. unfold wf_decls in W. now apply andb_true_iff in W as [_ W].
Qed.

(** ** Descriptions do not matter *)

Lemma mapM_ext {A} (g h : A -> M pst unit) l : (forall a, In a l -> forall st, g a st = h a st) -> forall st, mapM_ g l st = mapM_ h l st.
Proof.
  induction l as [|a l IH]; intros H st; [reflexivity|]. cbn [mapM_]. unfold bind. rewrite H by now left.
  destruct (h a st) as [st' [[]|e|o| | |]]; try reflexivity. apply IH. intros b Hb. apply H. now right.
Qed.

Lemma mapM_filter {A} (p : A -> bool) (g : A -> M pst unit) l : (forall a, p a = false -> forall st, g a st = (st, Ret tt)) ->
  forall st, mapM_ g l st = mapM_ g (filter p l) st.
Proof.
  intros H. induction l as [|a l IH]; intros st; [reflexivity|]. cbn [mapM_ filter]. destruct (p a) eqn:E.
  - cbn [mapM_]. unfold bind. destruct (g a st) as [st' [[]|e|o| | |]]; try reflexivity. apply IH.
  - unfold bind. rewrite H by exact E. apply IH.
Qed.

Lemma mapM_forall2 {A} (R : A -> A -> Prop) (g h : A -> M pst unit) l l' : Forall2 R l l' -> (forall a b, R a b -> forall st, g a st = h b st) ->
  forall st, mapM_ g l st = mapM_ h l' st.
Proof.
  intros F H. induction F as [|a b l l' Hab F IH]; intros st; [reflexivity|]. cbn [mapM_]. unfold bind. rewrite (H _ _ Hab).
  destruct (h b st) as [st' [[]|e|o| | |]]; try reflexivity. apply IH.
Qed.

Lemma Forall2_length' {A B} (R : A -> B -> Prop) l l' : Forall2 R l l' -> List.length l = List.length l'.
Proof. induction 1; cbn; congruence. Qed.

Lemma bind_ext {A B} (m m' : M pst A) (k k' : A -> M pst B) st : (forall s, m s = m' s) -> (forall a s, k a s = k' a s) -> bind m k st = bind m' k' st.
Proof. intros H1 H2. unfold bind. rewrite H1. destruct (m' st) as [s [a|e|o| | |]]; try reflexivity. apply H2. Qed.

Section interference.
Variable nd : bool.

Lemma same_interface_args ds ds' args vs f : same_interface ds ds' -> parse_args nd ds args vs f = parse_args nd ds' args vs f.
Proof.
  intros (HO & HF & HP). unfold parse_args, parse_calls.
  assert (EO : forall st, mapM_ (option_call nd) ds st = mapM_ (option_call nd) ds' st).
  { intros st. rewrite (mapM_filter (fun d => match d with DOption _ _ _ => true | _ => false end)) by (now intros [] E).
    rewrite (mapM_filter (fun d => match d with DOption _ _ _ => true | _ => false end) _ ds') by (now intros [] E).
    apply (mapM_forall2 same_role _ _ _ _ HO). intros [x t c|x c|x t c] [x' t' c'|x' c'|x' t' c'] R s; try contradiction; try reflexivity.
    destruct R as (-> & -> & R1 & R2 & R3 & R4). cbn [option_call]. unfold get_option. now rewrite R1, R2, R3, R4. }
  assert (EF : forall st, mapM_ flag_call ds st = mapM_ flag_call ds' st).
  { intros st. rewrite (mapM_filter (fun d => match d with DFlag _ _ => true | _ => false end)) by (now intros [] E).
    rewrite (mapM_filter (fun d => match d with DFlag _ _ => true | _ => false end) _ ds') by (now intros [] E).
    apply (mapM_forall2 same_role _ _ _ _ HF). intros [x t c|x c|x t c] [x' t' c'|x' c'|x' t' c'] R s; try contradiction; try reflexivity.
    destruct R as (-> & R1 & R2). cbn [flag_call]. unfold get_flag. now rewrite R1, R2. }
  assert (En : List.length (filter FormatParse.is_positional ds) = List.length (filter FormatParse.is_positional ds')).
  { exact (Forall2_length' _ _ _ HP). }
  assert (EP : forall n st, mapM_ (positional_call nd n) ds st = mapM_ (positional_call nd n) ds' st).
  { intros n st. rewrite (mapM_filter (fun d => match d with DPositional _ _ _ => true | _ => false end)) by (now intros [] E).
    rewrite (mapM_filter (fun d => match d with DPositional _ _ _ => true | _ => false end) _ ds') by (now intros [] E).
    apply (mapM_forall2 same_role _ _ _ _ HP). intros [x t c|x c|x t c] [x' t' c'|x' c'|x' t' c'] R s; try contradiction; try reflexivity.
    destruct R as (-> & -> & R1). cbn [positional_call]. now rewrite R1. }
  apply bind_ext; [exact EO|intros _ s]. apply bind_ext; [exact EF|intros _ s1]. apply bind_ext; [reflexivity|intros _ s2].
  apply bind_ext; [reflexivity|intros _ s3]. rewrite En. apply bind_ext; [apply EP|reflexivity].
Qed.

Lemma same_interface_texts ds ds' : same_interface ds ds' -> option_texts ds = option_texts ds'.
Proof.
  intros (HO & _ & _). unfold option_texts. f_equal.
  assert (H : forall l, flat_map option_idents l = flat_map option_idents (options_of l)).
  { induction l as [|[x t c|x c|x t c] l IH]; cbn; auto. now rewrite IH. }
  rewrite (H ds), (H ds'). clear H. induction HO as [|a b l l' Hab _ IH]; [reflexivity|]. cbn [flat_map]. rewrite IH. f_equal.
  destruct a as [x t c|x c|x t c], b as [x' t' c'|x' c'|x' t' c']; try contradiction; try reflexivity.
  destruct Hab as (_ & _ & R1 & R2 & _). cbn. unfold config_idents. now rewrite R1, R2.
Qed.

Variable bk : backend.

(** what parse() does is determined by the interface, the subcommands and the outcome of the version check *)
Lemma same_program w0 w log w0' w' log' a a' args ks :
  prepared nd bk w0 w log -> prepared nd bk w0' w' log' ->
  arguments (w_parser w0) = a :: args -> arguments (w_parser w0') = a' :: args ->
  same_interface (accepted log) (accepted log') -> subcommands (w_parser w) = subcommands (w_parser w') ->
  names_ok (w_parser w) -> names_ok (w_parser w') ->
  (forall user, bk_version_check bk (info (w_parser w)) (dev_decision (w_parser w)) user (w_fs w) =
                bk_version_check bk (info (w_parser w')) (dev_decision (w_parser w')) user (w_fs w')) ->
  w_vars w = w_vars w' -> w_fs w = w_fs w' ->
  pieces (option_texts (accepted log)) (subcommands (w_parser w)) args ks ->
  let r := step nd bk CParse w in let r' := step nd bk CParse w' in
  w_vars (fst r) = w_vars (fst r') /\ w_fs (fst r) = w_fs (fst r') /\
  (chosen ks = FParse \/ first_error (bk_tdl bk) (subcommands (w_parser w)) ks <> None -> snd r = snd r').
Proof.
  intros P P' A A' S U [N1 N2] [N1' N2'] V EV EF K.
  pose proof (parse_prepared nd bk w0 w log a args ks P A N1 N2 K) as H.
  rewrite (same_interface_texts _ _ S), U in K.
  pose proof (parse_prepared nd bk w0' w' log' a' args ks P' A' N1' N2' K) as H'. cbn zeta.
  rewrite <- U in H'.
  pose proof (assembled_raw _ _ _ _ _ (prepared_assembled _ _ _ _ _ P)) as [R _]. pose proof (assembled_raw _ _ _ _ _ (prepared_assembled _ _ _ _ _ P')) as [R' _].
  destruct (first_error (bk_tdl bk) (subcommands (w_parser w)) ks) as [e|].
  { destruct H as [p ->], H' as [p' ->]. cbn. rewrite EV, EF. auto. }
  destruct H as (p & H & _), H' as (p' & H' & _). unfold expected in H, H'.
  rewrite <- (rw_dev _ _ _ R) in H. rewrite <- (rw_dev _ _ _ R') in H'. rewrite <- V in H'.
  destruct (bk_version_check bk (info (w_parser w)) (dev_decision (w_parser w)) (last_some piece_check ks) (w_fs w)) as [f1 [[]|e|o| | |]].
  2-6: rewrite H, H'; cbn; rewrite EV; auto.
  destruct (chosen ks).
  2-8: rewrite H, H'; cbn; rewrite EV; repeat split; intros [X|X]; [discriminate|now destruct X].
  rewrite <- EV, <- (same_interface_args _ _ _ _ _ S) in H'.
  destruct (parse_args nd (accepted log) (flat_map own_texts ks) (w_vars w) f1) as [st q]. rewrite H, H'. cbn. auto.
Qed.

End interference.
