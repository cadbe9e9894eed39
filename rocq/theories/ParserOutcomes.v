(** Proofs of the remaining properties of parsers. *)
From Verif Require Import Base StrLib Fs Values Validators FormatParse Invocation InvocationProofs ScanSpec ScanProofs
  Parser ParserSpec ParserProofs ParserPieces ParserReading ParserSim.

(** ** Rejected declarations *)

Lemma rejected_alike ndebug bk c w w1 e : declares_something c = true -> step ndebug bk c w = (w1, Throw e) ->
  walike (call_names c) (call_texts c) true w1 w.
Proof.
  intros D H.
  assert (A : forall ids opts p p' r, declares ids opts p p' r -> r <> Ret tt -> alike (map id_name ids) opts true p' p).
  { intros ids opts p p' r Hd Hr. pose proof (dc_throw _ _ _ _ _ Hd Hr) as B. destruct Hd.
    constructor; try (rewrite B; reflexivity).
    - intros s Hs. split; [intros Hi; now destruct (dc_used s Hi)|apply dc_used'].
    - intros s Hs. split; [intros Hi; now destruct (dc_opts s Hi)|apply dc_opts'].
    - rewrite B. auto. }
  destruct c; try discriminate D.
  - apply step_option in H as (p' & ra & H & -> & R). destruct (add_option_spec _ _ _ _ _ _ H) as [Hd _].
    constructor; try reflexivity. cbn [w_parser with_parser call_names call_texts]. apply (A _ _ _ _ ra Hd).
    intros E. apply R in E. discriminate E.
  - apply step_flag in H as (p' & ra & H & -> & R). destruct (add_flag_spec _ _ _ _ _ _ H) as [Hd _].
    constructor; try reflexivity. cbn [w_parser with_parser call_names call_texts]. apply (A _ _ _ _ ra Hd).
    intros E. apply R in E. discriminate E.
  - apply step_positional in H as (p' & ra & H & -> & R). destruct (add_positional_spec _ _ _ _ _ _ H) as [[-> _]|(E & _)].
    + constructor; try reflexivity. cbn. constructor; try reflexivity. auto.
    + apply R in E. discriminate E.
Qed.

Lemma alike_without U O p q : alike U O true p q -> without_names p = without_names q.
Proof.
  intros []. destruct al_ops as (A & B & C). destruct p, q. cbn in *. subst. reflexivity.
Qed.

Lemma rejected_lemma ndebug bk c w w1 e cs : declares_something c = true -> step ndebug bk c w = (w1, Throw e) ->
  (forall c', In c' cs -> forall n, In n (call_names c') -> ~ In n (call_names c)) ->
  (forall a, In a (List.tl (arguments (w_parser w))) -> ~ In a (call_texts c)) ->
  indistinguishable (run ndebug bk cs w1) (run ndebug bk cs w) /\
  without_names (w_parser (fst (run ndebug bk cs w1))) = without_names (w_parser (fst (run ndebug bk cs w))).
Proof.
  intros D H N A. pose proof (rejected_alike _ _ _ _ _ _ D H) as W.
  destruct (alike_run ndebug bk _ _ _ cs _ _ W) as [E W2].
  - intros a Ha. apply A. rewrite <- (al_args _ _ _ _ _ (wa_parser _ _ _ _ _ W)). exact Ha.
  - intros c' Hc'. split; [now apply N|discriminate].
  - split; [|exact (alike_without _ _ _ _ (wa_parser _ _ _ _ _ W2))].
    split; [exact E|]. split; [apply (wa_vars _ _ _ _ _ W2)|apply (wa_fs _ _ _ _ _ W2)].
Qed.

Lemma rejected_kind ndebug bk c w w1 e : declares_something c = true -> step ndebug bk c w = (w1, Throw e) ->
  without_names (w_parser w1) = without_names (w_parser w) /\ w_vars w1 = w_vars w /\ w_fs w1 = w_fs w.
Proof.
  intros D H. pose proof (rejected_alike _ _ _ _ _ _ D H) as [L V F]. split; [|auto]. now apply (alike_without _ _ _ _ L).
Qed.

Lemma rejected_positional ndebug bk x t c w w1 e : step ndebug bk (CAddPositional x t c) w = (w1, Throw e) -> w1 = w.
Proof.
  intros H. apply step_positional in H as (p' & ra & H & -> & R). destruct (add_positional_spec _ _ _ _ _ _ H) as [[-> _]|(E & _)].
  - apply with_parser_same.
  - apply R in E. discriminate E.
Qed.

(** ** Moving *)

Lemma step_ops ndebug bk c w w1 r : step ndebug bk c w = (w1, r) ->
  map snd (operations (w_parser w1)) = map snd (operations (w_parser w)) ++ (if returned r then call_op c else []).
Proof.
  intros H.
  assert (B : forall p q, but_ids p q -> operations q = operations p) by (intros p q ->; reflexivity).
  destruct (section_op c) as [o|] eqn:S.
  { destruct (step_section _ _ _ _ _ _ _ S H) as [(_ & -> & m & ->)|(_ & -> & ->)]; cbn [returned].
    - now rewrite app_nil_r.
    - cbn. rewrite map_app. destruct c; try discriminate S; injection S as <-; reflexivity. }
  destruct (quiet_call c) eqn:Q.
  { pose proof (step_quiet ndebug bk c w Q) as K. rewrite H in K. cbn [fst] in K. destruct K as (_ & _ & _ & _ & -> & _).
    destruct c; try discriminate Q; cbn [call_op call_decl map]; destruct (returned r); now rewrite app_nil_r. }
  destruct c; try discriminate S; try discriminate Q.
  - apply step_option in H as (p' & ra & H & -> & R). destruct (add_option_spec _ _ _ _ _ _ H) as [D K]. cbn [with_parser w_parser].
    destruct (dc_out _ _ _ _ _ D) as [->|[m ->]].
    + rewrite (proj2 R eq_refl). destruct (K eq_refl) as (_ & q & Hq & ->). cbn. now rewrite map_app, (B _ _ Hq).
    + destruct (returned r); [discriminate (proj1 R eq_refl)|]. rewrite app_nil_r.
      assert (N : Throw (Exn KDesign m) <> Ret tt) by discriminate. now rewrite (B _ _ (dc_throw _ _ _ _ _ D N)).
  - apply step_flag in H as (p' & ra & H & -> & R). destruct (add_flag_spec _ _ _ _ _ _ H) as [D K]. cbn [with_parser w_parser].
    destruct (dc_out _ _ _ _ _ D) as [->|[m ->]].
    + rewrite (proj2 R eq_refl). destruct (K eq_refl) as (_ & _ & q & Hq & ->). cbn. now rewrite map_app, (B _ _ Hq).
    + destruct (returned r); [discriminate (proj1 R eq_refl)|]. rewrite app_nil_r.
      assert (N : Throw (Exn KDesign m) <> Ret tt) by discriminate. now rewrite (B _ _ (dc_throw _ _ _ _ _ D N)).
  - apply step_positional in H as (p' & ra & H & -> & R).
    destruct (add_positional_spec _ _ _ _ _ _ H) as [(-> & m & ->)|(-> & _ & _ & _ & _ & ->)]; cbn [with_parser w_parser].
    + destruct (returned r); [discriminate (proj1 R eq_refl)|]. now rewrite app_nil_r.
    + rewrite (proj2 R eq_refl). cbn. now rewrite map_app.
  - injection H as <- <-. cbn. now rewrite app_nil_r.
  - destruct (parse_keeps ndebug bk w) as [K _]. cbn [step] in H. unfold bind in H. destruct (parse ndebug bk w) as [w2 r2]. cbn [fst] in K.
    assert (w2 = w1) as <- by (destruct r2; now injection H). rewrite (kept_ops _ _ K). cbn. destruct (returned r); now rewrite app_nil_r.
Qed.

Lemma run_ops ndebug bk cs : forall w w1 log, run ndebug bk cs w = (w1, log) ->
  map snd (operations (w_parser w1)) = map snd (operations (w_parser w)) ++ accepted_ops log.
Proof.
  induction cs as [|c cs IH]; intros w w1 log H; [injection H as <- <-; now rewrite app_nil_r|].
  rewrite run_cons in H. destruct (step ndebug bk c w) as [w2 r] eqn:E. pose proof (step_ops _ _ _ _ _ _ E) as S.
  destruct (run ndebug bk cs w2) as [w3 l] eqn:E2. cbn [fst snd] in H. specialize (IH _ _ _ E2).
  destruct r; injection H as <- <-; unfold accepted_ops; cbn [flat_map fst snd]; fold (accepted_ops l); cbn [returned] in *;
    rewrite ?IH, S, ?app_nil_r, <- ?app_assoc; reflexivity.
Qed.

Lemma move_alike i alive p : operations p = [] \/ parse_was_called p = true -> alike [] [] false (move_to i alive p) p.
Proof.
  intros H. constructor; try reflexivity; try tauto. destruct H as [H|H]; [right|now left]. unfold applied. cbn. now rewrite H.
Qed.

Lemma move_lemma ndebug bk cs1 cs2 w0 w log i alive w1 r : fresh (w_parser w0) -> run ndebug bk cs1 w0 = (w, log) ->
  accepted_ops log = [] \/ In CParse (map fst log) ->
  (forall c, In c cs2 -> is_move c = false) ->
  step ndebug bk (CMove i alive) w = (w1, r) ->
  r = Ret true /\ indistinguishable (run ndebug bk cs2 w1) (run ndebug bk cs2 w).
Proof.
  intros F R H M E. injection E as <- <-. split; [reflexivity|].
  match goal with |- indistinguishable (run _ _ _ ?v) _ => set (w1 := v) end.
  assert (W : walike [] [] false w1 w).
  { constructor; try reflexivity. apply move_alike. destruct H as [H|H].
    - left. pose proof (run_ops _ _ _ _ _ _ R) as K. rewrite H, app_nil_r in K. destruct F. cbn in K.
      now apply map_eq_nil in K.
    - right. pose proof (run_called ndebug bk cs1 w0) as K. rewrite R in K. apply K. now right. }
  destruct (alike_run ndebug bk _ _ _ cs2 _ _ W) as [E2 W2].
  - intros a _ [].
  - intros c Hc. split; [intros n _ []|intros _; now apply M].
  - split; [exact E2|]. split; [apply (wa_vars _ _ _ _ _ W2)|apply (wa_fs _ _ _ _ _ W2)].
Qed.

(** an operation whose parser has been moved away from a place that no longer exists *)
Lemma apply_gone i dead l j o : In (j, o) l -> j <> i -> In j dead -> apply_operations i dead l = UB.
Proof.
  intros H N D. induction l as [|[k a] l IH]; [destruct H|]. cbn [apply_operations].
  destruct (Nat.eqb_spec k i) as [->|Hk].
  - destruct H as [H|H]; [injection H as -> _; contradiction|]. now rewrite (IH H).
  - destruct (existsb (Nat.eqb k) dead) eqn:X; [reflexivity|]. apply IH. destruct H as [H|H]; [|exact H].
    injection H as -> _. assert (existsb (Nat.eqb j) dead = true); [|congruence].
    apply existsb_exists. exists j. split; [exact D|apply Nat.eqb_refl].
Qed.

(** ** is_option_set *)

Lemma step_used ndebug bk c w w1 r : step ndebug bk c w = (w1, r) ->
  forall s, In s (used_ids (w_parser w1)) -> In s (used_ids (w_parser w)) \/ In s (tried_names [(c, r)]).
Proof.
  intros H s. unfold tried_names. cbn [flat_map fst]. rewrite app_nil_r.
  destruct (section_op c) as [o|] eqn:S.
  { destruct (step_section _ _ _ _ _ _ _ S H) as [(_ & -> & m & ->)|(_ & -> & ->)]; cbn; auto. }
  destruct (quiet_call c) eqn:Q.
  { pose proof (step_quiet ndebug bk c w Q) as K. rewrite H in K. cbn [fst] in K. destruct K as (_ & _ & -> & _). auto. }
  destruct c; try discriminate S; try discriminate Q.
  - apply step_option in H as (p' & ra & H & -> & R). destruct (add_option_spec _ _ _ _ _ _ H) as [D K]. apply (dc_used _ _ _ _ _ D).
  - apply step_flag in H as (p' & ra & H & -> & R). destruct (add_flag_spec _ _ _ _ _ _ H) as [D K]. apply (dc_used _ _ _ _ _ D).
  - apply step_positional in H as (p' & ra & H & -> & R).
    destruct (add_positional_spec _ _ _ _ _ _ H) as [(-> & m & ->)|(-> & _ & _ & _ & _ & ->)]; cbn; auto.
  - injection H as <- <-. cbn. auto.
  - destruct (parse_keeps ndebug bk w) as [K _]. cbn [step] in H. unfold bind in H. destruct (parse ndebug bk w) as [w2 r2]. cbn [fst] in K.
    assert (w2 = w1) as <- by (destruct r2; now injection H). rewrite (kept_used _ _ K). auto.
Qed.

Lemma run_used ndebug bk cs : forall w w1 log, run ndebug bk cs w = (w1, log) ->
  forall s, In s (used_ids (w_parser w1)) -> In s (used_ids (w_parser w)) \/ In s (tried_names log).
Proof.
  induction cs as [|c cs IH]; intros w w1 log H s; [injection H as <- <-; auto|].
  rewrite run_cons in H. destruct (step ndebug bk c w) as [w2 r] eqn:E. pose proof (step_used _ _ _ _ _ _ E s) as S.
  destruct (run ndebug bk cs w2) as [w3 l] eqn:E2. cbn [fst snd] in H. specialize (IH _ _ _ E2 s).
  unfold tried_names in *. cbn [flat_map fst] in *. rewrite app_nil_r in S.
  destruct r; injection H as <- <-; cbn [flat_map fst]; rewrite in_app_iff; try tauto; cbn; tauto.
Qed.

Lemma set_parse ndebug bk w i : parse_was_called (w_parser w) = false -> exists m, step ndebug bk (CIsSet i) w = (w, Throw (Exn KDesign m)).
Proof. intros H. cbn [step]. unfold on_parser, is_option_set. rewrite H. eexists. f_equal. now destruct w. Qed.

Lemma step_uncalled ndebug bk c w w1 r : step ndebug bk c w = (w1, r) -> parse_was_called (w_parser w) = false -> c <> CParse ->
  parse_was_called (w_parser w1) = false.
Proof.
  intros H P C.
  assert (B : forall p q, but_ids p q -> parse_was_called q = parse_was_called p) by (intros p q ->; reflexivity).
  destruct (section_op c) as [o|] eqn:S.
  { destruct (step_section _ _ _ _ _ _ _ S H) as [(_ & -> & m & ->)|(_ & -> & ->)]; cbn; auto. }
  destruct (quiet_call c) eqn:Q.
  { pose proof (step_quiet ndebug bk c w Q) as K. rewrite H in K. cbn [fst] in K. destruct K as (_ & _ & _ & _ & _ & -> & _). auto. }
  destruct c; try discriminate S; try discriminate Q; try contradiction.
  - apply step_option in H as (p' & ra & H & -> & R). destruct (add_option_spec _ _ _ _ _ _ H) as [D K]. cbn [with_parser w_parser].
    destruct (dc_out _ _ _ _ _ D) as [->|[m ->]].
    + destruct (K eq_refl) as (_ & q & Hq & ->). change (parse_was_called q = false). now rewrite (B _ _ Hq).
    + assert (N : Throw (Exn KDesign m) <> Ret tt) by discriminate. now rewrite (B _ _ (dc_throw _ _ _ _ _ D N)).
  - apply step_flag in H as (p' & ra & H & -> & R). destruct (add_flag_spec _ _ _ _ _ _ H) as [D K]. cbn [with_parser w_parser].
    destruct (dc_out _ _ _ _ _ D) as [->|[m ->]].
    + destruct (K eq_refl) as (_ & _ & q & Hq & ->). change (parse_was_called q = false). now rewrite (B _ _ Hq).
    + assert (N : Throw (Exn KDesign m) <> Ret tt) by discriminate. now rewrite (B _ _ (dc_throw _ _ _ _ _ D N)).
  - apply step_positional in H as (p' & ra & H & -> & R).
    destruct (add_positional_spec _ _ _ _ _ _ H) as [(-> & m & ->)|(-> & _ & _ & _ & _ & ->)]; cbn; auto.
  - injection H as <- <-. exact P.
Qed.

Lemma run_uncalled ndebug bk cs : forall w w1 log, run ndebug bk cs w = (w1, log) -> parse_was_called (w_parser w) = false ->
  ~ In CParse (map fst log) -> parse_was_called (w_parser w1) = false.
Proof.
  induction cs as [|c cs IH]; intros w w1 log H P N; [now injection H as <- <-|].
  rewrite run_cons in H. destruct (step ndebug bk c w) as [w2 r] eqn:E.
  destruct (run ndebug bk cs w2) as [w3 l] eqn:E2. cbn [fst snd] in H.
  assert (c <> CParse) by (intros ->; apply N; destruct r; injection H as _ <-; now left).
  pose proof (step_uncalled _ _ _ _ _ _ E P ltac:(assumption)) as S.
  destruct r; injection H as <- <-; auto; apply (IH _ _ _ E2 S); intros K; apply N; now right.
Qed.

Lemma set_rejects ndebug bk cs w0 w log i : fresh (w_parser w0) -> run ndebug bk cs w0 = (w, log) ->
  ~ In CParse (map fst log) \/ (exists s, i = IdLong s /\ String.length s = 1) \/ (~ In (id_name i) (tried_names log) /\ ~ In (id_name i) reserved) ->
  exists m, step ndebug bk (CIsSet i) w = (w, Throw (Exn KDesign m)).
Proof.
  intros F R H. cbn [step]. unfold on_parser, is_option_set.
  assert (E : {| w_parser := w_parser w; w_vars := w_vars w; w_fs := w_fs w |} = w) by now destruct w.
  destruct (negb (parse_was_called (w_parser w))) eqn:C; [eexists; unfold design, throw; now rewrite E|].
  apply negb_false_iff in C. destruct H as [H|[(s & -> & H)|[H1 H2]]].
  - exfalso. assert (parse_was_called (w_parser w) = false); [|congruence]. apply (run_uncalled _ _ _ _ _ _ R); [|exact H]. now destruct F.
  - rewrite H. cbn [Nat.eqb]. eexists; unfold design, throw; now rewrite E.
  - destruct (match i with IdShort _ => false | IdLong s => (String.length s =? 1)%nat end); [eexists; unfold design, throw; now rewrite E|].
    change (match i with IdShort c => str1 c | IdLong s => s end) with (id_name i).
    destruct (mem (id_name i) (used_ids (w_parser w))) eqn:Em; [|cbn [negb]; eexists; unfold design, throw; now rewrite E].
    exfalso. apply mem_spec in Em. apply (run_used _ _ _ _ _ _ R) in Em as [Em|Em]; [|contradiction]. apply H2. destruct F. exact Em.
Qed.

Lemma split_first_some p l : match split_first p l with Some _ => true | None => false end = true <-> exists t, In t l /\ p t = true.
Proof.
  induction l as [|t l IH]; cbn [split_first]; [split; [discriminate|intros (t & [] & _)]|].
  destruct (p t) eqn:L; [split; [intros _; exists t; split; [now left|exact L]|reflexivity]|].
  replace (match match split_first p l with Some (l1, x, l2) => Some (t :: l1, x, l2) | None => None end with Some _ => true | None => false end)
    with (match split_first p l with Some _ => true | None => false end) by (destruct (split_first p l) as [[[l1 x] l2]|]; reflexivity).
  rewrite IH. split; intros (t0 & H0 & H1).
  - exists t0. split; [now right|exact H1].
  - destruct H0 as [<-|H0]; [congruence|eauto].
Qed.

(** the answer after a run of parse() that got past its arguments *)
Lemma set_answers ndebug bk w0 w log a args ks w1 r i b rest : prepared ndebug bk w0 w log -> arguments (w_parser w0) = a :: args ->
  good_name (m_app_name (info (w_parser w))) -> (forall s, In s (subcommands (w_parser w)) -> good_name s) ->
  pieces (option_texts (accepted log)) (subcommands (w_parser w)) args ks -> first_error (bk_tdl bk) (subcommands (w_parser w)) ks = None ->
  step ndebug bk CParse w = (w1, r) -> In i (flat_map decl_idents (accepted log)) -> cut (flat_map own_texts ks) b rest ->
  exists answer, step ndebug bk (CIsSet i) w1 = (w1, Ret answer) /\ (answer = true <-> exists t, In t b /\ looks_like i t = true).
Proof.
  intros P A N1 N2 K E S I C.
  pose proof (parse_prepared ndebug bk w0 w log a args ks P A N1 N2 K) as H. rewrite E in H. destruct H as (p' & H & Q).
  assert (Ep : w_parser w1 = p').
  { destruct (expected ndebug bk _ _ _ _ _ _ _ _ _) as [[vs f] r']. rewrite S in H. injection H as -> _. reflexivity. }
  destruct Q as (Kp & Cl & _ & Fa & _). destruct (prepared_ready ndebug bk _ _ _ P) as [Rd _].
  pose proof P as (F & (cs & Rn) & _). pose proof (wf_lemma ndebug bk w0 cs F) as W. rewrite Rn in W. cbn [snd] in W.
  unfold wf_decls in W. apply andb_prop in W as [W _]. apply andb_prop in W as [W _]. rewrite forallb_forall in W. specialize (W i I).
  cbn [step]. unfold on_parser, is_option_set. rewrite Ep, Cl, Fa. cbn [negb].
  replace (match i with IdShort _ => false | IdLong s => (String.length s =? 1)%nat end) with false.
  2:{ destruct i as [c|s]; [reflexivity|]. symmetry. apply Nat.eqb_neq. intros L. cbn [good_ident] in W.
      apply andb_prop in W as [W _]. apply andb_prop in W as [W _]. apply Nat.leb_le in W. lia. }
  change (match i with IdShort c => str1 c | IdLong s => s end) with (id_name i).
  rewrite (kept_used _ _ Kp), (proj2 (mem_spec (id_name i) (used_ids (w_parser w)))).
  2:{ apply (rd_used _ _ _ _ Rd). right. unfold decl_names. apply in_map, I. }
  cbn [negb]. rewrite (cut_split _ _ _ C). cbn [fst]. rewrite find_option_id_looks by now apply good_nonempty.
  unfold ret. eexists. split; [rewrite <- Ep; f_equal; now destruct w1|].
  apply split_first_some.
Qed.

(** for a well-formed command line and an option: whether a value was given (or forgotten) *)
Lemma option_looks decls inv i : wf_decls decls = true -> wf_invocation decls inv = true -> In i (flat_map option_idents decls) ->
  (exists t, In t (flat_map render_item (items inv)) /\ looks_like i t = true) <-> values_of (items inv) i <> [].
Proof.
  intros Hd Hi I. unfold wf_decls in Hd. apply andb_prop in Hd as [Hd _]. apply andb_prop in Hd as [Hg _].
  unfold wf_invocation in Hi. apply andb_prop in Hi as [Hi _]. apply andb_prop in Hi as [Hwf Hdang].
  set (opts := flat_map option_idents decls) in *. rewrite forallb_forall in Hg.
  assert (Hgo : forall j, In j opts -> good_ident j = true) by (intros j H; apply Hg, flat_map_decl_idents; now left).
  set (cs := map CLive (items inv)).
  assert (Er : crender cs = flat_map render_item (items inv)).
  { unfold cs, crender. clear. induction (items inv) as [|a l IH]; cbn; [reflexivity|]. now rewrite <- IH. }
  assert (Ev : cvals cs i = values_of (items inv) i).
  { unfold cs, cvals, values_of. clear. induction (items inv) as [|a l IH]; cbn; [reflexivity|]. now rewrite <- IH. }
  assert (Ew : forallb (cwf opts) cs = true).
  { unfold cs. clear -Hwf. induction (items inv) as [|a l IH]; [reflexivity|]. cbn in *. apply andb_prop in Hwf as [-> Hwf]. auto. }
  rewrite <- Er, <- Ev. split.
  - intros (t & Ht & L) E. pose proof (no_match_list opts Hgo i cs I Ew E) as K. rewrite forallb_forall in K. specialize (K t Ht). now rewrite L in K.
  - intros E. destruct (cvals cs i) as [|v vs] eqn:Ec; [contradiction|].
    assert (Ed : cdang cs = true).
    { unfold cs. clear -Hdang. induction (items inv) as [|it l IH]; [reflexivity|]. destruct it; cbn in *; auto. destruct l; [reflexivity|discriminate]. }
    destruct (find_first true opts Hgo i cs v vs I Ew Ed Ec) as (c1 & it & c2 & a & r & _ & _ & _ & _ & _ & _ & _ & Hf & _).
    rewrite find_option_id_looks in Hf by now apply good_nonempty, Hgo.
    apply split_first_some. now rewrite Hf.
Qed.

(** ** Sub-parsers *)

Lemma good_name_sub app s : good_name app -> good_name s -> good_name (app +s+ "-" +s+ s).
Proof.
  intros [A1 A2] [B1 B2]. split; [destruct app; discriminate|]. intros c H.
  assert (K : forall a b, chars (a +s+ b) = chars a ++ chars b).
  { induction a as [|x a IH]; intros b; cbn; [reflexivity|]. unfold chars in *. cbn. now f_equal. }
  rewrite !K, !in_app_iff in H. destruct H as [H|[H|H]]; auto. destruct H as [<-|[]]. auto.
Qed.

Lemma pieces_texts opts subs args ks : pieces opts subs args ks -> args = flat_map piece_texts ks.
Proof. induction 1 as [|k|k args ks _ _ _ IH]; cbn; [reflexivity|now rewrite app_nil_r|now rewrite <- IH]. Qed.

Lemma pieces_sub opts subs args ks s rest : pieces opts subs args ks -> last_some piece_sub ks = Some (s, rest) ->
  In s subs /\ (exists more, rest = s :: more) /\ exists front, args = front ++ rest /\
  exists ks', ks = ks' ++ [KSub s (List.tl rest)] /\ pieces opts subs front ks'.
Proof.
  induction 1 as [|k Hk L|k args ks Hk L Hp IH]; cbn [last_some].
  - discriminate.
  - destruct k; try discriminate. intros [= <- <-]. destruct Hk as [_ Hs]. split; [exact Hs|]. split; [eauto|]. exists []. split; [reflexivity|]. exists []. split; [reflexivity|constructor].
  - destruct (last_some piece_sub ks) as [[s' rest']|] eqn:E.
    + intros [= -> ->]. destruct (IH eq_refl) as (H1 & H2 & front & -> & ks' & -> & H3). split; [exact H1|]. split; [exact H2|].
      exists (piece_texts k ++ front). split; [now rewrite app_assoc|]. exists (k :: ks'). split; [reflexivity|]. now constructor.
    + destruct k; try discriminate.
Qed.

Lemma handover_lemma ndebug bk w0 w log a args ks s rest : prepared ndebug bk w0 w log -> arguments (w_parser w0) = a :: args ->
  good_name (m_app_name (info (w_parser w))) -> (forall s, In s (subcommands (w_parser w)) -> good_name s) ->
  pieces (option_texts (accepted log)) (subcommands (w_parser w)) args ks -> first_error (bk_tdl bk) (subcommands (w_parser w)) ks = None ->
  last_some piece_sub ks = Some (s, rest) ->
  exists w1 r q front, step ndebug bk CParse w = (w1, r) /\ args = front ++ rest /\ (exists more, rest = s :: more) /\ In s (subcommands (w_parser w)) /\
    sub_parser (w_parser w1) = Some q /\ fresh q /\ arguments q = rest /\ subcommands q = [] /\ dev_decision q = false /\
    m_app_name (info q) = m_app_name (info (w_parser w)) +s+ "-" +s+ s /\ good_name (m_app_name (info q)) /\
    executable_name q = executable_name (w_parser w0) ++ [a].
Proof.
  intros P A N1 N2 K E S.
  pose proof (parse_prepared ndebug bk w0 w log a args ks P A N1 N2 K) as H. rewrite E in H. destruct H as (p' & H & Q).
  destruct (pieces_sub _ _ _ _ _ _ K S) as (I & (more & M) & front & F & _).
  destruct Q as (_ & _ & _ & _ & _ & _ & Sb). rewrite S in Sb. destruct (prepared_ready ndebug bk _ _ _ P) as [Rd _].
  destruct (expected ndebug bk _ _ _ _ _ _ _ _ _) as [[vs f] r'].
  eexists _, _, _, front. split; [exact H|]. split; [exact F|]. split; [eauto|]. split; [exact I|]. cbn [w_parser]. split; [exact Sb|].
  split; [constructor|]. split; [reflexivity|]. split; [reflexivity|]. split; [reflexivity|]. split; [reflexivity|].
  split; [apply good_name_sub; auto|]. cbn. now rewrite app_nil_r, (rd_exe _ _ _ _ Rd).
Qed.

(** without a subcommand among the arguments there is no sub-parser *)
Lemma no_sub_step ndebug bk c w : sub_parser (w_parser w) = None ->
  step ndebug bk (CSub c) w = (w, Throw (Exn KDesign "No subcommand was provided at the construction of the argument parser!")).
Proof. intros H. cbn [step]. unfold get_sub_parser. now rewrite H. Qed.

Lemma no_handover ndebug bk w0 w log a args ks c w1 r : prepared ndebug bk w0 w log -> arguments (w_parser w0) = a :: args ->
  good_name (m_app_name (info (w_parser w))) -> (forall s, In s (subcommands (w_parser w)) -> good_name s) ->
  pieces (option_texts (accepted log)) (subcommands (w_parser w)) args ks -> first_error (bk_tdl bk) (subcommands (w_parser w)) ks = None ->
  last_some piece_sub ks = None -> step ndebug bk CParse w = (w1, r) ->
  step ndebug bk (CSub c) w1 = (w1, Throw (Exn KDesign "No subcommand was provided at the construction of the argument parser!")).
Proof.
  intros P A N1 N2 K E S St. apply no_sub_step.
  pose proof (parse_prepared ndebug bk w0 w log a args ks P A N1 N2 K) as H. rewrite E in H. destruct H as (p' & H & Q).
  destruct Q as (_ & _ & _ & _ & _ & _ & Sb). rewrite S in Sb. destruct (prepared_ready ndebug bk _ _ _ P) as [Rd _].
  destruct (expected ndebug bk _ _ _ _ _ _ _ _ _) as [[vs f] r']. rewrite St in H. injection H as -> _. exact Sb.
Qed.

Lemma no_sub_before ndebug bk w0 w log c : prepared ndebug bk w0 w log ->
  step ndebug bk (CSub c) w = (w, Throw (Exn KDesign "No subcommand was provided at the construction of the argument parser!")).
Proof. intros P. apply no_sub_step. destruct (prepared_ready ndebug bk _ _ _ P) as [Rd _]. apply (rd_sub _ _ _ _ Rd). Qed.

(** what the top-level parser sees *)
Lemma own_front opts subs args ks : pieces opts subs args ks -> (forall k, In k ks -> match k with KValue _ _ | KAlone _ | KWord _ => True | _ => False end) ->
  flat_map own_texts ks = args.
Proof.
  induction 1 as [|k Hk L|k args ks Hk L Hp IH]; intros H; cbn; [reflexivity| |].
  - specialize (H k (or_introl eq_refl)). destruct k; try contradiction; reflexivity.
  - rewrite IH by (intros k' Hk'; apply H; now right). specialize (H k (or_introl eq_refl)). destruct k; try contradiction; reflexivity.
Qed.

(** a program working on the sub-parser *)
Lemma sub_run ndebug bk cs : forall w q w1 log, sub_parser (w_parser w) = Some q ->
  run ndebug bk cs {| w_parser := q; w_vars := w_vars w; w_fs := w_fs w |} = (w1, log) ->
  run ndebug bk (map CSub cs) w =
  ({| w_parser := set_sub (Some (w_parser w1)) (w_parser w); w_vars := w_vars w1; w_fs := w_fs w1 |},
   map (fun e => (CSub (fst e), snd e)) log).
Proof.
  induction cs as [|c cs IH]; intros w q w1 log S H.
  { injection H as <- <-. cbn. f_equal. destruct w as [p vs f]. cbn in *. f_equal. destruct p; cbn in *. unfold set_sub. cbn. now subst. }
  rewrite run_cons in H. cbn [map]. rewrite run_cons. cbn [step]. unfold get_sub_parser. rewrite S.
  destruct (step ndebug bk c {| w_parser := q; w_vars := w_vars w; w_fs := w_fs w |}) as [w2 r] eqn:E.
  match goal with |- context [run ndebug bk (map CSub cs) ?v] => set (v2 := v) end.
  assert (S2 : sub_parser (w_parser v2) = Some (w_parser w2)) by reflexivity.
  destruct (run ndebug bk cs {| w_parser := w_parser w2; w_vars := w_vars v2; w_fs := w_fs v2 |}) as [w3 l] eqn:E2.
  assert (E3 : run ndebug bk cs w2 = (w3, l)) by (rewrite <- E2; f_equal; now destruct w2).
  rewrite E3 in H. cbn [fst snd] in H. rewrite (IH v2 _ w3 l S2 E2).
  destruct r; injection H as <- <-; cbn [fst snd map]; reflexivity.
Qed.

(** ** End to end *)

Lemma no_special_pieces tdl opts args ks : pieces opts [] args ks -> (forall t, In t args -> ~ special t) ->
  (forall k, In k ks -> match k with KValue _ _ | KAlone _ | KWord _ => True | _ => False end) /\ first_error tdl [] ks = None /\
  last_some piece_page ks = None /\ last_some piece_check ks = None /\ last_some piece_sub ks = None.
Proof.
  assert (Q : forall k, piece_ok opts [] k -> (forall t, In t (piece_texts k) -> ~ special t) ->
    match k with KValue _ _ | KAlone _ | KWord _ => True | _ => False end).
  { intros k Hk H. destruct k as [o v|o|a f|v j|v|a|s rest|a]; cbn [piece_ok piece_texts] in *; try exact Logic.I.
    - apply (H a); [now left|]. left. exists f. apply Hk.
    - destruct j; [apply (H ("--export-help=" +s+ v)); [now left|]|apply (H "--export-help"); [now left|]].
      + right. right. left. eauto.
      + right. now left.
    - apply (H "--version-check"); [now left|]. right. right. now right.
    - apply (H a); [now left|]. destruct Hk as ([->| ->] & _); [right; now left|right; right; now right].
    - apply Hk. }
  induction 1 as [|k Hk L|k args ks Hk L Hp IH]; intros H.
  - repeat split; auto. intros k [].
  - specialize (Q k Hk H). split; [intros k' [<-|[]]; exact Q|]. destruct k; try contradiction; auto.
  - specialize (Q k Hk (fun t Ht => H t (proj2 (in_app_iff _ _ _) (or_introl Ht)))).
    destruct (IH (fun t Ht => H t (proj2 (in_app_iff _ _ _) (or_intror Ht)))) as (H1 & H2 & H3 & H4 & H5).
    split; [intros k' [<-|Hk']; [exact Q|exact (H1 k' Hk')]|]. destruct k; try contradiction; cbn [first_error piece_error last_some]; rewrite H3, H4, H5; auto.
Qed.

Lemma end_to_end ndebug bk w0 w log a inv f1 : assembled ndebug bk w0 w log -> arguments (w_parser w0) = a :: render inv ->
  good_name (m_app_name (info (w_parser w))) -> subcommands (w_parser w) = [] ->
  wf_invocation (accepted log) inv = true -> render inv <> [] -> (forall t, In t (render inv) -> ~ special t) ->
  bk_version_check bk (info (w_parser w)) (dev_decision (w_parser w0)) None (w_fs w) = (f1, Ret tt) ->
  exists w1 r, step ndebug bk CParse w = (w1, r) /\
    let '(st, e) := eval ndebug (accepted log) inv {| s_vars := w_vars w; s_fs := f1 |} in
    w_vars w1 = s_vars st /\ w_fs w1 = s_fs st /\ okind_of r = okind_of e.
Proof.
  intros P A N S W Ne Sp V.
  destruct (pieces_exist (options (w_parser w)) [] (List.length (render inv)) (render inv) (le_n _)) as [ks K].
  destruct (no_special_pieces (bk_tdl bk) _ _ _ K Sp) as (Q & E & Pg & Ck & Sb).
  pose proof (own_front _ _ _ _ K Q) as O.
  assert (N2 : forall s, In s (subcommands (w_parser w)) -> good_name s) by (rewrite S; intros s []).
  rewrite <- S in K. pose proof (parse_assembled ndebug bk w0 w log a _ ks P A N N2 K) as H. rewrite S, E in H. destruct H as (p' & H & _).
  unfold expected in H. rewrite Ck, V in H. unfold chosen in H. rewrite Pg, Sb, O in H.
  destruct (render inv) as [|t l] eqn:R; [contradiction|]. rewrite <- R in H.
  pose proof P as (F & (cs & Rn) & _). pose proof (wf_lemma ndebug bk w0 cs F) as Wd. rewrite Rn in Wd. cbn [snd] in Wd.
  pose proof (parse_args_refines ndebug (accepted log) inv (w_vars w) f1 Wd W) as (H1 & H2 & H3).
  destruct (parse_args ndebug (accepted log) (render inv) (w_vars w) f1) as [st r].
  destruct (eval ndebug (accepted log) inv {| s_vars := w_vars w; s_fs := f1 |}) as [st2 e]. cbn [fst snd] in *.
  eexists _, _. split; [exact H|]. cbn [w_vars w_fs]. split; [exact H1|]. split; [exact H2|]. rewrite <- H3. now destruct r.
Qed.

(** ** Consequences in the form used by the theorems *)

Lemma list_last_split ndebug bk w cs : fresh (w_parser w) -> forall log d1 x t c d2, log = snd (run ndebug bk cs w) ->
  accepted log = d1 ++ DPositional x t c :: d2 -> is_container t = true -> pos_types d2 = [].
Proof.
  intros F log d1 x t c d2 -> E T. pose proof (list_last_lemma ndebug bk w cs F) as H. rewrite E, pos_types_app in H. change (pos_types (DPositional x t c :: d2)) with (t :: pos_types d2) in H. revert H.
  generalize (pos_types d1). intros l. induction l as [|a l IH]; intros H.
  - destruct (pos_types d2); [reflexivity|]. cbn [app list_last] in H. rewrite T in H. discriminate H.
  - apply IH. cbn [app list_last] in H. destruct (l ++ t :: pos_types d2) eqn:E2; [destruct l; discriminate|]. now apply andb_prop in H as [_ H].
Qed.

Lemma parse_outcome ndebug bk w0 w log a args ks : prepared ndebug bk w0 w log -> arguments (w_parser w0) = a :: args ->
  good_name (m_app_name (info (w_parser w))) -> (forall s, In s (subcommands (w_parser w)) -> good_name s) ->
  pieces (option_texts (accepted log)) (subcommands (w_parser w)) args ks ->
  exists w1 r, step ndebug bk CParse w = (w1, r) /\
  match first_error (bk_tdl bk) (subcommands (w_parser w)) ks with
  | Some e => w_vars w1 = w_vars w /\ w_fs w1 = w_fs w /\ r = Throw e
  | None => (w_vars w1, w_fs w1, r) =
      (let '(vs, f, r) := expected ndebug bk (info (w_parser w)) (subcommands (w_parser w)) (dev_decision (w_parser w0))
                            (executable_name (w_parser w0) ++ [a]) (accepted_ops log) (accepted log) ks (w_vars w) (w_fs w)
       in (vs, f, with_value r))
  end.
Proof.
  intros P A N1 N2 K. pose proof (parse_prepared ndebug bk w0 w log a args ks P A N1 N2 K) as H.
  destruct (first_error (bk_tdl bk) (subcommands (w_parser w)) ks).
  - destruct H as (p' & H). eexists _, _. split; [exact H|]. cbn. eauto.
  - destruct H as (p' & H & _). destruct (expected ndebug bk _ _ _ _ _ _ _ _ _) as [[vs f] r]. eexists _, _. split; [exact H|]. reflexivity.
Qed.

Lemma front_lemma opts subs args ks s rest : pieces opts subs args ks -> last_some piece_sub ks = Some (s, rest) ->
  exists front ks', args = front ++ rest /\ ks = ks' ++ [KSub s (List.tl rest)] /\ pieces opts subs front ks' /\
  ((forall k, In k ks' -> match k with KValue _ _ | KAlone _ | KWord _ => True | _ => False end) -> flat_map own_texts ks = front).
Proof.
  intros K S. destruct (pieces_sub _ _ _ _ _ _ K S) as (_ & _ & front & E & ks' & Ek & K'). exists front, ks'.
  split; [exact E|]. split; [exact Ek|]. split; [exact K'|]. intros H. rewrite Ek, flat_map_app. cbn. rewrite app_nil_r. now apply (own_front _ _ _ _ K').
Qed.

Lemma first_error_at tdl subs ks1 k ks2 e : first_error tdl subs ks1 = None -> piece_error tdl subs k = Some e -> first_error tdl subs (ks1 ++ k :: ks2) = Some e.
Proof.
  intros H1 H2. induction ks1 as [|k1 ks1 IH]; cbn [app first_error] in *; [now rewrite H2|].
  destruct (piece_error tdl subs k1); [discriminate|auto].
Qed.

Lemma error_outcome ndebug bk w0 w log a args ks1 k ks2 e : prepared ndebug bk w0 w log -> arguments (w_parser w0) = a :: args ->
  good_name (m_app_name (info (w_parser w))) -> (forall s, In s (subcommands (w_parser w)) -> good_name s) ->
  pieces (option_texts (accepted log)) (subcommands (w_parser w)) args (ks1 ++ k :: ks2) ->
  first_error (bk_tdl bk) (subcommands (w_parser w)) ks1 = None -> piece_error (bk_tdl bk) (subcommands (w_parser w)) k = Some e ->
  exists w1, step ndebug bk CParse w = (w1, Throw e) /\ w_vars w1 = w_vars w /\ w_fs w1 = w_fs w.
Proof.
  intros P A N1 N2 K E1 E2. destruct (parse_outcome ndebug bk w0 w log a args _ P A N1 N2 K) as (w1 & r & S & H).
  rewrite (first_error_at _ _ _ _ _ _ E1 E2) in H. destruct H as (H1 & H2 & ->). eauto.
Qed.

Lemma unknown_word ndebug bk w0 w log a args ks1 word ks2 : prepared ndebug bk w0 w log -> arguments (w_parser w0) = a :: args ->
  good_name (m_app_name (info (w_parser w))) -> (forall s, In s (subcommands (w_parser w)) -> good_name s) ->
  pieces (option_texts (accepted log)) (subcommands (w_parser w)) args (ks1 ++ KWord word :: ks2) ->
  first_error (bk_tdl bk) (subcommands (w_parser w)) ks1 = None -> subcommands (w_parser w) <> [] -> begins "-" word = false ->
  exists w1, step ndebug bk CParse w =
    (w1, Throw (Exn KUserInput ("You specified an unknown subcommand! Available subcommands are: [" +s+
                                String.concat ", " (subcommands (w_parser w)) +s+ "]. Use -h/--help for more information."))) /\
    w_vars w1 = w_vars w /\ w_fs w1 = w_fs w.
Proof.
  intros P A N1 N2 K E1 Ne B. apply (error_outcome ndebug bk w0 w log a args ks1 (KWord word) ks2); auto.
  cbn [piece_error]. rewrite B. destruct (subcommands (w_parser w)); [contradiction|reflexivity].
Qed.

Lemma named_step ndebug bk w : parse_was_called (w_parser w) = false ->
  ~ (good_name (m_app_name (info (w_parser w))) /\ forall s, In s (subcommands (w_parser w)) -> good_name s) ->
  exists m, step ndebug bk CParse w = ({| w_parser := set_called true (w_parser w); w_vars := w_vars w; w_fs := w_fs w |}, Throw (Exn KDesign m)).
Proof.
  intros C H. destruct (parse_named ndebug bk w C H) as [m Hm]. exists m. cbn [step]. unfold bind. now rewrite Hm.
Qed.

Lemma lookup_none {A} k (l : list (string * A)) : lookup k l = None <-> ~ In k (map fst l).
Proof.
  induction l as [|[k' v] l IH]; cbn [lookup map fst In]; [tauto|]. destruct (String.eqb_spec k k') as [->|N].
  - split; [discriminate|]. intros H. exfalso. apply H. now left.
  - rewrite IH. intuition congruence.
Qed.

Lemma exports_iff v : In v ["html"; "man"; "ctd"; "cwl"] <-> lookup v exports <> None.
Proof. rewrite lookup_none. cbn [map fst exports]. destruct (in_dec string_dec v ["html"; "man"; "ctd"; "cwl"]); tauto. Qed.

Lemma values_rejected ndebug bk w0 w log a args ks1 k ks2 : prepared ndebug bk w0 w log -> arguments (w_parser w0) = a :: args ->
  good_name (m_app_name (info (w_parser w))) -> (forall s, In s (subcommands (w_parser w)) -> good_name s) ->
  pieces (option_texts (accepted log)) (subcommands (w_parser w)) args (ks1 ++ k :: ks2) ->
  first_error (bk_tdl bk) (subcommands (w_parser w)) ks1 = None ->
  let rejected kind m := exists w1, step ndebug bk CParse w = (w1, Throw (Exn kind m)) /\ w_vars w1 = w_vars w /\ w_fs w1 = w_fs w in
  match k with
  | KExport v _ => ~ In v ["html"; "man"; "ctd"; "cwl"] ->
      rejected KValidation ("Validation failed for option --export-help: Value must be one of " +s+
                            (if bk_tdl bk then "[html, man, ctd, cwl]." else "[html, man]."))
  | KCheck v => ~ In v ["0"; "1"; "true"; "false"] ->
      rejected KValidation "Value for option --version-check must be true (1) or false (0)."
  | KNoValue a => rejected KTooFew ("Option " +s+ a +s+ " must be followed by a value.")
  | _ => True
  end.
Proof.
  intros P A N1 N2 K E rejected. pose proof (fun e => error_outcome ndebug bk w0 w log a args ks1 k ks2 e P A N1 N2 K E) as H.
  destruct k; auto.
  - intros V. apply H. cbn [piece_error]. now rewrite (proj2 (lookup_none v exports) V).
  - intros V. apply H. cbn [piece_error]. rewrite (proj2 (lookup_none v checks_values)); [reflexivity|]. cbn in *. tauto.
  - apply H. reflexivity.
Qed.

Lemma not_passed_on ndebug bk w0 w log a args ks w1 r : prepared ndebug bk w0 w log -> arguments (w_parser w0) = a :: args ->
  good_name (m_app_name (info (w_parser w))) -> (forall s, In s (subcommands (w_parser w)) -> good_name s) ->
  pieces (option_texts (accepted log)) (subcommands (w_parser w)) args ks -> first_error (bk_tdl bk) (subcommands (w_parser w)) ks = None ->
  step ndebug bk CParse w = (w1, r) ->
  user_decision (w_parser w1) = last_some piece_check ks /\ fmt (w_parser w1) = chosen ks /\
  format_arguments (w_parser w1) = flat_map (fun k => match k with KExport _ _ | KCheck _ => [] | _ => own_texts k end) ks.
Proof.
  intros P A N1 N2 K E S. pose proof (parse_prepared ndebug bk w0 w log a args ks P A N1 N2 K) as H. rewrite E in H. destruct H as (p' & H & Q).
  destruct (expected ndebug bk _ _ _ _ _ _ _ _ _) as [[vs f] r']. rewrite S in H. injection H as -> _. cbn [w_parser].
  destruct Q as (_ & _ & _ & F1 & F2 & F3 & _). split; [exact F3|]. split; [exact F2|]. rewrite F1. clear.
  induction ks as [|k ks IH]; cbn; [reflexivity|]. rewrite IH. now destruct k.
Qed.

Lemma set_options_lemma ndebug bk w0 w log a inv w1 r i : prepared ndebug bk w0 w log -> arguments (w_parser w0) = a :: render inv ->
  good_name (m_app_name (info (w_parser w))) -> subcommands (w_parser w) = [] ->
  wf_invocation (accepted log) inv = true -> (forall t, In t (render inv) -> ~ special t) ->
  step ndebug bk CParse w = (w1, r) -> In i (flat_map option_idents (accepted log)) ->
  exists answer, step ndebug bk (CIsSet i) w1 = (w1, Ret answer) /\ (answer = true <-> values_of (items inv) i <> []).
Proof.
  intros P A N S W Sp St I.
  destruct (pieces_exist (option_texts (accepted log)) [] (List.length (render inv)) (render inv) (le_n _)) as [ks K].
  destruct (no_special_pieces (bk_tdl bk) _ _ _ K Sp) as (Q & E & _ & _ & _). pose proof (own_front _ _ _ _ K Q) as O.
  assert (N2 : forall s, In s (subcommands (w_parser w)) -> good_name s) by (rewrite S; intros s []).
  pose proof P as (F & (cs & Rn) & _). pose proof (wf_lemma ndebug bk w0 cs F) as Wd. rewrite Rn in Wd. cbn [snd] in Wd.
  assert (Hgo : forall j, In j (flat_map option_idents (accepted log)) -> good_ident j = true).
  { unfold wf_decls in Wd. apply andb_prop in Wd as [Wd' _]. apply andb_prop in Wd' as [Hg _]. rewrite forallb_forall in Hg.
    intros j H. apply Hg, flat_map_decl_idents. now left. }
  rewrite <- S in K, E.
  destruct (set_answers ndebug bk w0 w log a (render inv) ks w1 r i (flat_map render_item (items inv)) (render_tail (tail inv))
              P A N N2 K E St) as (answer & H1 & H2).
  - apply flat_map_decl_idents. now left.
  - rewrite O. unfold wf_invocation in W. apply andb_prop in W as [W _]. apply andb_prop in W as [W _].
    split; [reflexivity|]. split; [now apply (render_items_no_eoo (flat_map option_idents (accepted log)))|].
    destruct (tail inv) as [ws|]; [right; eexists; reflexivity|now left].
  - exists answer. split; [exact H1|]. rewrite H2. now apply (option_looks (accepted log)).
Qed.
