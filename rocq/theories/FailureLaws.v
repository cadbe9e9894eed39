(** Consequences of the exact description of refused vectors. *)
From Verif Require Import Base StrLib Fs Values Validators FormatParse Invocation ValuesSpec ScanSpec ScanProofs ScanOutcomes
  Parser ParserSpec ParserProofs ParserPieces ParserReading ParserOutcomes DiagnosisSpec DiagnosisOptions ReadingSpec ReadingProofs ProgramSpec ProgramProofs ValuesRun InvocationProofs FailureSpec FailureValues FailureParse.

Section laws.
Variable ndebug : bool.

Lemma refused_unique decls args vs f k1 vs1 f1 k2 vs2 f2 : wf_decls decls = true -> elems_ok decls ->
  refused ndebug decls args vs f k1 vs1 f1 -> refused ndebug decls args vs f k2 vs2 f2 -> k1 = k2 /\ (forall y, vs1 y = vs2 y) /\ f1 = f2.
Proof.
  intros W Ok H1 H2. apply refused_iff in H1 as (s1 & e1 & E1 & K1 & V1 & F1); auto. apply refused_iff in H2 as (s2 & e2 & E2 & K2 & V2 & F2); auto.
  rewrite E1 in E2. injection E2 as <- <-. split; [congruence|]. split; [|congruence]. intros y. now rewrite <- V1.
Qed.

Lemma refused_not_understood decls args vs f k vs1 f1 vs2 f2 : wf_decls decls = true -> elems_ok decls ->
  refused ndebug decls args vs f k vs1 f1 -> understood ndebug decls args vs f vs2 f2 -> False.
Proof.
  intros W Ok H1 H2. apply refused_iff in H1 as (s1 & e1 & E1 & _); auto. apply meaning_lemma in H2 as (s2 & E2 & _); auto. congruence.
Qed.

Lemma understood_or_refused decls args vs f : wf_decls decls = true -> elems_ok decls -> (forall d, In d decls -> sound_decl ndebug d) ->
  (exists vs' f', understood ndebug decls args vs f vs' f') \/
  (exists k vs' f', refused ndebug decls args vs f k vs' f' /\ is_parser_error k = true).
Proof.
  intros W Ok S. assert (L : list_last (pos_types decls) = true) by (unfold wf_decls in W; now apply andb_true_iff in W as [_ W]).
  pose proof (documented_lemma ndebug decls args vs f S (or_intror L)) as D.
  destruct (parse_args ndebug decls args vs f) as [st r] eqn:E. cbn [snd] in D. destruct r as [[]|e|o| | |]; try contradiction.
  - left. exists (vars st), (fsys st). apply meaning_lemma; auto. exists st. auto.
  - right. exists (ekind e), (vars st), (fsys st). split; [apply refused_iff; auto; exists st, e; auto|]. cbn in D. exact D.
Qed.

Lemma parse_elem_throws e old s ex : enum_ok e -> parse_elem e old s = PThrow ex -> ekind ex = KUserInput.
Proof.
  intros Hok H. destruct (elem_throw _ _ _ _ Hok H) as (n & names & sorted & _ & _ & _ & ->). reflexivity.
Qed.

(** ** Variables that are not reached *)

Lemma options_leave ds l vs f l' vs' f' : options_read ndebug ds l vs f l' vs' f' ->
  forall y, (forall t c, ~ In (DOption y t c) ds) -> vs' y = vs y.
Proof.
  induction 1 as [l vs vs' f He|d ds l vs f l' vs' f' Hd H IH|x t c ds l vs f wss l1 v vs1 f1 l' vs' f' Hr Hq Hv [_ Hb] Hm H IH]; intros y Hy; auto.
  - apply IH. intros t c Hi. apply (Hy t c). now right.
  - rewrite IH by (intros t' c' Hi; apply (Hy t' c'); now right). apply Hb. intros ->. apply (Hy t c). now left.
Qed.

Lemma flags_leave ds b r vs b' r' vs' : flags_read ds b r vs b' r' vs' -> forall y, (forall c, ~ In (DFlag y c) ds) -> vs' y = vs y.
Proof.
  induction 1 as [b r vs vs' He|d ds b r vs b' r' vs' Hd H IH|x c ds b r vs b1 r1 given vs1 b' r' vs' Hf [_ Hb] H IH]; intros y Hy; auto.
  - apply IH. intros c Hi. apply (Hy c). now right.
  - rewrite IH by (intros c' Hi; apply (Hy c'); now right). apply Hb. intros ->. apply (Hy c). now left.
Qed.

Lemma words_leave ds ws vs f k vs' f' : words_fail ndebug ds ws vs f k vs' f' -> forall y, (forall t c, ~ In (DPositional y t c) ds) -> vs' y = vs y.
Proof.
  induction 1 as [ws vs vs' f Hn He|x t c ds ws vs f k v vs' f' Hw [_ Hb]|d ds ws vs f k vs' f' Hd H IH|x e c ds w ws vs f v vs1 f1 k vs' f' Hm [_ Hb] Hv H IH|x e c ds ws vals vs f vs1 f1 k vs' f' Hn Hm [_ Hb] Hv H IH]; intros y Hy; auto.
  - apply Hb. intros ->. apply (Hy t c). now left.
  - apply IH. intros t c Hi. apply (Hy t c). now right.
  - rewrite IH by (intros t' c' Hi; apply (Hy t' c'); now right). apply Hb. intros ->. apply (Hy (Scalar e) c). now left.
  - rewrite IH by (intros t' c' Hi; apply (Hy t' c'); now right). apply Hb. intros ->. apply (Hy (ListOf e) c). now left.
Qed.

Lemma word_fails_kind c old f t ws k new f' : word_fails ndebug c old f t ws k new f' -> In k [KTooFew; KUserInput; KValidation].
Proof. destruct 1; cbn; auto. Qed.

Lemma words_fail_kind ds ws vs f k vs' f' : words_fail ndebug ds ws vs f k vs' f' -> In k [KTooFew; KUserInput; KValidation; KTooMany].
Proof. induction 1 as [| ? ? ? ? ? ? ? ? ? ? ? Hw _| | | ]; auto; [cbn; auto|]. apply word_fails_kind in Hw. cbn in *. tauto. Qed.

Lemma name_fails_kind i l old t k new : name_fails ndebug i l old t k new -> In k [KTooFew; KUserInput; KMultiple].
Proof. destruct 1; cbn; auto. Qed.

Lemma option_fails_kind t c l old f k new f' : option_fails ndebug t c l old f k new f' -> In k [KTooFew; KUserInput; KMultiple; KValidation; KRequiredMissing].
Proof. destruct 1 as [ids1 i ids2 wss l1 mid k new _ _ _ H| | |]; [apply name_fails_kind in H|..]; cbn in *; tauto. Qed.

(** an option that is missing or given twice is found before anything but options is looked at; an unknown option before
    any word; and a vector with too many words has all its options and flags read *)
Lemma untouched_lemma decls args vs f k vs' f' : refused ndebug decls args vs f k vs' f' ->
  (k = KRequiredMissing \/ k = KMultiple -> forall y, no_option_var decls y -> vs' y = vs y) /\
  (k = KUnknownOption -> forall y, no_option_var decls y -> no_flag_var decls y -> vs' y = vs y) /\
  (forall y, no_option_var decls y -> no_flag_var decls y -> no_word_var decls y -> vs' y = vs y).
Proof.
  unfold no_option_var, no_flag_var, no_word_var.
  destruct 1 as [b r ds1 x t c ds2 b1 vs1 f1 k v vs' f' Hc Hd Hr Hf [_ Hb]|b r b1 vs1 f1 b2 r2 vs2 a Hc Ho Hf Hin Hne Hp|b r b1 vs1 f1 b2 r2 vs2 k vs' f' Hc Ho Hf Hu Hw].
  - assert (G : forall y, (forall t c, ~ In (DOption y t c) decls) -> vs' y = vs y).
    { intros y Hy. rewrite Hb.
      - apply (options_leave _ _ _ _ _ _ _ Hr). intros t' c' Hi. apply (Hy t' c'). rewrite Hd. apply in_or_app. now left.
      - intros ->. apply (Hy t c). rewrite Hd. apply in_or_app. right. now left. }
    repeat split; auto.
  - assert (G : forall y, (forall t c, ~ In (DOption y t c) decls) -> (forall c, ~ In (DFlag y c) decls) -> vs2 y = vs y).
    { intros y H1 H2. rewrite (flags_leave _ _ _ _ _ _ _ Hf y H2). apply (options_leave _ _ _ _ _ _ _ Ho y H1). }
    repeat split; auto. intros [H|H]; discriminate.
  - pose proof (words_fail_kind _ _ _ _ _ _ _ Hw) as Hk.
    assert (G : forall y, (forall t c, ~ In (DOption y t c) decls) -> (forall c, ~ In (DFlag y c) decls) -> (forall t c, ~ In (DPositional y t c) decls) -> vs' y = vs y).
    { intros y H1 H2 H3. rewrite (words_leave _ _ _ _ _ _ _ Hw y H3), (flags_leave _ _ _ _ _ _ _ Hf y H2). apply (options_leave _ _ _ _ _ _ _ Ho y H1). }
    split; [|split; [|exact G]]; intros E; exfalso; cbn in Hk; intuition congruence.
Qed.

(** only these errors *)
Lemma refused_kinds decls args vs f k vs' f' : refused ndebug decls args vs f k vs' f' ->
  In k [KTooFew; KUserInput; KMultiple; KValidation; KRequiredMissing; KUnknownOption; KTooMany].
Proof.
  destruct 1 as [b r ds1 x t c ds2 b1 vs1 f1 k v vs' f' Hc Hd Hr Hf _| |b r b1 vs1 f1 b2 r2 vs2 k vs' f' Hc Ho Hf Hu Hw].
  - apply option_fails_kind in Hf. cbn in *. tauto.
  - cbn. tauto.
  - apply words_fail_kind in Hw. cbn in *. tauto.
Qed.

(** ** One option *)

Lemma one_option_ruined x e c i s vs f new : wf_decls [DOption x (Scalar e) c] = true -> In i (config_idents c) -> s <> "" -> enum_ok e ->
  (okind_of (snd (parse_args ndebug [DOption x (Scalar e) c] (one_arg i s) vs f)) = OThrow KUserInput /\
   vars (fst (parse_args ndebug [DOption x (Scalar e) c] (one_arg i s) vs f)) x = new) <-> ruined e (vs x) s new.
Proof.
  intros Hd Hi Hs Hok. rewrite <- elem_fails by exact Hok. unfold fails_with. change (one_arg i s) with (render (one_inv i s)).
  destruct (parse_args_refines ndebug _ (one_inv i s) vs f Hd (one_wf x (Scalar e) c i s Hi Hs)) as (A & _ & C).
  rewrite A, C, one_eval by exact Hi. unfold s_values. cbn [is_container s_scalar s_given]. unfold bind, s_assign. cbn [parse_option_value s_vars s_fs].
  pose proof (parse_elem_throws e (vs x) s) as T.
  destruct (parse_elem e (vs x) s) as [v [| |]|ex] eqn:E.
  - cbn. unfold s_validate. cbn [s_vars s_fs]. destruct (c_validator c f _) as [f' []]; cbn; split; try tauto; intros [H _]; discriminate.
  - cbn. unfold set_var. rewrite Nat.eqb_refl. split; [now intros [_ <-]|now intros ->].
  - cbn [s_set modify s_vars s_fs]. rewrite (overflow_arithmetic _ _ _ _ E). cbn. unfold set_var. rewrite Nat.eqb_refl. split; [now intros [_ <-]|now intros ->].
  - cbn [fst snd okind_of s_vars]. rewrite (T ex Hok eq_refl). split; [now intros [_ <-]|now intros ->].
Qed.

(** ** Whole runs *)

Variable bk : backend.

Lemma whole_refused w0 w log a args k vs' f' : assembled ndebug bk w0 w log -> arguments (w_parser w0) = a :: args -> elems_ok (accepted log) ->
  (exists w1 e, step ndebug bk CParse w = (w1, Throw e) /\ ekind e = k /\ (forall y, w_vars w1 y = vs' y) /\ w_fs w1 = f') <->
  run_refused ndebug bk (w_parser w) (executable_name (w_parser w0) ++ [a]) (accepted_ops log) (accepted log) (options (w_parser w)) args (w_vars w) (w_fs w) k vs' f'.
Proof.
  intros P A Ok. pose proof (assembled_wf _ _ _ _ _ P) as W. split.
  - intros (w1 & e & S & <- & V & <-). destruct (names_ok_dec (w_parser w)) as [N|N].
    2:{ destruct (assembled_bad _ _ _ _ _ P N) as [m Hm]. rewrite Hm in S. injection S as <- <-. apply run_name; [exact N|intros y; symmetry; apply V]. }
    destruct (pieces_exist (options (w_parser w)) (subcommands (w_parser w)) (List.length args) args (le_n _)) as [ks K].
    destruct (assembled_outcome _ _ _ _ _ _ _ _ P A N K) as (w2 & r & S2 & H). rewrite S in S2. injection S2 as <- <-.
    destruct (first_error (bk_tdl bk) (subcommands (w_parser w)) ks) as [e'|] eqn:E.
    { destruct H as (V1 & F1 & H). injection H as <-. rewrite F1. eapply run_early; eauto. intros y. now rewrite <- V, V1. }
    unfold expected in H.
    destruct (bk_version_check bk (info (w_parser w)) (dev_decision (w_parser w)) (last_some piece_check ks) (w_fs w)) as [f1 q] eqn:Ev.
    destruct q as [[]|e'|o| | |]; try discriminate H.
    2:{ injection H as V1 F1 ->. rewrite F1. eapply run_version; eauto. intros y. now rewrite <- V, V1. }
    assert (C : consulted bk (w_parser w) (options (w_parser w)) args ks (w_fs w) f1) by (unfold consulted; auto).
    destruct (chosen ks) eqn:Ch.
    1:{ destruct (parse_args ndebug (accepted log) (flat_map own_texts ks) (w_vars w) f1) as [st q] eqn:Ep. injection H as V1 F1 H.
        destruct q as [[]|e'|o| | |]; try discriminate H. injection H as ->. eapply run_interface; eauto. apply refused_iff; auto.
        exists st, e'. rewrite <- V1, <- F1. auto. }
    all: match type of H with context [bk_page bk ?r] => destruct (bk_page bk r) as [o|e'|o| | |] eqn:Eb end; cbn in H; try discriminate H;
      injection H as V1 F1 ->; rewrite F1; (eapply run_page; [exact C|rewrite Ch; discriminate|rewrite Ch; exact Eb|intros y; now rewrite <- V, V1]).
  - intros H. destruct H as [vs' N V|ks e vs' N K E V|ks f1 e vs' N K E Ev V|ks f1 e vs' (N & K & E & Ev) C B V|ks f1 k vs' f' (N & K & E & Ev) C U].
    + destruct (assembled_bad _ _ _ _ _ P N) as [m Hm]. rewrite Hm. do 2 eexists. split; [reflexivity|]. cbn. auto.
    + destruct (assembled_outcome _ _ _ _ _ _ _ _ P A N K) as (w1 & r & S & H). rewrite E in H. destruct H as (V1 & F1 & ->). exists w1, e. rewrite V1. auto.
    + destruct (assembled_outcome _ _ _ _ _ _ _ _ P A N K) as (w1 & r & S & H). rewrite E in H. unfold expected in H. rewrite Ev in H. injection H as V1 F1 ->.
      exists w1, e. rewrite V1. auto.
    + destruct (assembled_outcome _ _ _ _ _ _ _ _ P A N K) as (w1 & r & S & H). rewrite E in H. unfold expected in H. rewrite Ev in H.
      destruct (chosen ks) eqn:Ec; try congruence; rewrite B in H; cbn in H; injection H as V1 F1 ->; exists w1, e; rewrite V1; auto.
    + destruct (assembled_outcome _ _ _ _ _ _ _ _ P A N K) as (w1 & r & S & H). rewrite E in H. unfold expected in H. rewrite Ev, C in H.
      apply refused_iff in U as (st & e & Ep & Ke & V & F); auto. rewrite Ep in H. injection H as V1 F1 ->. exists w1, e. rewrite V1, F1. auto.
Qed.

End laws.
