(** Proofs about whole runs of parse(). *)
From Verif Require Import Base StrLib Fs Values Validators FormatParse Invocation InvocationProofs ValuesSpec ScanSpec ScanProofs ScanFlags ScanOutcomes
  Parser ParserSpec ParserProofs ParserPieces ParserReading ParserOutcomes ReadingSpec ReadingProofs ProgramSpec.

(** ** parse_args never exits *)

Lemma args_no_exit ndebug decls args vs f out : snd (parse_args ndebug decls args vs f) <> Exit out.
Proof.
  assert (H : okind_of (snd (parse_args ndebug decls args vs f)) <> OExit).
  { apply (parse_ends ndebug (fun k => k <> OExit)); try (intros; discriminate).
    - intros d _. assert (G : forall t c, stores ndebug (fun k => k <> OExit) t /\ validates (fun k => k <> OExit) (c_validator c)).
      { intros t c. split.
        - intros x name w st. unfold store_value. destruct (parse_option_value t (vars st x) w) as [v r|e]; [|discriminate]. cbn [snd].
          unfold throw_on_input_error. destruct r; try discriminate. destruct (is_arithmetic t); [discriminate|]. now destruct ndebug.
        - intros x p st. unfold run_validator. destruct (c_validator c (fsys st) (vars st x)) as [f' []]; discriminate. }
      destruct d; [apply G|exact Logic.I|apply G].
    - left. discriminate. }
  intros E. apply H. now rewrite E.
Qed.

Section whole.
Variable ndebug : bool.
Variable bk : backend.

Lemma names_ok_dec p : names_ok p \/ ~ names_ok p.
Proof.
  unfold names_ok. destruct (name_matches (m_app_name (info p))) eqn:E.
  - destruct (forallb name_matches (subcommands p)) eqn:E2.
    + left. split; [now apply name_matches_iff|]. rewrite forallb_forall in E2. intros s Hs. now apply name_matches_iff, E2.
    + right. intros [_ H]. assert (forallb name_matches (subcommands p) = true); [|congruence].
      apply forallb_forall. intros s Hs. apply name_matches_iff, H, Hs.
  - right. intros [H _]. apply name_matches_iff in H. congruence.
Qed.

(** parse() once the names are known to be good *)
Lemma assembled_outcome w0 w log a args ks : assembled ndebug bk w0 w log -> arguments (w_parser w0) = a :: args ->
  names_ok (w_parser w) -> pieces (options (w_parser w)) (subcommands (w_parser w)) args ks ->
  exists w1 r, step ndebug bk CParse w = (w1, r) /\
  match first_error (bk_tdl bk) (subcommands (w_parser w)) ks with
  | Some e => w_vars w1 = w_vars w /\ w_fs w1 = w_fs w /\ r = Throw e
  | None => (w_vars w1, w_fs w1, r) =
      (let '(vs, f, r) := expected ndebug bk (info (w_parser w)) (subcommands (w_parser w)) (dev_decision (w_parser w))
                            (executable_name (w_parser w0) ++ [a]) (accepted_ops log) (accepted log) ks (w_vars w) (w_fs w)
       in (vs, f, with_value r))
  end.
Proof.
  intros P A [N1 N2] K. pose proof (parse_assembled ndebug bk w0 w log a args ks P A N1 N2 K) as H.
  destruct (assembled_raw _ _ _ _ _ P) as [R _]. rewrite (rw_dev _ _ _ R).
  destruct (first_error (bk_tdl bk) (subcommands (w_parser w)) ks).
  - destruct H as (p' & H). eexists _, _. split; [exact H|]. cbn. auto.
  - destruct H as (p' & H & _). destruct (expected _ _ _ _ _ _ _ _ _ _ _) as [[vs f] r]. eexists _, _. split; [exact H|]. reflexivity.
Qed.

Lemma assembled_wf w0 w log : assembled ndebug bk w0 w log -> wf_decls (accepted log) = true.
Proof. intros (F & (cs & R) & _). pose proof (wf_lemma ndebug bk w0 cs F) as W. now rewrite R in W. Qed.

Lemma assembled_bad w0 w log : assembled ndebug bk w0 w log -> ~ names_ok (w_parser w) ->
  exists m, step ndebug bk CParse w = ({| w_parser := set_called true (w_parser w); w_vars := w_vars w; w_fs := w_fs w |}, Throw (Exn KDesign m)).
Proof. intros P N. apply named_step; [|exact N]. destruct (assembled_raw _ _ _ _ _ P) as [R _]. apply (rw_called _ _ _ R). Qed.


Lemma whole_reading w0 w log a args vs' f' : assembled ndebug bk w0 w log -> arguments (w_parser w0) = a :: args -> elems_ok (accepted log) ->
  (exists w1, step ndebug bk CParse w = (w1, Ret true) /\ (forall y, w_vars w1 y = vs' y) /\ w_fs w1 = f') <->
  run_understood ndebug bk (w_parser w) (accepted log) (options (w_parser w)) args (w_vars w) (w_fs w) vs' f'.
Proof.
  intros P A Ok. pose proof (assembled_wf _ _ _ P) as W. unfold run_understood. split.
  - intros (w1 & S & V & F). destruct (names_ok_dec (w_parser w)) as [N|N].
    2:{ destruct (assembled_bad _ _ _ P N) as [m Hm]. rewrite Hm in S. discriminate S. }
    destruct (pieces_exist (options (w_parser w)) (subcommands (w_parser w)) (List.length args) args (le_n _)) as [ks K].
    destruct (assembled_outcome _ _ _ _ _ _ P A N K) as (w2 & r & S2 & H). rewrite S in S2. injection S2 as <- <-.
    destruct (first_error (bk_tdl bk) (subcommands (w_parser w)) ks) eqn:E; [destruct H as (_ & _ & H); discriminate H|].
    unfold expected in H. destruct (bk_version_check bk (info (w_parser w)) (dev_decision (w_parser w)) (last_some piece_check ks) (w_fs w)) as [f1 q] eqn:Ev.
    destruct q as [[]|e|o| | |]; try discriminate H.
    exists ks, f1. split; [unfold consulted; auto|].
    assert (C : chosen ks = FParse /\ exists st, parse_args ndebug (accepted log) (flat_map own_texts ks) (w_vars w) f1 = (st, Ret tt) /\
                w_vars w1 = vars st /\ w_fs w1 = fsys st).
    { destruct (chosen ks); try (destruct (bk_page bk _); discriminate H). split; [reflexivity|].
      destruct (parse_args ndebug (accepted log) (flat_map own_texts ks) (w_vars w) f1) as [st q]. exists st.
      injection H as H1 H2 H3. destruct q as [[]|e|o| | |]; try discriminate H3. auto. }
    destruct C as (C & st & Ep & V1 & F1). split; [exact C|]. apply meaning_lemma; auto. exists st. rewrite <- V1, <- F1. auto.
  - intros (ks & f1 & (N & K & E & Ev) & C & U). destruct (assembled_outcome _ _ _ _ _ _ P A N K) as (w1 & r & S & H). rewrite E in H.
    unfold expected in H. rewrite Ev, C in H. apply meaning_lemma in U as (st & Ep & V & F); auto. rewrite Ep in H. injection H as H1 H2 ->.
    exists w1. rewrite H1, H2. auto.
Qed.

Lemma whole_page w0 w log a args f1 out : assembled ndebug bk w0 w log -> arguments (w_parser w0) = a :: args -> no_early_exit bk ->
  (exists w1, step ndebug bk CParse w = (w1, Exit out) /\ w_vars w1 = w_vars w /\ w_fs w1 = f1) <->
  run_prints bk (w_parser w) (executable_name (w_parser w0) ++ [a]) (accepted_ops log) (options (w_parser w)) args (w_vars w) (w_fs w) f1 out.
Proof.
  intros P A [X1 X2]. unfold run_prints. split.
  - intros (w1 & S & V & F). destruct (names_ok_dec (w_parser w)) as [N|N].
    2:{ destruct (assembled_bad _ _ _ P N) as [m Hm]. rewrite Hm in S. discriminate S. }
    destruct (pieces_exist (options (w_parser w)) (subcommands (w_parser w)) (List.length args) args (le_n _)) as [ks K].
    destruct (assembled_outcome _ _ _ _ _ _ P A N K) as (w2 & r & S2 & H). rewrite S in S2. injection S2 as <- <-.
    destruct (first_error (bk_tdl bk) (subcommands (w_parser w)) ks) eqn:E; [destruct H as (_ & _ & H); discriminate H|].
    unfold expected in H.
    pose proof (X1 (info (w_parser w)) (dev_decision (w_parser w)) (last_some piece_check ks) (w_fs w)) as X.
    destruct (bk_version_check bk (info (w_parser w)) (dev_decision (w_parser w)) (last_some piece_check ks) (w_fs w)) as [f2 q] eqn:Ev.
    destruct q as [[]|e|o| | |]; try discriminate H; [|now destruct (X o)].
    assert (C : chosen ks <> FParse /\ f2 = f1 /\
      bk_page bk {| pr_format := chosen ks; pr_info := info (w_parser w); pr_subcommands := subcommands (w_parser w); pr_dev := dev_decision (w_parser w);
                    pr_executable := executable_name (w_parser w0) ++ [a]; pr_ops := accepted_ops log; pr_vars := w_vars w |} = Ret out).
    { destruct (chosen ks) eqn:C.
      1:{ pose proof (args_no_exit ndebug (accepted log) (flat_map own_texts ks) (w_vars w) f2) as Y.
          destruct (parse_args ndebug (accepted log) (flat_map own_texts ks) (w_vars w) f2) as [st q]. injection H as H1 H2 H3.
          destruct q as [[]|e|o| | |]; try discriminate H3. now destruct (Y o). }
      all: split; [discriminate|]; match type of H with context [bk_page bk ?r] => pose proof (X2 r) as Y; destruct (bk_page bk r) as [o|e|o| | |] end;
        cbn in H; try discriminate H; [injection H as H1 H2 H3; split; congruence|now destruct (Y o)]. }
    destruct C as (C & -> & B). exists ks. split; [unfold consulted; auto|]. auto.
  - intros (ks & (N & K & E & Ev) & C & B). destruct (assembled_outcome _ _ _ _ _ _ P A N K) as (w1 & r & S & H). rewrite E in H.
    unfold expected in H. rewrite Ev in H. exists w1. rewrite S. destruct (chosen ks) eqn:Ec; try congruence;
      rewrite B in H; cbn in H; injection H as H1 H2 ->; auto.
Qed.

(** ** Without special requests parse() is the scanner *)

Lemma plain_run w0 w log a args f1 : assembled ndebug bk w0 w log -> arguments (w_parser w0) = a :: args ->
  good_name (m_app_name (info (w_parser w))) -> subcommands (w_parser w) = [] -> args <> [] -> (forall t, In t args -> ~ special t) ->
  bk_version_check bk (info (w_parser w)) (dev_decision (w_parser w)) None (w_fs w) = (f1, Ret tt) ->
  let r := step ndebug bk CParse w in let q := parse_args ndebug (accepted log) args (w_vars w) f1 in
  w_vars (fst r) = vars (fst q) /\ w_fs (fst r) = fsys (fst q) /\ snd r = with_value (snd q).
Proof.
  intros P A N S Ne Sp V.
  destruct (pieces_exist (options (w_parser w)) [] (List.length args) args (le_n _)) as [ks K].
  destruct (no_special_pieces (bk_tdl bk) _ _ _ K Sp) as (Q & E & Pg & Ck & Sb).
  pose proof (own_front _ _ _ _ K Q) as O.
  assert (N2 : names_ok (w_parser w)) by (split; [exact N|rewrite S; intros s []]).
  rewrite <- S in K. destruct (assembled_outcome w0 w log a args ks P A N2 K) as (w1 & r & H & R). rewrite S, E in R.
  unfold expected in R. rewrite Ck, V in R. unfold chosen in R. rewrite Pg, Sb, O in R.
  destruct args as [|t l] eqn:Ea; [contradiction|]. rewrite <- Ea in *. cbn zeta. rewrite H. cbn [fst snd].
  destruct (parse_args ndebug (accepted log) args (w_vars w) f1) as [st q]. injection R as R1 R2 R3. auto.
Qed.

(** everything behind "--" *)
Lemma tail_run ds b vs f1 : wf_decls ds = true -> ~ In "--" b ->
  let at_end w0 w log a ws := assembled ndebug bk w0 w log /\ accepted log = ds /\ w_vars w = vs /\ arguments (w_parser w0) = a :: b ++ "--" :: ws /\
    good_name (m_app_name (info (w_parser w))) /\ subcommands (w_parser w) = [] /\ (forall t, In t (b ++ ws) -> ~ special t) /\ quiet ds ws /\
    bk_version_check bk (info (w_parser w)) (dev_decision (w_parser w)) None (w_fs w) = (f1, Ret tt) in
  (exists vs2 f2 q, q <> Ret true /\ forall w0 w log a ws, at_end w0 w log a ws ->
     let r := step ndebug bk CParse w in w_vars (fst r) = vs2 /\ w_fs (fst r) = f2 /\ snd r = q) \/
  (exists vs2 f2 ws0, forall w0 w log a ws, at_end w0 w log a ws ->
     let r := step ndebug bk CParse w in let e := s_positionals ndebug ds (ws0 ++ ws) {| s_vars := vs2; s_fs := f2 |} in
     w_vars (fst r) = s_vars (fst e) /\ w_fs (fst r) = s_fs (fst e) /\ okind_of (snd r) = okind_of (snd e)).
Proof.
  intros W B at_end.
  assert (G : forall w0 w log a ws, at_end w0 w log a ws ->
    let r := step ndebug bk CParse w in let q := parse_args ndebug ds (b ++ "--" :: ws) vs f1 in
    w_vars (fst r) = vars (fst q) /\ w_fs (fst r) = fsys (fst q) /\ snd r = with_value (snd q)).
  { intros w0 w log a ws (P & D & V & A & N & S & Sp & Q & C). subst ds vs. apply (plain_run w0 w log a (b ++ "--" :: ws) f1 P A N S); [now destruct b| |exact C].
    intros t Ht. apply in_app_iff in Ht as [Ht|[<-|Ht]]; [apply Sp, in_app_iff; now left| |apply Sp, in_app_iff; now right].
    intros [[f Hf]|[H|[[v H]|H]]]; [cbn in Hf; decompose [or] Hf; congruence || contradiction| |  |]; discriminate H. }
  destruct (tail_lemma ndebug ds b vs f1 W B) as [(vs1 & f2 & q & Hq & H)|(vs1 & f2 & ws0 & H)]; [left|right].
  - exists vs1, f2, (with_value q). split; [destruct q as [[]|e|o| | |]; cbn; congruence|]. intros w0 w log a ws X.
    destruct (G _ _ _ _ _ X) as (G1 & G2 & G3). cbn zeta in *. assert (Q : quiet ds ws) by apply X.
    destruct (H ws Q) as (H1 & H2 & H3). rewrite G1, G2, G3, H1, H2, H3. auto.
  - exists vs1, f2, ws0. intros w0 w log a ws X.
    destruct (G _ _ _ _ _ X) as (G1 & G2 & G3). cbn zeta in *. assert (Q : quiet ds ws) by apply X.
    destruct (H ws Q) as (H1 & H2 & H3). rewrite G1, G2, G3, H1, H2, <- H3. split; [reflexivity|]. split; [reflexivity|].
    now destruct (snd (parse_args ndebug ds (b ++ "--" :: ws) vs f1)).
Qed.

End whole.
