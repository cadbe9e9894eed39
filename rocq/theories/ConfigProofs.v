(** Proofs about the parameters of sharg::config (C99). *)
From Verif Require Import Base StrLib Fs Values Validators FormatParse Parser HelpBase HelpExport HelpSpec ProgramSpec ProgramProofs ProgramOutcomes
  Samples HelpSamples ConfigSpec.

(** ** Declarations *)

Definition raised {A} (r : res A) : Prop := exists m, r = Throw (Exn KDesign m).
Definition fine {A} (r : res A) : Prop := raised r \/ exists a, r = Ret a.

Lemma fine_bind : forall S A B (m : M S A) (k : A -> M S B) s, fine (snd (m s)) -> (forall a s', fine (snd (k a s'))) -> fine (snd (bind m k s)).
Proof.
  intros S A B m k s H K. unfold bind. destruct (m s) as [s' r]; cbn in H. destruct H as [[t ->]|[a ->]]; cbn.
  - left. now exists t.
  - apply K.
Qed.
Lemma raised_bind : forall S A B (m : M S A) (k : A -> M S B) s, fine (snd (m s)) -> (forall a s', raised (snd (k a s'))) -> raised (snd (bind m k s)).
Proof.
  intros S A B m k s H K. unfold bind. destruct (m s) as [s' r]; cbn in H. destruct H as [[t ->]|[a ->]]; cbn.
  - now exists t.
  - apply K.
Qed.
Lemma raised_first : forall S A B (m : M S A) (k : A -> M S B) s, raised (snd (m s)) -> raised (snd (bind m k s)).
Proof. intros S A B m k s [t H]. unfold bind. destruct (m s) as [s' r]; cbn in H; subst r. now exists t. Qed.

Lemma fine_ret : forall S A (a : A) (s : S), fine (snd (ret a s)).
Proof. intros. right. now exists a. Qed.
Lemma fine_design : forall A m p, fine (snd (@design A m p)).
Proof. intros. left. now exists m. Qed.
Lemma fine_modify : forall S (g : S -> S) s, fine (snd (modify g s)).
Proof. intros. right. now exists tt. Qed.
Lemma fine_exists : forall i p, fine (snd (id_exists i p)).
Proof. intros i p. unfold id_exists. destruct (is_empty_id i); [right; eexists; reflexivity|]. cbn zeta. destruct (mem _ _); right; eexists; reflexivity. Qed.
Ltac fin := repeat first
  [ apply fine_ret | apply fine_design | apply fine_modify | apply fine_exists
  | apply fine_bind; [|intros] | match goal with |- fine (snd ((if ?b then _ else _) _)) => destruct b end ].
Lemma fine_called : forall f p, fine (snd (check_parse_not_called f p)).
Proof. intros. unfold check_parse_not_called. destruct (parse_was_called p); fin. Qed.
Lemma fine_idents : forall s l p, fine (snd (verify_identifiers s l p)).
Proof.
  intros. unfold verify_identifiers, verify_short, verify_long. destruct (_ && _); fin.
Qed.
Lemma on_parser_raised : forall A (m : M parser A) w, raised (snd (m (w_parser w))) -> raised (snd (on_parser m w)).
Proof. intros A m w H. unfold on_parser. destruct (m (w_parser w)) as [p r]. exact H. Qed.

Lemma rejected_lemma : forall nd bk w k p x t c, marked k p = RaisesDesignError -> is_set p c ->
  raised (snd (step nd bk (declared k x t c) w)).
Proof.
  intros nd bk w k p x t c T H.
  destruct k; [destruct p; discriminate T| |].
  - assert (E : negb (is_empty (c_default_message c)) = true)
      by (destruct p; try discriminate T; cbn in H; destruct (c_default_message c); [congruence|reflexivity]).
    cbn [declared step]. apply raised_first, on_parser_raised. unfold add_flag.
    apply raised_bind; [apply fine_called|intros _ q]. apply raised_first. unfold verify_flag_config.
    apply raised_bind; [apply fine_idents|intros _ q']. rewrite E. eexists; reflexivity.
  - cbn [declared step]. apply raised_first, on_parser_raised. unfold add_positional_option.
    apply raised_bind; [apply fine_called|intros _ q]. apply raised_first. unfold verify_positional_option_config.
    destruct (negb (Ascii.eqb (c_short c) nul) || negb (is_empty (c_long c))) eqn:A1; [eexists; reflexivity|].
    destruct (c_advanced c || c_hidden c) eqn:A2; [eexists; reflexivity|].
    destruct (match subcommands q with [] => false | _ => true end); [eexists; reflexivity|].
    destruct (has_positional_list_option q); [eexists; reflexivity|].
    apply Bool.orb_false_iff in A1, A2. destruct A1 as [S L], A2 as [V D].
    assert (E : negb (is_empty (c_default_message c)) = true).
    { destruct p; try discriminate T; cbn in H.
      - apply Bool.negb_false_iff, Ascii.eqb_eq in S. contradiction.
      - destruct (c_long c); [contradiction|discriminate L].
      - destruct (c_default_message c); [contradiction|reflexivity].
      - congruence.
      - congruence. }
    rewrite E. eexists; reflexivity.
Qed.

(** Two configurations with the same identifiers, both permitted: the same answer in every state. *)
Lemma answer_deferred : forall (m : M parser unit) o o' w,
  snd ((on_parser (m ;; defer o) ;; ret true) w) = snd ((on_parser (m ;; defer o') ;; ret true) w).
Proof. intros m o o' w. unfold bind, on_parser. destruct (m (w_parser w)) as [q [[]| | | | |]]; reflexivity. Qed.
Lemma bind_assoc3 : forall S (a b : M S unit) (c : M S unit) s, (a ;; b ;; c) s = ((a ;; b) ;; c) s.
Proof. intros. unfold bind. destruct (a s) as [s' [[]| | | | |]]; reflexivity. Qed.
Lemma on_parser_eq : forall (m m' : M parser unit) w, (forall p, m p = m' p) -> (on_parser m ;; ret true) w = (on_parser m' ;; ret true) w.
Proof. intros m m' w H. unfold bind, on_parser. now rewrite H. Qed.
Lemma unset_message : forall k c, permitted k c -> k <> AnOption -> is_empty (c_default_message c) = true.
Proof.
  intros k c [H _] K. destruct (c_default_message c) eqn:E; [reflexivity|]. exfalso. apply (H PDefaultMessage).
  - cbn. congruence.
  - destruct k; [congruence|reflexivity|reflexivity].
Qed.

Lemma accepted_lemma : forall nd bk w k x t c c', permitted k c -> permitted k c' -> agree c c' PShort -> agree c c' PLong ->
  snd (step nd bk (declared k x t c) w) = snd (step nd bk (declared k x t c') w).
Proof.
  intros nd bk w k x t c c' P P' S L. cbn in S, L. destruct k; cbn [declared step].
  - assert (Q : forall d, permitted AnOption d -> c_required d && negb (is_empty (c_default_message d)) = false).
    { intros d [_ D]. destruct (c_required d) eqn:R; [|reflexivity]. destruct (c_default_message d) eqn:E; [reflexivity|].
      exfalso. apply (D eq_refl R). cbn. congruence. }
    assert (V : verify_option_config c = verify_option_config c') by (unfold verify_option_config; now rewrite (Q c P), (Q c' P'), S, L).
    unfold add_option. rewrite V.
    rewrite !(on_parser_eq _ _ w (fun p => bind_assoc3 _ _ _ _ p)). apply answer_deferred.
  - assert (V : verify_flag_config c = verify_flag_config c')
      by (unfold verify_flag_config; rewrite S, L, (unset_message _ c P), (unset_message _ c' P'); congruence).
    unfold add_flag. rewrite V.
    assert (G : forall d, (on_parser (check_parse_not_called "add_flag" ;; verify_flag_config c' ;;
        (if as_bool (w_vars w x) then design "A flag's default value must be false." else ret tt) ;; defer (OpDecl (DFlag x d))) ;; ret true) w =
      (on_parser ((check_parse_not_called "add_flag" ;; verify_flag_config c' ;;
        (if as_bool (w_vars w x) then design "A flag's default value must be false." else ret tt)) ;; defer (OpDecl (DFlag x d))) ;; ret true) w).
    { intros d. apply on_parser_eq. intros p. rewrite <- bind_assoc3. unfold bind at 1. unfold bind at 3.
      destruct (check_parse_not_called "add_flag" p) as [p1 [[]| | | | |]]; try reflexivity. apply bind_assoc3. }
    rewrite !G. apply answer_deferred.
  - assert (F : forall d, permitted APositional d -> c_short d = nul /\ c_long d = "" /\ c_advanced d = false /\ c_hidden d = false).
    { intros d [D _].
      split; [|split; [|split]].
      - destruct (Ascii.eqb (c_short d) nul) eqn:E; [now apply Ascii.eqb_eq in E|].
        exfalso. apply (D PShort); [cbn; now apply Ascii.eqb_neq in E|reflexivity].
      - destruct (c_long d) eqn:E; [reflexivity|]. exfalso. apply (D PLong); [cbn; congruence|reflexivity].
      - destruct (c_advanced d) eqn:E; [|reflexivity]. exfalso. now apply (D PAdvanced).
      - destruct (c_hidden d) eqn:E; [|reflexivity]. exfalso. now apply (D PHidden). }
    destruct (F c P) as (A1 & A2 & A3 & A4), (F c' P') as (B1 & B2 & B3 & B4).
    assert (V : verify_positional_option_config c = verify_positional_option_config c').
    { unfold verify_positional_option_config. now rewrite (unset_message _ c P), (unset_message _ c' P'), A1, A2, A3, A4, B1, B2, B3, B4 by discriminate. }
    unfold add_positional_option. rewrite V.
    assert (G : forall d, (on_parser (check_parse_not_called "add_positional_option" ;; verify_positional_option_config c' ;;
        (if is_container t then modify (set_has_list true) else ret tt) ;; defer (OpDecl (DPositional x t d))) ;; ret true) w =
      (on_parser ((check_parse_not_called "add_positional_option" ;; verify_positional_option_config c' ;;
        (if is_container t then modify (set_has_list true) else ret tt)) ;; defer (OpDecl (DPositional x t d))) ;; ret true) w).
    { intros d. apply on_parser_eq. intros p. rewrite <- bind_assoc3. unfold bind at 1. unfold bind at 3.
      destruct (check_parse_not_called "add_positional_option" p) as [p1 [[]| | | | |]]; try reflexivity. apply bind_assoc3. }
    rewrite !G. apply answer_deferred.
Qed.

(** ** Reading the arguments *)

Lemma role_same : forall d, same_role d d.
Proof. intros []; cbn; unfold same_config; intuition. Qed.
Lemma roles_same : forall ds, Forall2 same_role ds ds.
Proof. induction ds; constructor; [apply role_same|assumption]. Qed.
Lemma filter_one : forall g ds1 ds2 d d', g d = g d' -> same_role d d' ->
  Forall2 same_role (filter g (ds1 ++ d :: ds2)) (filter g (ds1 ++ d' :: ds2)).
Proof.
  intros g ds1 ds2 d d' E R. rewrite !filter_app. apply Forall2_app; [apply roles_same|]. cbn. rewrite E.
  destruct (g d'); [constructor; [exact R|]|]; apply roles_same.
Qed.

Lemma idle_parsing : forall nd k p ds1 ds2 x t c c' args vs f, read_for k p = false -> differ_in p c c' ->
  parse_args nd (ds1 ++ declaration k x t c :: ds2) args vs f = parse_args nd (ds1 ++ declaration k x t c' :: ds2) args vs f.
Proof.
  intros nd k p ds1 ds2 x t c c' args vs f R D. apply same_interface_args.
  assert (S : same_role (declaration k x t c) (declaration k x t c')).
  { pose proof (D PShort) as D1. pose proof (D PLong) as D2. pose proof (D PRequired) as D3. pose proof (D PValidator) as D4. cbn in D1, D2, D3, D4.
    destruct k, p; try discriminate R; cbn; unfold same_config;
      repeat split; first [apply D1 | apply D2 | apply D3 | apply D4]; discriminate. }
  unfold same_interface, options_of, flags_of, positionals_of.
  repeat split; apply filter_one; try exact S; destruct k; reflexivity.
Qed.

(** ** Pages *)

Lemma calls_app : forall adv vs l1 l2, set_up_calls adv vs (l1 ++ l2) = set_up_calls adv vs l1 ++ set_up_calls adv vs l2.
Proof.
  intros adv vs l1 l2. induction l1 as [|o l IH]; [reflexivity|]. cbn. destruct (item_of vs o) as [[[i a] h]|]; [|exact IH].
  destruct (stored adv a h); [cbn; now f_equal|exact IH].
Qed.

Definition looks (vs : store) (d d' : decl) : Prop :=
  item_of vs (OpDecl d) = item_of vs (OpDecl d') /\
  (forall n, positional_calls vs n [OpDecl d] = positional_calls vs n [OpDecl d']) /\
  (forall n, tdl_positionals n vs [OpDecl d] = tdl_positionals n vs [OpDecl d']) /\
  (forall tags, tdl_options tags vs [OpDecl d] = tdl_options tags vs [OpDecl d']) /\
  match d, d' with DPositional _ _ _, DPositional _ _ _ => True | DPositional _ _ _, _ | _, DPositional _ _ _ => False | _, _ => True end.

Lemma looks_setup : forall vs d d' adv l1 l2, looks vs d d' ->
  set_up_calls adv vs (l1 ++ OpDecl d :: l2) = set_up_calls adv vs (l1 ++ OpDecl d' :: l2).
Proof. intros vs d d' adv l1 l2 (H & _). rewrite !calls_app. f_equal. cbn [set_up_calls]. now rewrite H. Qed.

Lemma looks_positional : forall vs d d' l1 l2, looks vs d d' -> forall n,
  positional_calls vs n (l1 ++ OpDecl d :: l2) = positional_calls vs n (l1 ++ OpDecl d' :: l2).
Proof.
  intros vs d d' l1 l2 (_ & H & _ & _ & K). induction l1 as [|o l1 IH]; intros n.
  - specialize (H n). cbn [app positional_calls] in *. destruct d, d'; try contradiction; try reflexivity.
    match type of H with ?a :: _ = ?b :: _ => assert (E : a = b) by congruence; now rewrite E end.
  - cbn [app positional_calls]. destruct o as [[]| | | |]; first [apply IH | now rewrite IH].
Qed.
Lemma looks_tdl_positional : forall vs d d' l1 l2, looks vs d d' -> forall n,
  tdl_positionals n vs (l1 ++ OpDecl d :: l2) = tdl_positionals n vs (l1 ++ OpDecl d' :: l2).
Proof.
  intros vs d d' l1 l2 (_ & _ & H & _ & K). induction l1 as [|o l1 IH]; intros n.
  - specialize (H n). cbn [app tdl_positionals] in *. destruct d, d'; try contradiction; try reflexivity.
    match type of H with ?a :: _ = ?b :: _ => assert (E : a = b) by congruence; now rewrite E end.
  - cbn [app tdl_positionals]. destruct o as [[]| | | |]; first [apply IH | now rewrite IH].
Qed.
Lemma tdl_options_cons : forall tags vs o l, tdl_options tags vs (o :: l) = tdl_options tags vs [o] ++ tdl_options tags vs l.
Proof. intros tags vs o l. destruct o as [[]| | | |]; cbn; try reflexivity; destruct (c_hidden c); reflexivity. Qed.
Lemma looks_tdl_options : forall tags vs d d' l1 l2, looks vs d d' ->
  tdl_options tags vs (l1 ++ OpDecl d :: l2) = tdl_options tags vs (l1 ++ OpDecl d' :: l2).
Proof.
  intros tags vs d d' l1 l2 (_ & _ & _ & H & _). induction l1 as [|o l1 IH]; cbn [app].
  - rewrite (tdl_options_cons tags vs (OpDecl d)), (tdl_options_cons tags vs (OpDecl d')). now rewrite H.
  - rewrite (tdl_options_cons tags vs o), (tdl_options_cons tags vs o (l1 ++ OpDecl d' :: l2)). now rewrite IH.
Qed.

Lemma looks_page : forall e r d d' l1 l2, looks (pr_vars r) d d' ->
  page e (with_ops r (l1 ++ OpDecl d :: l2)) = page e (with_ops r (l1 ++ OpDecl d' :: l2)).
Proof.
  intros e r d d' l1 l2 H. unfold page.
  change (pr_format (with_ops r (l1 ++ OpDecl d :: l2))) with (pr_format r).
  change (pr_format (with_ops r (l1 ++ OpDecl d' :: l2))) with (pr_format r).
  assert (G : forall St (P : printer St) x adv,
    print_page P x adv (with_ops r (l1 ++ OpDecl d :: l2)) = print_page P x adv (with_ops r (l1 ++ OpDecl d' :: l2))).
  { intros St P x adv. unfold print_page. cbn [with_ops pr_info pr_subcommands pr_vars pr_ops pr_dev].
    now rewrite (looks_setup _ _ _ adv l1 l2 H), (looks_positional _ _ _ l1 l2 H). }
  destruct (pr_format r); rewrite ?G; try reflexivity.
  destruct (pe_tdl e); [|reflexivity]. unfold tool_info_of. cbn [with_ops pr_info pr_subcommands pr_vars pr_ops pr_dev pr_executable].
  now rewrite (looks_tdl_positional _ _ _ l1 l2 H), (looks_tdl_options _ _ _ _ l1 l2 H).
Qed.

Lemma idle_pages : forall k p e r l1 l2 x t c c', shown_for k p = false -> differ_in p c c' ->
  page e (with_ops r (l1 ++ OpDecl (declaration k x t c) :: l2)) = page e (with_ops r (l1 ++ OpDecl (declaration k x t c') :: l2)).
Proof.
  intros k p e r l1 l2 x t c c' R D. apply looks_page.
  pose proof (D PShort) as D1. pose proof (D PLong) as D2. pose proof (D PDescription) as D3. pose proof (D PAdvanced) as D4.
  pose proof (D PHidden) as D5. pose proof (D PValidator) as D6. cbn in D1, D2, D3, D4, D5, D6. clear D.
  destruct k; [discriminate R| |].
  - assert (E : c_short c = c_short c' /\ c_long c = c_long c' /\ c_desc c = c_desc c' /\ c_advanced c = c_advanced c' /\ c_hidden c = c_hidden c').
    { destruct p; try discriminate R; repeat split; first [apply D1|apply D2|apply D3|apply D4|apply D5]; discriminate. }
    clear - E. destruct E as (E1 & E2 & E3 & E4 & E5). unfold looks. cbn. unfold tdl_flag. rewrite E1, E2, E3, E4, E5. auto.
  - assert (E : c_desc c = c_desc c' /\ c_vhelp c = c_vhelp c').
    { destruct p; try discriminate R; (split; [apply D3|apply D6]; discriminate). }
    clear - E. destruct E as (E1 & E2). unfold looks. cbn. unfold positional_item, tdl_positional, validator_info. rewrite E1, E2. auto.
Qed.

(** ** The others do have an effect *)

Definition silent (c : config) : config :=
  {| c_short := c_short c; c_long := c_long c; c_desc := ""; c_default_message := c_default_message c; c_advanced := c_advanced c;
     c_hidden := c_hidden c; c_required := c_required c; c_validator := c_validator c; c_vhelp := c_vhelp c |}.
Definition said_default (m : string) (c : config) : config :=
  {| c_short := c_short c; c_long := c_long c; c_desc := c_desc c; c_default_message := m; c_advanced := c_advanced c;
     c_hidden := c_hidden c; c_required := c_required c; c_validator := c_validator c; c_vhelp := c_vhelp c |}.
Definition base_of (k : kind) : config := match k with APositional => cfg nul "" | _ => cfg "i" "int" end.
Definition altered (k : kind) (p : param) : config :=
  match p with
  | PShort => cfg "j" "int" | PLong => cfg "i" "integer" | PDescription => silent (base_of k)
  | PDefaultMessage => said_default "none" (base_of k) | PAdvanced => advanced (base_of k) | PHidden => hidden (base_of k)
  | PRequired => required (base_of k) | PValidator => explained "Never." (validated (fun f _ => (f, VThrow "no")) (base_of k))
  end.
Definition some_type (k : kind) : vty := match k with APositional => Scalar TString | _ => Scalar int32 end.
Definition some_var (k : kind) : addr := match k with AnOption => 0%nat | AFlag => 2%nat | APositional => 4%nat end.
Definition some_args (k : kind) (p : param) : list string :=
  match k, p with
  | AnOption, PShort => ["-i"; "5"] | AnOption, PLong => ["--int"; "5"] | AnOption, PRequired => [] | AnOption, _ => ["-i"; "5"]
  | AFlag, PShort => ["-i"] | AFlag, _ => ["--int"] | APositional, _ => ["word"]
  end.
Definition returned {A} (r : res A) : bool := match r with Ret _ => true | _ => false end.

Lemma altered_permitted : forall k p, read_for k p = true \/ shown_for k p = true -> permitted k (base_of k) /\ permitted k (altered k p).
Proof.
  intros k p H. split; (split; [intros q|intros ?]); destruct k, p; try (destruct H; discriminate); try destruct q; cbn; intuition congruence.
Qed.
Lemma altered_differ : forall k p, read_for k p = true \/ shown_for k p = true -> differ_in p (base_of k) (altered k p).
Proof. intros k p H q Q. destruct k, p; try (destruct H; discriminate); destruct q; try congruence; cbn; auto. Qed.

Lemma parsing_effect : forall k p, changes_parsing k p <-> read_for k p = true.
Proof.
  intros k p. split.
  - intros (nd & ds1 & ds2 & x & t & c & c' & args & vs & f & _ & _ & D & N). destruct (read_for k p) eqn:R; [reflexivity|].
    exfalso. apply N. now apply (idle_parsing nd k p).
  - intros R. exists false, [], [], (some_var k), (some_type k), (base_of k), (altered k p), (some_args k p), vars0, no_fs.
    destruct (altered_permitted k p (or_introl R)) as [P P']. split; [exact P|]. split; [exact P'|]. split; [apply altered_differ; now left|].
    intros E. apply (f_equal (fun r => returned (snd r))) in E. revert E. destruct k, p; try discriminate R; vm_compute; discriminate.
Qed.

Lemma pages_effect : forall k p, changes_pages k p <-> shown_for k p = true.
Proof.
  intros k p. split.
  - intros (e & r & l1 & l2 & x & t & c & c' & _ & _ & D & N). destruct (shown_for k p) eqn:R; [reflexivity|].
    exfalso. apply N. now apply (idle_pages k p).
  - intros R. exists (env true false 80), (request (FHelp false) app_meta [] vars0), [], [], (some_var k), (some_type k), (base_of k), (altered k p).
    destruct (altered_permitted k p (or_intror R)) as [P P']. split; [exact P|]. split; [exact P'|]. split; [apply altered_differ; now right|].
    destruct k, p; try discriminate R; vm_compute; discriminate.
Qed.
