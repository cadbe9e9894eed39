(** The short pages, tool descriptions and the section of positional arguments. *)
From Verif Require Import Base StrLib Fs Values Validators FormatParse Parser HelpBase HelpText HelpExport HelpSpec TdlSpec HelpTextProofs HelpPage HelpGood HelpLayout HelpExportProofs HelpEntries.

(** ** Tool descriptions *)

Lemma wrap_innermost names l : innermost (wrap names l) (rev names) l.
Proof.
  enough (G : forall names l names' l', innermost l names' l' -> innermost (wrap names l) (rev names ++ names') l').
  { specialize (G names l [] l (inner_here l)). now rewrite app_nil_r in G. }
  clear. induction names as [|n names IH]; intros l names' l' H; [exact H|]. cbn [wrap rev]. rewrite <- app_assoc. cbn [app].
  apply IH. now constructor.
Qed.

Lemma prefix_app a b : String.prefix a (a +s+ b) = true.
Proof. apply prefix_iff. now exists b. Qed.

Lemma unquote_lemma s : forall acc rest, read_quoted (quote_body s +s+ String """" rest) acc = Some (acc +s+ s).
Proof.
  induction s as [|c s IH]; intros acc rest; [cbn; now rewrite app_nil_r_s|]. cbn [quote_body].
  destruct (Ascii.eqb_spec c """") as [->|Hq]; cbn [orb].
  - cbn [String.append read_quoted]. change (Ascii.eqb "\" "\") with true. cbn iota. rewrite IH. now rewrite app_assoc_s.
  - destruct (Ascii.eqb_spec c "\") as [->|Hb].
    + cbn [String.append read_quoted]. change (Ascii.eqb "\" "\") with true. cbn iota. rewrite IH. now rewrite app_assoc_s.
    + cbn [String.append read_quoted]. rewrite (proj2 (Ascii.eqb_neq c "\") Hb), (proj2 (Ascii.eqb_neq c """") Hq). rewrite IH. now rewrite app_assoc_s.
Qed.

Lemma tdl_defaults tags r : exists l,
  innermost (ti_params (tool_info_of tags r)) (List.tl (pr_executable r)) l
  /\ Forall2 (tdl_default (pr_vars r)) (filter is_positional (pr_ops r) ++ filter on_tdl (pr_ops r)) l.
Proof.
  exists (tdl_positionals 0 (pr_vars r) (pr_ops r) ++ map fst (tdl_options tags (pr_vars r) (pr_ops r))). split.
  - unfold tool_info_of. cbn [ti_params]. rewrite <- (rev_involutive (List.tl (pr_executable r))) at 2. apply wrap_innermost.
  - apply Forall2_app.
    + generalize 0. induction (pr_ops r) as [|o l IH]; intros n; [constructor|].
      destruct o as [[x t c|x c|x t c]| | | |]; cbn [filter is_positional tdl_positionals]; try apply IH. constructor; [reflexivity|apply IH].
    + induction (pr_ops r) as [|o l IH]; [constructor|]. destruct o as [[x t c|x c|x t c]| | | |]; cbn [filter on_tdl tdl_options]; try exact IH.
      * destruct (c_hidden c); cbn [negb map]; [exact IH|]. constructor; [|exact IH].
        destruct t as [e|e]; [destruct e|]; unfold tdl_option, to_tdl; cbn [tdl_default fst nd_value]; auto; try (now intros ? ->).
        intros p ->. exists (quote_body p). split; [reflexivity|]. exact (unquote_lemma p "" "").
      * destruct (c_hidden c); cbn [negb map]; [exact IH|]. constructor; [|exact IH]. unfold tdl_flag, to_tdl. cbn [tdl_default nd_value]. now intros ? ->.
Qed.

Section tdl.
Variable tags : config -> list string.
Hypothesis no_tag : forall c t, In t (tags c) -> t <> "advanced" /\ t <> "required".

Lemma tdl_option_entry x t c vs : tdl_entry (OpDecl (DOption x t c)) (fst (tdl_option tags x t c vs)).
Proof.
  unfold tdl_option. cbn [tdl_entry fst].
  assert (A : (In "advanced" ((if c_required c then ["required"] else []) ++ (if c_advanced c then ["advanced"] else [])) <-> c_advanced c = true)
     /\ (In "required" ((if c_required c then ["required"] else []) ++ (if c_advanced c then ["advanced"] else [])) <-> c_required c = true)).
  { destruct (c_required c), (c_advanced c); cbn; intuition discriminate. }
  assert (P : String.prefix (c_desc c) (option_info t (vs x) c) = true) by apply prefix_app.
  assert (T : forall w, w = "advanced" \/ w = "required" -> ~ In w (tags c)).
  { intros w Hw Hi. apply no_tag in Hi as [H1 H2]. destruct Hw; congruence. }
  destruct t as [e|e]; [destruct e|]; cbn [nd_name nd_description nd_tags]; rewrite ?in_app_iff in *; 
    (split; [reflexivity|]); (split; [exact P|]);
    destruct A as [A1 A2]; split; try assumption;
    rewrite <- ?A1, <- ?A2; split; intros H; try tauto; destruct H as [H|H]; try tauto; exfalso; revert H; apply T; auto.
Qed.

Lemma tdl_entries vs l : Forall2 tdl_entry (filter on_tdl l) (map fst (tdl_options tags vs l)).
Proof.
  induction l as [|o l IH]; [constructor|]. destruct o as [[x t c|x c|x t c]| | | |]; cbn [filter on_tdl tdl_options]; try exact IH.
  - destruct (c_hidden c); cbn [negb map]; [exact IH|]. constructor; [apply tdl_option_entry|exact IH].
  - destruct (c_hidden c); cbn [negb map]; [exact IH|]. constructor; [split; reflexivity|exact IH].
Qed.

Lemma tdl_positional_entries vs l : forall n, Forall2 tdl_entry (filter is_positional l) (tdl_positionals n vs l).
Proof.
  induction l as [|o l IH]; intros n; [constructor|]. destruct o as [[x t c|x c|x t c]| | | |]; cbn [filter is_positional tdl_positionals]; try apply IH.
  constructor; [|apply IH]. unfold tdl_positional. cbn [tdl_entry nd_description nd_tags]. split; [apply prefix_app|].
  destruct (is_container t); cbn; intuition discriminate.
Qed.

Lemma tdl_page_entries r : exists l,
  innermost (ti_params (tool_info_of tags r)) (List.tl (pr_executable r)) l
  /\ Forall2 tdl_entry (filter is_positional (pr_ops r) ++ filter on_tdl (pr_ops r)) l.
Proof.
  exists (tdl_positionals 0 (pr_vars r) (pr_ops r) ++ map fst (tdl_options tags (pr_vars r) (pr_ops r))). split.
  - unfold tool_info_of. cbn [ti_params]. rewrite <- (rev_involutive (List.tl (pr_executable r))) at 2. apply wrap_innermost.
  - apply Forall2_app; [apply tdl_positional_entries|apply tdl_entries].
Qed.

End tdl.

(** ** Short pages *)

Lemma does_version {St F} (mk : string -> F -> St) P Q m : implements mk P Q -> does mk (print_version P m) (e_version Q m).
Proof.
  intros (H1 & H2 & H3 & H4 & H5 & H6 & H7). unfold print_version, e_version. rewrite <- !H7.
  repeat (apply does_bind; [auto|]). apply does_when, does_bind; auto.
Qed.

Lemma page_of_eff {St F} (mk : string -> F -> St) out m e f : (forall s f, out (mk s f) = s) -> does mk m e -> fst e = true ->
  printed out (m (mk "" f)) = Ret (fst (snd e f)).
Proof.
  intros Ho H K. specialize (H "" f). rewrite K in H. unfold printed. rewrite H. cbn [snd fst lift_res]. now rewrite Ho.
Qed.

Lemma intact_bold tty s : intact s = true -> intact (in_bold tty s) = true.
Proof. intros H. unfold in_bold, on_tty. destruct tty; (apply intact_app; [reflexivity|]); (apply intact_app; [exact H|reflexivity]). Qed.

Lemma short_help_succeeds e r : pr_format r = FShortHelp -> has_commands (pr_info r) = true ->
  forallb intact (map to_blank (m_synopsis (pr_info r)) ++ map from_blank (m_synopsis (pr_info r))) = true -> exists out, page e r = Ret out.
Proof.
  intros HF HC HT. unfold page. rewrite HF. set (L := layout_of (pe_width e)). set (m := pr_info r) in *.
  pose proof (text_implements (pe_ndebug e) (pe_tty e) L) as HI. set (Q := text_effects (pe_ndebug e) (pe_tty e) L) in *.
  eexists. apply (page_of_eff mk_text t_out _ (e_seq (q_header Q m) (e_seq (e_when (nonempty (m_synopsis m)) (e_map (e_synopsis Q) (m_synopsis m)))
     (q_line Q ("Try -h or --help for more information." +s+ nl) true))) false); [reflexivity| |].
  - unfold short_help_page. destruct HI as (H1 & H2 & H3 & H4 & H5 & H6 & H7). apply does_bind; [apply H1|]. apply does_bind; [|apply H4].
    apply (does_when mk_text (nonempty (m_synopsis m))). apply does_map. intros s _. apply does_synopsis. repeat split; assumption.
  - cbn [e_seq fst]. apply andb_true_intro. split; [reflexivity|]. apply andb_true_intro. split; [|reflexivity].
    destruct (nonempty _); [|reflexivity]. cbn [e_when]. rewrite e_map_ok. apply forallb_forall. intros s Hs.
    unfold e_synopsis. rewrite synopsis_line_eq. unfold has_commands in HC. rewrite forallb_forall in HC. rewrite (HC s Hs).
    cbn [Q q_line text_effects fst]. rewrite forallb_forall in HT. apply intact_text_ok. apply intact_app.
    + apply (intact_app "\fB"); [reflexivity|]. apply intact_app; [|reflexivity]. apply HT, in_app_iff. left. now apply in_map.
    + apply HT, in_app_iff. right. now apply in_map.
Qed.

Lemma version_page_succeeds e r : pr_format r = FVersion ->
  forallb intact [m_app_name (pr_info r); m_version (pr_info r); m_date (pr_info r); m_url (pr_info r)] = true -> exists out, page e r = Ret out.
Proof.
  intros HF HT. unfold page. rewrite HF. set (L := layout_of (pe_width e)). set (m := pr_info r) in *.
  pose proof (text_implements (pe_ndebug e) (pe_tty e) L) as HI. set (Q := text_effects (pe_ndebug e) (pe_tty e) L) in *.
  cbn [forallb] in HT. rewrite !andb_true_iff in HT. destruct HT as (T1 & T2 & T3 & T4 & _).
  eexists. apply (page_of_eff mk_text t_out _ (e_seq (q_header Q m) (e_version Q m)) false); [reflexivity| |].
  - unfold version_page. apply does_bind; [apply HI|]. now apply does_version.
  - unfold e_version. cbn [e_seq fst Q q_header q_section q_line q_bold text_effects andb].
    assert (B : forall a b, intact a = true -> intact b = true -> text_ok (in_bold (pe_tty e) a +s+ b) = true).
    { intros a b A B. now apply intact_text_ok, intact_app; [apply intact_bold|]. }
    rewrite (B "Last update: " _ eq_refl T3), (B "Sharg version: " sharg_version eq_refl eq_refl).
    rewrite (B (m_app_name m +s+ " version: ") _ (intact_app _ " version: " T1 eq_refl) T2). cbn [andb].
    destruct (is_empty (m_url m)); [reflexivity|]. cbn [negb e_when e_seq fst andb]. now apply intact_text_ok.
Qed.

Lemma copyright_page_succeeds e r : pr_format r = FCopyright -> exists out, page e r = Ret out.
Proof. intros HF. unfold page. rewrite HF. eexists. reflexivity. Qed.

Lemma tdl_page_succeeds e r cwl : pr_format r = FTdl cwl -> pe_tdl e <> None -> exists out, page e r = Ret out.
Proof. intros HF H. unfold page. rewrite HF. destruct (pe_tdl e); [now eexists|congruence]. Qed.

(** ** Positional arguments *)

Lemma page_positionals {F} (Q : @effects F) exports adv r f : fst (e_page Q exports adv r) = true ->
  positional_calls (pr_vars r) 0 (pr_ops r) <> [] ->
  exists before blocks after f1 f2, fst (snd (e_page Q exports adv r) f)
    = before +s+ fst (snd (q_section Q "Positional Arguments") f1) +s+ sconcat blocks +s+ fst (snd (q_section Q "Options") f2) +s+ after
  /\ Forall2 (block Q) (positional_calls (pr_vars r) 0 (pr_ops r)) blocks
  /\ forallb (fun i => fst (q_print Q i)) (positional_calls (pr_vars r) 0 (pr_ops r)) = true.
Proof.
  intros H HN. unfold e_page, e_before in *. set (l := positional_calls (pr_vars r) 0 (pr_ops r)) in *.
  assert (N : nonempty l = true) by (destruct l; [congruence|reflexivity]). rewrite N in *. cbn [e_when] in *. clearbody l. clear N.
  match goal with |- context [e_seq (e_map (q_print Q) (set_up_calls _ _ _)) ?y] => set (Y := e_seq (e_map (q_print Q) (set_up_calls adv (pr_vars r) (pr_ops r))) y) in * end.
  clearbody Y.
  match goal with |- context [e_seq (q_header Q _) (e_seq ?x (e_seq ?y (e_seq ?z _)))] => set (X1 := x) in *; set (X2 := y) in *; set (X3 := z) in * end.
  clearbody X1 X2 X3. set (X0 := q_header Q (pr_info r)) in *. clearbody X0. cbn [e_seq fst snd] in *.
  set (f1 := snd (snd X0 f)). set (f2 := snd (snd X1 f1)). set (f3 := snd (snd X2 f2)). set (f4 := snd (snd X3 f3)).
  set (f5 := snd (snd (q_section Q "Positional Arguments") f4)). destruct (blocks_of Q l f5) as (bs & E & Hbs). rewrite E.
  set (f6 := snd (snd (e_map (q_print Q) l) f5)).
  exists (fst (snd X0 f) +s+ fst (snd X1 f1) +s+ fst (snd X2 f2) +s+ fst (snd X3 f3)), bs, (fst (snd Y (snd (snd (q_section Q "Options") f6)))), f4, f6.
  split; [now rewrite ?app_assoc_s|]. split; [exact Hbs|].
  rewrite !andb_true_iff in H. destruct H as ((_ & _ & _ & _ & _ & H) & _). rewrite e_map_ok in H. exact H.
Qed.

Lemma positionals_no_esc vs l : forallb (fun s => negb (scontains "027" s)) (flat_map (op_texts vs) l) = true ->
  forall n, Forall (good_item (fun s => scontains "027" s = false)) (positional_calls vs n l).
Proof.
  intros H. apply good_positionals.
  - intros a b A B. now rewrite scontains_app, A, B.
  - intros s A. rewrite !scontains_app, A. reflexivity.
  - intros s A. rewrite !scontains_app, A. reflexivity.
  - intros s A. apply (plain_text_not "027" s); [cbn; tauto|exact A].
  - apply Forall_forall. intros s Hs. rewrite forallb_forall in H. now apply negb_true_iff, H.
Qed.

Lemma digits_no_backslash d : scontains "\" (DecimalString.NilEmpty.string_of_uint d) = false.
Proof. induction d as [|d IH|d IH|d IH|d IH|d IH|d IH|d IH|d IH|d IH|d IH]; cbn; auto. Qed.

Lemma Z_no_backslash z : scontains "\" (Z_to_string z) = false.
Proof.
  unfold Z_to_string, DecimalString.NilZero.string_of_int, DecimalString.NilZero.string_of_uint.
  destruct (Z.to_int z) as [d|d]; destruct d; try reflexivity; apply digits_no_backslash.
Qed.

Lemma strip_argument n t : no_backslash (type_name (elem_ty t)) = true ->
  strip ("\fBARGUMENT-" +s+ nat_to_string n +s+ "\fP " +s+ type_info t) = "ARGUMENT-" +s+ nat_to_string n +s+ " " +s+ type_shown t.
Proof.
  intros H. change (strip ("\fBARGUMENT-" +s+ nat_to_string n +s+ "\fP " +s+ type_info t))
    with ("ARGUMENT-" +s+ strip (nat_to_string n +s+ "\fP " +s+ type_info t)).
  rewrite strip_plain_app by apply Z_no_backslash.
  change (strip ("\fP " +s+ type_info t)) with (" " +s+ strip (type_info t)). now rewrite strip_type.
Qed.

Lemma positional_words nd tty width vs l : forall n bs,
  Forall2 (block (text_effects nd tty (layout_of width))) (positional_calls vs n l) bs ->
  forallb (fun i => fst (q_print (text_effects nd tty (layout_of width)) i)) (positional_calls vs n l) = true ->
  Forall (good_item (fun s => scontains "027" s = false)) (positional_calls vs n l) ->
  forallb no_backslash (flat_map op_names l) = true ->
  numbered (fun n o b => argument_words n o (words (drop_sgr b))) (S n) (filter is_positional l) bs.
Proof.
  induction l as [|o l IH]; intros n bs Hbs Hok HE HN; [inversion_clear Hbs; constructor|].
  cbn [flat_map] in HN. rewrite forallb_app in HN. apply andb_prop in HN as [HN1 HN].
  destruct o as [[x t c|x c|x t c]|s a|s a|s b a|k d a]; cbn [positional_calls filter is_positional] in *; try (apply IH; assumption).
  inversion_clear Hbs as [|? b ? bs' [f ->] Hbs']. cbn [forallb] in Hok. apply andb_prop in Hok as [K Hok]. inversion_clear HE as [|? ? E1 HE'].
  constructor; [|apply IH; assumption]. cbn [op_names forallb] in HN1. rewrite andb_true_r in HN1.
  unfold positional_item in *. cbn [argument_words q_print good_item] in *.
  cbn [q_item text_effects fst] in K. apply andb_prop in K as [K D]. destruct E1 as [E1 E2].
  rewrite (item_shows nd tty width _ _ f K D E1 E2). rewrite (strip_argument (S n) t HN1). eexists. reflexivity.
Qed.

Lemma positional_nil vs l n : positional_calls vs n l = [] <-> filter is_positional l = [].
Proof.
  revert n; induction l as [|o l IH]; intros n; [split; reflexivity|].
  destruct o as [[x t c|x c|x t c]|s a|s a|s b a|k d a]; cbn [positional_calls filter is_positional]; try apply IH. split; discriminate.
Qed.

Lemma help_page_positionals e r adv out : pr_format r = FHelp adv -> page e r = Ret out -> filter is_positional (pr_ops r) <> [] ->
  forallb (fun s => negb (scontains "027" s)) (flat_map (op_texts (pr_vars r)) (pr_ops r)) = true ->
  forallb no_backslash (flat_map op_names (pr_ops r)) = true ->
  exists before blocks after,
    out = before +s+ nl +s+ heading (pe_tty e) "POSITIONAL ARGUMENTS" +s+ nl +s+ sconcat blocks
          +s+ nl +s+ heading (pe_tty e) "OPTIONS" +s+ nl +s+ after
    /\ numbered (fun n o b => argument_words n o (words (drop_sgr b))) 1 (filter is_positional (pr_ops r)) blocks.
Proof.
  intros HF HP HX HE HN. pose proof (help_page_eff e r adv HF) as X. cbn zeta in X.
  destruct (fst (e_page _ _ _ _)) eqn:OK; [|rewrite HP in X; discriminate].
  rewrite X in HP. apply Ret_inj in HP. subst out.
  assert (HX' : positional_calls (pr_vars r) 0 (pr_ops r) <> []) by (intros H; apply HX; apply (positional_nil (pr_vars r) (pr_ops r) 0); exact H).
  destruct (page_positionals (text_effects (pe_ndebug e) (pe_tty e) (layout_of (pe_width e))) (exports e) adv r false OK HX')
    as (before & bs & after & f1 & f2 & E & Hbs & Hok).
  exists before, bs, after. split.
  - rewrite E. cbn [q_section text_effects fst snd]. f_equal. unfold heading, in_bold, on_tty, esc.
    destruct (pe_tty e); rewrite ?app_assoc_s; reflexivity.
  - eapply positional_words; [exact Hbs|exact Hok|exact (positionals_no_esc _ _ HE 0)|exact HN].
Qed.
