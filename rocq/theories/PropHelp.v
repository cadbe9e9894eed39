(** Properties of help pages and exports (C39 - C46, C57 - C60). *)
From Verif Require Import Base StrLib Fs Values ValuesSpec Validators FormatParse Parser HelpBase HelpText HelpExport HelpSpec TdlSpec
  HelpTextProofs HelpPage HelpGood HelpLayout HelpExportProofs HelpEntries HelpOther HelpProps Samples HelpSamples.

Definition shows (ws : list string) (w : string) : bool := existsb (String.eqb w) ws.
Definition out_of (r : res string) : string := match r with Ret s => s | _ => "" end.
Definition start : tstate := {| t_out := ""; t_par := false |}.

(** ** C39: which entries are listed *)

(** The options section of -h and -hh consists of one block for every entry that is to be listed, in the order of
    declaration; a block shows names, type and description.  Escape characters in texts and backslashes in names
    would be confused with markup. *)
Theorem C39_help_page : forall e r adv out, pr_format r = FHelp adv -> page e r = Ret out ->
  forallb (fun s => negb (scontains "027" s)) (flat_map (op_texts (pr_vars r)) (pr_ops r)) = true ->
  forallb no_backslash (flat_map op_names (pr_ops r)) = true ->
  exists before blocks after,
    out = before +s+ nl +s+ heading (pe_tty e) "OPTIONS" +s+ nl +s+ sconcat blocks
          +s+ nl +s+ "  " +s+ heading (pe_tty e) "Common options" +s+ nl +s+ after
    /\ Forall2 (fun o b => entry_words terminal_view o (words (drop_sgr b))) (filter (listed adv) (pr_ops r)) blocks.
Proof. exact help_entries_lemma. Qed.
Print Assumptions C39_help_page.

(** the same for exports; full statement: [on_exports] instead of [listed false] (refuted below) *)
Theorem C39_html_page_partial : forall e r out, pr_format r = FHtml -> page e r = Ret out ->
  forallb html_free (flat_map (op_texts (pr_vars r)) (pr_ops r)) = true ->
  forallb no_backslash (flat_map op_names (pr_ops r)) = true ->
  exists before blocks closing after,
    out = before +s+ "<h2>Options</h2>" +s+ nl +s+ sconcat blocks +s+ closing +s+ "<h3>Common options</h3>" +s+ nl +s+ after
    /\ words (browser_shows closing) = []
    /\ Forall2 (fun o b => entry_words html_view o (words (browser_shows b))) (filter (listed false) (pr_ops r)) blocks.
Proof. exact html_entries_lemma. Qed.
Print Assumptions C39_html_page_partial.

Theorem C39_man_page_partial : forall e r out, pr_format r = FMan -> page e r = Ret out ->
  forallb one_line (flat_map (op_texts (pr_vars r)) (pr_ops r)) = true ->
  forallb no_request (pr_ops r) = true ->
  forallb no_backslash (flat_map op_names (pr_ops r)) = true ->
  exists before blocks after,
    out = before +s+ ".SH OPTIONS" +s+ nl +s+ sconcat blocks +s+ ".SS Common options" +s+ nl +s+ after
    /\ Forall2 (fun o b => entry_words man_view o (man_words b)) (filter (listed false) (pr_ops r)) blocks.
Proof. exact man_entries_lemma. Qed.
Print Assumptions C39_man_page_partial.

(** tool descriptions list everything that is not hidden *)
Theorem C39_tool_description : forall tags r, (forall c t, In t (tags c) -> t <> "advanced" /\ t <> "required") -> exists l,
  innermost (ti_params (tool_info_of tags r)) (List.tl (pr_executable r)) l
  /\ Forall2 tdl_entry (filter is_positional (pr_ops r) ++ filter on_tdl (pr_ops r)) l.
Proof. intros tags r H. exact (tdl_page_entries tags H r). Qed.
Print Assumptions C39_tool_description.

(** an entry that is not listed leaves no trace on the page, whatever its texts *)
Theorem C39_not_listed : forall e r, match pr_format r with FHelp _ | FHtml | FMan => True | _ => False end ->
  let advanced := match pr_format r with FHelp adv => adv | _ => false end in
  page e r = page e (with_ops r (filter (fun o => is_positional o || listed advanced o) (pr_ops r))).
Proof. exact unlisted_lemma. Qed.
Print Assumptions C39_not_listed.

(** config.hpp and parser.hpp: "When information are exported with --export-help, advanced options are always shown" *)
Theorem C39_export_refuted : exists e r o, In o (pr_ops (r FHtml)) /\ on_exports o = true /\
  (forall f, pr_ops (r f) = pr_ops (r FHtml) /\ pr_format (r f) = f) /\
  shows (words (browser_shows (out_of (page e (r FHtml))))) "--list" = false /\
  shows (man_words (out_of (page e (r FMan)))) "--list" = false /\
  shows (words (out_of (page e (r (FHelp true))))) "--list" = true.
Proof.
  exists (env true false 80), (fun f => request f app_meta app_ops vars0), (OpDecl (DOption 1 (ListOf int32) (described "Numbers." (advanced (cfg nul "list"))))).
  split; [cbn; auto|]. split; [reflexivity|]. split; [split; reflexivity|]. vm_compute. auto.
Qed.
Print Assumptions C39_export_refuted.

Example C39_case : forall tty adv, let r := request (FHelp adv) app_meta app_ops vars0 in
  (exists out, page (env false tty 80) r = Ret out) /\
  forallb (fun s => negb (scontains "027" s)) (flat_map (op_texts (pr_vars r)) (pr_ops r)) = true /\
  forallb no_backslash (flat_map op_names (pr_ops r)) = true /\
  List.length (filter (listed adv) (pr_ops r)) = (if adv then 7 else 5) /\ List.length (pr_ops r) = 9.
Proof. intros [] []; cbn zeta; (split; [eexists; vm_compute; reflexivity|]); vm_compute; auto. Qed.
Example C39_case_html : let r := request FHtml app_meta app_ops vars0 in
  (exists out, page (env false false 80) r = Ret out) /\
  forallb html_free (flat_map (op_texts (pr_vars r)) (pr_ops r)) = true.
Proof. split; [eexists; vm_compute; reflexivity|reflexivity]. Qed.
Example C39_case_man : let r := request FMan app_meta app_ops vars0 in
  (exists out, page (env false false 80) r = Ret out) /\ forallb no_request (pr_ops r) = true /\
  forallb one_line (flat_map (op_texts (pr_vars r)) (pr_ops r)) = true.
Proof. split; [eexists; vm_compute; reflexivity|split; reflexivity]. Qed.
Example C39_case_tdl : exists l, innermost (ti_params (tool_info_of (fun _ => []) (request (FTdl true) app_meta app_ops vars0))) [] l /\
  map nd_name l = ["positional_0"; "int"; "list"; ""].
Proof. eexists. split; [constructor|reflexivity]. Qed.

(** ** C40: wrapping *)

(** Full statement: for all texts; refuted below for null characters and for undocumented markup. *)
Theorem C40_wrapping_partial : forall ndebug L text tab st, forallb closed (words (until_nul text)) = true ->
  exists out, print_text ndebug false L text tab st = ({| t_out := t_out st +s+ out; t_par := t_par st |}, Ret tt)
    /\ words out = words (strip (until_nul text))
    /\ (documented text = true -> Forall (line_fits L) (lines (spaces tab +s+ out))).
Proof. intros ndebug L text tab st H. rewrite <- tokens_words in H. exact (print_text_layout ndebug L text tab st H). Qed.
Print Assumptions C40_wrapping_partial.

(** on a terminal, the same text up to the sequences that switch fonts *)
Theorem C40_terminal_partial : forall ndebug L text tab st, forallb closed (words (until_nul text)) = true -> scontains "027" text = false ->
  exists out shown, print_text ndebug true L text tab st = ({| t_out := t_out st +s+ out; t_par := t_par st |}, Ret tt)
    /\ print_text ndebug false L text tab st = ({| t_out := t_out st +s+ shown; t_par := t_par st |}, Ret tt)
    /\ drop_sgr out = shown.
Proof. intros ndebug L text tab st H. rewrite <- tokens_words in H. exact (print_text_tty ndebug L text tab st H). Qed.
Print Assumptions C40_terminal_partial.

(** on a screen of the given width (0: unknown), the lines are at most that wide less two columns for widths from 40 to 120;
    narrower screens are treated like one of 40, wider ones like one of 120, unknown ones like one of 80 columns *)
Definition usable (width : nat) : nat :=
  match width with
  | 0 => 78
  | _ => if Nat.ltb width 40 then 38 else if Nat.leb width 120 then width - 2 else 118
  end.
Theorem C40_screen_partial : forall ndebug width text tab st, forallb closed (words text) = true -> no_nul text = true -> documented text = true ->
  exists out, print_text ndebug false (layout_of width) text tab st = ({| t_out := t_out st +s+ out; t_par := t_par st |}, Ret tt)
    /\ words out = words (strip text)
    /\ forall l, In l (lines (spaces tab +s+ out)) -> String.length l <= usable width \/ List.length (words l) <= 1.
Proof. exact print_text_screen. Qed.
Print Assumptions C40_screen_partial.

Definition long_text : string := "one \fBtwo\fP three four \- five six seven aaaaaaaaaaaaaaaaaaaaaaaaaaaaaaaaaaaaaaaaaaaaaaaaaa eight".
Example C40_case : documented long_text = true /\ forallb closed (words (until_nul long_text)) = true /\
  lines (t_out (fst (print_text true false (layout_of 40) long_text 4 start))) =
  ["one two three four - five six"; "    seven"; "    aaaaaaaaaaaaaaaaaaaaaaaaaaaaaaaaaaaaaaaaaaaaaaaaaa"; "    eight"; ""].
Proof. vm_compute. auto. Qed.

Theorem C40_null_refuted : exists text, words (strip text) = ["kept" +s+ str1 nul; "lost"] /\
  forall ndebug tty, t_out (fst (print_text ndebug tty (layout_of 80) text 4 start)) = "kept" +s+ nl.
Proof. exists ("kept" +s+ str1 nul +s+ " lost"). split; [reflexivity|]. intros [] []; reflexivity. Qed.
Print Assumptions C40_null_refuted.

(** undocumented markup: 47 columns on a screen with 38 *)
Theorem C40_width_refuted : exists text l, closed text = true /\ screen_width (layout_of 40) = 38 /\
  In l (lines (t_out (fst (print_text true false (layout_of 40) text 4 start)))) /\ String.length l = 47 /\ List.length (words l) = 3.
Proof.
  exists "\\a\\b\\c\\d\\e \\a\\b\\c\\d\\e \\a\\b\\c\\d\\e \\a\\b\\c\\d\\e", "\\a\\b\\c\\d\\e \\a\\b\\c\\d\\e \\a\\b\\c\\d\\e".
  vm_compute. auto.
Qed.
Print Assumptions C40_width_refuted.

(** parts of the page that are not wrapped at all: the header, titles and terms *)
Theorem C40_unwrapped_refuted : exists r l, In l (lines (out_of (page (env true false 40) r))) /\ List.length (words l) = 10 /\ String.length l = 53.
Proof.
  exists (request (FHelp false) (meta_of "app") [OpListItem "1234 1234 1234 1234 1234 1234 1234 1234 1234 1234" "d" false] vars0).
  exists "    1234 1234 1234 1234 1234 1234 1234 1234 1234 1234". vm_compute. auto 20.
Qed.
Print Assumptions C40_unwrapped_refuted.

(** ** C41: width *)

Theorem C41_width_partial : forall ndebug s, documented s = true -> exists out, to_text ndebug false s = Ret out /\ text_width s = String.length out.
Proof.
  intros ndebug s H. exists (strip s). split; [apply to_text_closed, documented_closed, H|apply width_documented, H].
Qed.
Print Assumptions C41_width_partial.

Example C41_case : documented "\fBa\fP\-\fIbc\fP" = true /\ text_width "\fBa\fP\-\fIbc\fP" = 4 /\ to_text true false "\fBa\fP\-\fIbc\fP" = Ret "a-bc".
Proof. vm_compute. auto. Qed.

(** too small and too large for undocumented uses of the backslash *)
Theorem C41_small_refuted : exists s out, to_text true false s = Ret out /\ text_width s < String.length out.
Proof. exists "\\". eexists. split; [reflexivity|vm_compute; lia]. Qed.
Print Assumptions C41_small_refuted.
Theorem C41_large_refuted : exists s out, to_text true false s = Ret out /\ text_width s > String.length out.
Proof. exists "\f\\fB". eexists. split; [reflexivity|vm_compute; lia]. Qed.
Print Assumptions C41_large_refuted.

(** ** C42: list items *)

(** Full statement: for all terms (refuted below for terms with markup). *)
Theorem C42_plain_terms_partial : forall ndebug tty width k d out par,
  no_backslash k = true -> one_line k = true -> column out = 0 -> forallb closed (words (until_nul d)) = true ->
  exists gap rest,
    print_list_item ndebug tty (layout_of width) k d {| t_out := out; t_par := par |} =
      ({| t_out := out +s+ (if par then nl else "") +s+ spaces 4 +s+ k +s+ gap +s+ rest; t_par := false |}, Ret tt)
    /\ column (out +s+ (if par then nl else "") +s+ spaces 4 +s+ k +s+ gap) = 10
    /\ words gap = [] /\ (one_line gap = true <-> String.length k <= 4).
Proof. intros ndebug tty width k d out par H1 H2 H3 H. rewrite <- tokens_words in H. exact (list_item_layout ndebug tty width k d out par H1 H2 H3 H). Qed.
Print Assumptions C42_plain_terms_partial.

(** terms with at least five characters including markup, e.g. all names of options: a new line *)
Theorem C42_long_terms_partial : forall ndebug tty width k d out par,
  closed k = true -> 5 <= String.length k -> forallb closed (words (until_nul d)) = true ->
  exists term rest,
    print_list_item ndebug tty (layout_of width) k d {| t_out := out; t_par := par |} =
      ({| t_out := out +s+ (if par then nl else "") +s+ spaces 4 +s+ term +s+ nl +s+ spaces 10 +s+ rest; t_par := false |}, Ret tt)
    /\ to_text ndebug tty k = Ret term.
Proof. intros ndebug tty width k d out par H1 H2 H. rewrite <- tokens_words in H. exact (long_term_layout ndebug tty width k d out par H1 H2 H). Qed.
Print Assumptions C42_long_terms_partial.

Theorem C42_option_names : forall s l t, Ascii.eqb s nul = false \/ is_empty l = false -> 5 <= String.length (prep_id s l +s+ " " +s+ type_info t).
Proof. intros s l t H. rewrite length_app_s. pose proof (prep_length s l H). lia. Qed.
Print Assumptions C42_option_names.

Example C42_case : column ("text" +s+ nl) = 0 /\ lines (t_out (fst (print_list_item true false (layout_of 80) "-ab" "d e" start))) = ["    -ab   d e"; ""] /\
  lines (t_out (fst (print_list_item true false (layout_of 80) "-abcd" "d e" start))) = ["    -abcd"; "          d e"; ""].
Proof. vm_compute. auto. Qed.

Theorem C42_column_refuted : exists k d, documented k = true /\ lines (t_out (fst (print_list_item true false (layout_of 80) k d start))) = ["    -a   desc"; ""].
Proof. exists "\-a", "desc". vm_compute. auto. Qed.
Print Assumptions C42_column_refuted.
Theorem C42_new_line_refuted : exists k d, documented k = true /\ String.length (strip k) = 2 /\
  lines (t_out (fst (print_list_item true false (layout_of 80) k d start))) = ["    -a"; "          desc"; ""].
Proof. exists "\fB-a\fP", "desc". vm_compute. auto. Qed.
Print Assumptions C42_new_line_refuted.
(** without description the line is not ended: the next item continues it *)
Theorem C42_no_description_refuted : exists l, l = [OpDecl (DFlag 2 (described "" (cfg "a" ""))); OpDecl (DFlag 3 (described "desc" (cfg "b" "")))] /\
  In "              -b" (lines (out_of (page (env true false 80) (request (FHelp false) (meta_of "app") l vars0)))).
Proof. eexists. split; [reflexivity|]. vm_compute. auto 20. Qed.
Print Assumptions C42_no_description_refuted.

(** ** C43: XML *)

Theorem C43_escape : forall s, xml_unescape (xml_escape s) = s /\ xml_text (xml_escape s) = true.
Proof. intros s. split; [apply xml_round_trip|apply xml_text_escape]. Qed.
Print Assumptions C43_escape.

Example C43_case : xml_escape "<a href=""x"">&amp;'" = "&lt;a href=&quot;x&quot;&gt;&amp;amp;&apos;".
Proof. reflexivity. Qed.

(** ** C44: nesting *)

(** Full statement: without the hypotheses on texts, see below. *)
Theorem C44_nested_partial : forall e r, pr_format r = FHtml -> has_commands (pr_info r) = true -> forallb neat (page_texts r) = true ->
  exists out, page e r = Ret out /\ well_nested out.
Proof. exact html_page_nested. Qed.
Print Assumptions C44_nested_partial.

Example C44_case : has_commands app_meta = true /\ forallb neat (page_texts (request FHtml app_meta app_ops vars0)) = true /\
  well_nested (out_of (page (env true false 80) (request FHtml app_meta app_ops vars0))).
Proof. split; [reflexivity|]. split; [reflexivity|]. vm_compute. reflexivity. Qed.

(** texts with tags, or with markup that is not ended *)
Theorem C44_tags_refuted : exists r out, pr_format r = FHtml /\ page (env true false 80) r = Ret out /\ ~ well_nested out.
Proof.
  exists (request FHtml (meta_of "app") [OpLine "if a < b" false false] vars0). eexists. split; [reflexivity|]. split; [vm_compute; reflexivity|].
  intros H. vm_compute in H. discriminate.
Qed.
Print Assumptions C44_tags_refuted.
Theorem C44_unclosed_refuted : exists r out, pr_format r = FHtml /\ page (env true false 80) r = Ret out /\ ~ well_nested out.
Proof.
  exists (request FHtml (meta_of "app") [OpLine "\fBbold" false false] vars0). eexists. split; [reflexivity|]. split; [vm_compute; reflexivity|].
  intros H. vm_compute in H. discriminate.
Qed.
Print Assumptions C44_unclosed_refuted.

(** ** C45: literal texts *)

(** Full statement: without the last two hypotheses *)
Theorem C45_literal_partial : forall ndebug s out, to_html ndebug s = Ret out -> scontains "<" s = false -> scontains "&" s = false ->
  browser_shows out = strip s.
Proof. exact to_html_shows. Qed.
Print Assumptions C45_literal_partial.

Example C45_case : exists out, to_html true "\fBa > b\fP \- ""c""" = Ret out /\ browser_shows out = "a > b - ""c""".
Proof. eexists. split; reflexivity. Qed.

Theorem C45_special_refuted : exists s1 s2 out1 out2, to_html true s1 = Ret out1 /\ browser_shows out1 <> strip s1 /\
  to_html true s2 = Ret out2 /\ browser_shows out2 <> strip s2.
Proof. exists "vector<int>", "&lt;". do 2 eexists. repeat split; vm_compute; try reflexivity; discriminate. Qed.
Print Assumptions C45_special_refuted.

(** only the title element is escaped *)
Theorem C45_title : forall e r out, pr_format r = FHtml -> page e r = Ret out ->
  exists before after, out = before +s+ "<title>" +s+ xml_escape (m_app_name (pr_info r)) +s+ " &mdash; " +s+ xml_escape (m_short_description (pr_info r))
    +s+ "</title>" +s+ nl +s+ after.
Proof. exact html_title_lemma. Qed.
Print Assumptions C45_title.

(** ** C46: printing pages never fails *)

(** Full statement: without hypotheses on the texts *)
Theorem C46_help_page_partial : forall e r adv, pr_format r = FHelp adv -> has_commands (pr_info r) = true ->
  forallb intact (page_texts r) = true -> exists out, page e r = Ret out.
Proof. exact help_page_succeeds. Qed.
Print Assumptions C46_help_page_partial.
Theorem C46_short_help_partial : forall e r, pr_format r = FShortHelp -> has_commands (pr_info r) = true ->
  forallb intact (map to_blank (m_synopsis (pr_info r)) ++ map from_blank (m_synopsis (pr_info r))) = true -> exists out, page e r = Ret out.
Proof. exact short_help_succeeds. Qed.
Print Assumptions C46_short_help_partial.
Theorem C46_version_partial : forall e r, pr_format r = FVersion ->
  forallb intact [m_app_name (pr_info r); m_version (pr_info r); m_date (pr_info r); m_url (pr_info r)] = true -> exists out, page e r = Ret out.
Proof. exact version_page_succeeds. Qed.
Print Assumptions C46_version_partial.
Theorem C46_man_page_partial : forall e r, pr_format r = FMan -> has_commands (pr_info r) = true -> exists out, page e r = Ret out.
Proof. exact man_page_succeeds. Qed.
Print Assumptions C46_man_page_partial.
Theorem C46_copyright : forall e r, pr_format r = FCopyright -> exists out, page e r = Ret out.
Proof. exact copyright_page_succeeds. Qed.
Print Assumptions C46_copyright.
(** plain text and the documented markup are fine; quoted default values are fine whatever they contain *)
Theorem C46_documented : forall s, documented s = true -> intact s = true.
Proof. exact intact_documented. Qed.
Print Assumptions C46_documented.
Theorem C46_quoted : forall s, intact (quoted s) = true.
Proof. exact intact_quoted. Qed.
Print Assumptions C46_quoted.

Example C46_case : has_commands app_meta = true /\ forallb intact (page_texts (request (FHelp true) app_meta app_ops vars0)) = true.
Proof. split; reflexivity. Qed.

(** a synopsis consisting of the program's name only: std::out_of_range *)
Theorem C46_synopsis_refuted : exists m, m_synopsis m = ["app"] /\ forall f, In f [FHelp false; FHelp true; FShortHelp; FHtml; FMan] ->
  page (env true false 80) (request f m [] vars0) = Throw (Exn KStdOutOfRange "basic_string::insert").
Proof.
  exists (with_synopsis (meta_of "app") ["app"]). split; [reflexivity|]. intros f Hf. cbn [In] in Hf.
  repeat destruct Hf as [<-|Hf]; try (vm_compute; reflexivity). destruct Hf.
Qed.
Print Assumptions C46_synopsis_refuted.
(** a backslash before a blank, e.g. in a Windows path: reads beyond the end of the word (assertion without NDEBUG) *)
Theorem C46_backslash_refuted : exists s, s = "Use C:\ as root." /\ forall f, In f [FHelp false; FHelp true] ->
  page (env true false 80) (request f (with_description (meta_of "app") [s]) [] vars0) = UB /\
  page (env false false 80) (request f (with_description (meta_of "app") [s]) [] vars0) = AssertFail.
Proof.
  eexists. split; [reflexivity|]. intros f Hf. cbn [In] in Hf. repeat destruct Hf as [<-|Hf]; try (vm_compute; auto). destruct Hf.
Qed.
Print Assumptions C46_backslash_refuted.
(** a char option whose default is a backslash *)
Theorem C46_default_refuted : exists vs l, vs 0 = VInt 92 /\ l = [OpDecl (DOption 0 (Scalar TChar) (cfg "c" "char"))] /\
  page (env true false 80) (request (FHelp false) (meta_of "app") l vs) = UB.
Proof. exists (fun _ => VInt 92). eexists. split; [reflexivity|]. split; [reflexivity|]. vm_compute. reflexivity. Qed.
Print Assumptions C46_default_refuted.
(** HTML: markup ended that was not begun *)
Theorem C46_html_refuted : exists s, closed s = true /\
  page (env true false 80) (request FHtml (with_description (meta_of "app") [s]) [] vars0) = UB.
Proof. exists "a\fP". split; [reflexivity|]. vm_compute. reflexivity. Qed.
Print Assumptions C46_html_refuted.

(** ** C57: positional options *)

Theorem C57_numbering : forall e r adv out, pr_format r = FHelp adv -> page e r = Ret out -> filter is_positional (pr_ops r) <> [] ->
  forallb (fun s => negb (scontains "027" s)) (flat_map (op_texts (pr_vars r)) (pr_ops r)) = true ->
  forallb no_backslash (flat_map op_names (pr_ops r)) = true ->
  exists before blocks after,
    out = before +s+ nl +s+ heading (pe_tty e) "POSITIONAL ARGUMENTS" +s+ nl +s+ sconcat blocks
          +s+ nl +s+ heading (pe_tty e) "OPTIONS" +s+ nl +s+ after
    /\ numbered (fun n o b => argument_words n o (words (drop_sgr b))) 1 (filter is_positional (pr_ops r)) blocks.
Proof. exact help_page_positionals. Qed.
Print Assumptions C57_numbering.

Example C57_case : let r := request (FHelp false) app_meta (app_ops ++ [OpDecl (DPositional 5 (ListOf TString) (cfg nul ""))]) vars0 in
  List.length (filter is_positional (pr_ops r)) = 2 /\
  shows (words (out_of (page (env true false 80) r))) "ARGUMENT-1" = true /\ shows (words (out_of (page (env true false 80) r))) "ARGUMENT-2" = true.
Proof. vm_compute. auto. Qed.

(** ** C58: defaults *)

Theorem C58_default_partial : forall x t c (vs : store) v, c_default_message c = "" -> c_required c = false -> vs x = v ->
  exists d rest, option_info t (vs x) c = c_desc c +s+ " Default: " +s+ d +s+ rest
    /\ (rest = "" \/ exists r, rest = String "." r)
    /\ forall old, match t, v with
       | Scalar (TInt sg bits), VInt z => in_type sg bits z -> parse_elem (TInt sg bits) old d = POk v PSuccess
       | Scalar TBool, VBool _ => parse_elem TBool old d = POk v PSuccess
       | Scalar (TEnum name names), VEnum z => NoDup (map fst names) -> In z (map snd names) -> parse_elem (TEnum name names) old d = POk v PSuccess
       | Scalar TString, VStr s => d = quoted s
       | Scalar TPath, VPath s => d = quoted s
       | _, _ => True
       end.
Proof. exact default_shown_lemma. Qed.
Print Assumptions C58_default_partial.
Theorem C58_quotes : forall s rest, read_quoted (quote_body s +s+ String """" rest) "" = Some s.
Proof. intros s rest. exact (unquote_lemma s "" rest). Qed.
Print Assumptions C58_quotes.

Example C58_case : option_info (Scalar int32) (vars0 0) (cfg "i" "int") = "desc Default: 1" /\
  option_info (Scalar TString) (VStr "a""b\c") (cfg "s" "") = "desc Default: ""a\""b\\c""".
Proof. split; reflexivity. Qed.

(** a character is shown as itself but read as a number; the elements of lists of 8 bit integers likewise; the
    quotes around a path are not accepted *)
Theorem C58_char_refuted : option_info (Scalar TChar) (VInt 97) (cfg "c" "") = "desc Default: a" /\
  parse_elem TChar (VInt 97) "a" = POk (VInt 97) PError /\ parse_elem TChar (VInt 0) "97" = POk (VInt 97) PSuccess.
Proof. vm_compute. auto. Qed.
Print Assumptions C58_char_refuted.
Theorem C58_list_refuted : option_info (ListOf uint8) (VList [VInt 65; VInt 66]) (cfg "l" "") = "desc Default: [A, B]" /\
  parse_elem uint8 (VInt 0) "A" = POk (VInt 0) PError.
Proof. vm_compute. auto. Qed.
Print Assumptions C58_list_refuted.
Theorem C58_path_refuted : option_info (Scalar TPath) (VPath "dir") (cfg "p" "") = "desc Default: ""dir""" /\
  parse_elem TPath (VPath "dir") """dir""" = POk (VPath "dir") PError.
Proof. vm_compute. auto. Qed.
Print Assumptions C58_path_refuted.

(** ** C59: texts on man pages.  What holds: C39_man_page_partial. *)

(** a description starting with a period is taken for a request and not shown *)
Theorem C59_period_refuted : exists l, l = [OpDecl (DFlag 2 (described ".bam files are skipped" (cfg "s" "skip")))] /\
  let ws := man_words (out_of (page (env true false 80) (request FMan (meta_of "app") l vars0))) in
  shows ws "--skip" = true /\ shows ws "skipped" = false.
Proof. eexists. split; [reflexivity|]. vm_compute. auto. Qed.
Print Assumptions C59_period_refuted.
(** a required option without description but with a validator: ". Value must be ..." *)
Theorem C59_validator_refuted : exists l, l = [OpDecl (DOption 0 (Scalar int32) (explained "Value must be in range [1,5]." (required (described "" (cfg "i" "int")))))] /\
  let ws := man_words (out_of (page (env true false 80) (request FMan (meta_of "app") l vars0))) in
  shows ws "--int" = true /\ shows ws "range" = false.
Proof. eexists. split; [reflexivity|]. vm_compute. auto. Qed.
Print Assumptions C59_validator_refuted.

(** ** C60: command line identifiers in tool descriptions *)

Theorem C60_mapping_partial : forall tags r, ti_cli (tool_info_of tags r) =
  flat_map (fun o => match o with OpDecl (DOption _ _ c) => if c_hidden c then [] else [("--" +s+ c_long c, c_long c)] | _ => [] end) (pr_ops r).
Proof. exact tdl_cli_lemma. Qed.
Print Assumptions C60_mapping_partial.

Example C60_case : ti_cli (tool_info_of (fun _ => []) (request (FTdl true) app_meta app_ops vars0)) = [("--int", "int"); ("--list", "list")].
Proof. reflexivity. Qed.

(** short-only options are mapped to "--"; two of them cannot be told apart; flags are not mapped *)
Theorem C60_short_refuted : exists l, l = [OpDecl (DOption 0 (Scalar int32) (cfg "i" "")); OpDecl (DOption 4 (Scalar TString) (cfg "s" "")); OpDecl (DFlag 2 (cfg "a" "all"))] /\
  let ti := tool_info_of (fun _ => []) (request (FTdl true) app_meta l vars0) in
  map nd_name (ti_params ti) = [""; ""; "all"] /\ ti_cli ti = [("--", ""); ("--", "")].
Proof. eexists. split; [reflexivity|]. vm_compute. auto. Qed.
Print Assumptions C60_short_refuted.
(** advanced flags are not marked as such *)
Theorem C60_advanced_flag_refuted : exists l, l = [OpDecl (DFlag 2 (advanced (cfg "a" "all")))] /\
  map nd_tags (ti_params (tool_info_of (fun _ => []) (request (FTdl true) app_meta l vars0))) = [[]].
Proof. eexists. split; [reflexivity|]. reflexivity. Qed.
Print Assumptions C60_advanced_flag_refuted.

(** ** C65: the defaults in tool descriptions *)

(** Full statement: the value of every entry is that of the variable.  What holds instead for lists, enumerations, user types and
    paths is part of [tdl_default]; refuted below. *)
Theorem C65_defaults_partial : forall tags r, exists l,
  innermost (ti_params (tool_info_of tags r)) (List.tl (pr_executable r)) l
  /\ Forall2 (tdl_default (pr_vars r)) (filter is_positional (pr_ops r) ++ filter on_tdl (pr_ops r)) l.
Proof. exact tdl_defaults. Qed.
Print Assumptions C65_defaults_partial.

Example C65_case : let vs := set_var (set_var vars0 4 (VStr "a b")) 2 (VBool true) in
  map nd_value (ti_params (tool_info_of (fun _ => []) (request (FTdl true) app_meta
    [OpDecl (DOption 0 (Scalar int32) (cfg "i" "int")); OpDecl (DOption 4 (Scalar TString) (cfg "s" "str")); OpDecl (DFlag 2 (cfg "a" "all"));
     OpDecl (DPositional 5 (ListOf TString) (cfg nul ""))] vs))) =
  [TvStringList; TvInt 1; TvString "a b"; TvBool true].
Proof. vm_compute. reflexivity. Qed.

(** lists and enumerations are described as a boolean with value false *)
Theorem C65_list_refuted : exists l vs, l = [OpDecl (DOption 3 (ListOf int32) (cfg "l" "list"));
    OpDecl (DOption 6 (Scalar (TEnum "colour" [("red", 0%Z); ("green", 1%Z)])) (cfg "c" "colour"))] /\
  vs 3 = VList [VInt 1; VInt 2] /\ vs 6 = VEnum 1 /\
  map nd_value (ti_params (tool_info_of (fun _ => []) (request (FTdl true) app_meta l vs))) = [TvBool false; TvBool false].
Proof. eexists _, (set_var (set_var vars0 3 (VList [VInt 1; VInt 2])) 6 (VEnum 1)). split; [reflexivity|]. vm_compute. auto. Qed.
Print Assumptions C65_list_refuted.
(** the default of a path is described with quotes, which are not accepted on the command line *)
Theorem C65_path_refuted : exists l vs, l = [OpDecl (DOption 4 (Scalar TPath) (cfg "p" "path"))] /\ vs 4 = VPath "dir" /\
  map nd_value (ti_params (tool_info_of (fun _ => []) (request (FTdl true) app_meta l vs))) = [TvString """dir"""] /\
  parse_elem TPath (VPath "dir") """dir""" = POk (VPath "dir") PError.
Proof. eexists _, (set_var vars0 4 (VPath "dir")). split; [reflexivity|]. vm_compute. auto. Qed.
Print Assumptions C65_path_refuted.
