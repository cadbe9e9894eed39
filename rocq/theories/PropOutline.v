(** Properties of whole pages (C94). *)
From Verif Require Import Base StrLib Fs Values ValuesSpec Validators FormatParse Parser HelpBase HelpText HelpExport HelpSpec TdlSpec
  HelpProps PageSpec OutlineSpec OutlineProofs Samples HelpSamples.

Definition out_of (r : res string) : string := match r with Ret s => s | _ => "" end.

(** ** C94: the outline of a page decides all of its words *)

(** The terminal shows: name and short description, underlined; then the words of the parts of the outline, one after
    the other, and nothing else.  Escape characters in texts would be confused with those the page itself writes. *)
Theorem C94_help : forall e r adv out, pr_format r = FHelp adv -> page e r = Ret out ->
  no_escape (header_line (pr_info r)) = true -> forallb terminal_shows (outline (given (pe_tdl e)) adv r) = true ->
  exists n, (no_backslash (header_line (pr_info r)) = true -> n = String.length (header_line (pr_info r)))
  /\ words (drop_sgr out) = words (header_line (pr_info r)) ++ words (equal_signs n)
       ++ flat_map terminal_words (outline (given (pe_tdl e)) adv r).
Proof. exact help_page_says. Qed.
Print Assumptions C94_help.

Theorem C94_version : forall e r out, pr_format r = FVersion -> page e r = Ret out ->
  no_escape (header_line (pr_info r)) = true -> forallb terminal_shows (version_parts (pr_info r)) = true ->
  exists n, (no_backslash (header_line (pr_info r)) = true -> n = String.length (header_line (pr_info r)))
  /\ words (drop_sgr out) = words (header_line (pr_info r)) ++ words (equal_signs n) ++ flat_map terminal_words (version_parts (pr_info r)).
Proof. exact version_page_says. Qed.
Print Assumptions C94_version.

(** a program called without arguments *)
Theorem C94_short_help : forall e r out, pr_format r = FShortHelp -> page e r = Ret out ->
  no_escape (header_line (pr_info r)) = true -> forallb no_escape (synopsis_texts (pr_info r)) = true ->
  exists n, (no_backslash (header_line (pr_info r)) = true -> n = String.length (header_line (pr_info r)))
  /\ words (drop_sgr out) = words (header_line (pr_info r)) ++ words (equal_signs n)
       ++ flat_map terminal_words (map Text (synopsis_texts (pr_info r)) ++ [Text "Try -h or --help for more information."]).
Proof. exact short_page_says. Qed.
Print Assumptions C94_short_help.

(** A browser shows name, short description and the parts of the outline; the title in the head: [C45_title]. *)
Theorem C94_html : forall e r out, pr_format r = FHtml -> page e r = Ret out ->
  html_free (m_app_name (pr_info r)) = true -> html_free (m_short_description (pr_info r)) = true ->
  forallb browser_can_show (outline (given (pe_tdl e)) false r) = true ->
  exists before body, out = before +s+ "<body>" +s+ nl +s+ body
  /\ words (browser_shows body) = words (strip (m_app_name (pr_info r))) ++ words (strip (m_short_description (pr_info r)))
       ++ flat_map browser_words (outline (given (pe_tdl e)) false r).
Proof. exact html_body_says. Qed.
Print Assumptions C94_html.

(** The header line of a man page has title, section, date, name and version, title; man(1) shows name and short
    description and the parts of the outline. *)
Theorem C94_man : forall e r out, pr_format r = FMan -> page e r = Ret out ->
  forallb one_line [m_app_name (pr_info r); m_short_description (pr_info r); m_date (pr_info r); m_version (pr_info r); m_man_page_title (pr_info r)] = true ->
  m_app_name (pr_info r) <> "" -> is_request (m_app_name (pr_info r)) = false ->
  forallb manual_shows (outline (given (pe_tdl e)) false r) = true ->
  (exists rest, out = manual_header (pr_info r) +s+ nl +s+ rest)
  /\ roff_words out = "NAME" :: words (roff (m_app_name (pr_info r) +s+ " \- " +s+ m_short_description (pr_info r)))
       ++ flat_map manual_words (outline (given (pe_tdl e)) false r).
Proof. exact man_page_says. Qed.
Print Assumptions C94_man.

(** the copyright page, to the character *)
Theorem C94_copyright : forall e r, pr_format r = FCopyright ->
  forallb no_escape [m_app_name (pr_info r); m_long_copyright (pr_info r); m_short_copyright (pr_info r); pe_license e] = true ->
  exists out, page e r = Ret out /\ drop_sgr out = copyright_text (pr_info r) (pe_license e).
Proof. exact copyright_page_says. Qed.
Print Assumptions C94_copyright.

(** What is handed to the library that writes tool descriptions: the parameters are the positional arguments under the
    names positional_0, positional_1, ... and the options that are not hidden, with the explanations of the other pages. *)
Theorem C94_tool : forall e r cwl conv, pr_format r = FTdl cwl -> pe_tdl e = Some conv -> exists info params,
  page e r = Ret (conv cwl info +s+ (if cwl then nl else ""))
  /\ ti_name info = m_app_name (pr_info r) /\ ti_version info = m_version (pr_info r) /\ ti_docurl info = m_url (pr_info r)
  /\ ti_description info = sconcat (map (fun d => d +s+ nl) (m_description (pr_info r)))
  /\ ti_executable info = List.hd "" (pr_executable r)
  /\ innermost (ti_params info) (List.tl (pr_executable r)) params
  /\ map nd_name params = tool_names (pr_ops r) /\ map nd_description params = tool_texts (pr_vars r) (pr_ops r).
Proof. exact tool_page_says. Qed.
Print Assumptions C94_tool.

(** *** Cases *)

Definition story : meta :=
  {| m_app_name := "app"; m_version := "1.2.3"; m_short_description := "an application"; m_author := "Ada"; m_email := "ada@example.org"; m_date := "1843";
     m_url := "example.org"; m_short_copyright := "AL"; m_long_copyright := ""; m_citation := "doi"; m_man_page_title := "app";
     m_man_page_section := 1%N; m_description := ["Does \fBthings\fP."]; m_synopsis := ["app [-i \fIN\fP] FILE"]; m_examples := ["app x"] |}.
Definition asked (f : format) : page_request := request f story app_ops vars0.


Example C94_case_help : let o := out_of (page (env true true 80) (asked (FHelp false))) in
  forallb terminal_shows (outline false false (asked (FHelp false))) = true
  /\ words (drop_sgr o) = words "app - an application" ++ words (equal_signs 20) ++ words
       ("SYNOPSIS app [-i N] FILE DESCRIPTION Does things. POSITIONAL ARGUMENTS ARGUMENT-1 (std::string) The file. "
        +s+ "OPTIONS FIRST SECTION -i, --int (signed 32 bit integer) A number. Default: 1 More A line - of text. -b Be brief. "
        +s+ "Common options -h, --help Prints the help page. -hh, --advanced-help Prints the help page including advanced options. "
        +s+ "--version Prints the version information. --copyright Prints the copyright/license information. "
        +s+ "--export-help (std::string) Export the help page information. Value must be one of [html, man]. "
        +s+ "--version-check (bool) Whether to check for the newest app version. Default: true EXAMPLES app x "
        +s+ "VERSION Last update: 1843 app version: 1.2.3 Sharg version: 1.1.2-rc.1 URL example.org LEGAL app Copyright: AL Author: Ada Contact: ada@example.org "
        +s+ "SeqAn Copyright: 2006-2024 Knut Reinert, FU-Berlin; released under the 3-clause BSDL. In your academic works please cite: doi").
Proof. vm_compute. split; reflexivity. Qed.
(** with the advanced entries *)
Example C94_case_advanced :
  filter (fun p => match p with Entry _ d => negb (existsb (String.eqb d) (flat_map explanation (common_parts false true))) | _ => false end)
    (outline false true (asked (FHelp true)))
  = [Entry "\fBARGUMENT-1\fP (\fIstd::string\fP)" "The file."; Entry "\fB-i\fP, \fB--int\fP (\fIsigned 32 bit integer\fP)" "A number. Default: 1";
     Entry "\fB--list\fP (\fIList\fP of \fIsigned 32 bit integer\fP)" "Numbers. Default: [7, 8]"; Entry "\fB-b\fP" "Be brief."; Entry "key" "value"].
Proof. vm_compute. reflexivity. Qed.
Example C94_case_version : let o := out_of (page (env true true 80) (asked FVersion)) in
  forallb terminal_shows (version_parts story) = true
  /\ words (drop_sgr o) = words "app - an application" ++ words (equal_signs 20)
       ++ words "VERSION Last update: 1843 app version: 1.2.3 Sharg version: 1.1.2-rc.1 URL example.org".
Proof. vm_compute. split; reflexivity. Qed.
Example C94_case_short : words (drop_sgr (out_of (page (env true true 80) (asked FShortHelp))))
  = words "app - an application" ++ words (equal_signs 20) ++ words "app [-i N] FILE Try -h or --help for more information.".
Proof. vm_compute. reflexivity. Qed.
(** markup in the name: the line under it is then shorter than the text of the header *)
Example C94_case_markup : let m := with_description (meta_of "\fBapp\fP") [] in
  words (drop_sgr (out_of (page (env true true 80) (request FVersion m [] vars0)))) = words "\fBapp\fP === VERSION Last update: app version: Sharg version: 1.1.2-rc.1".
Proof. vm_compute. reflexivity. Qed.
Example C94_case_html : forallb browser_can_show (outline false false (asked FHtml)) = true
  /\ firstn 9 (flat_map browser_words (outline false false (asked FHtml))) = words "Synopsis app [-i N] FILE Description Does things. Positional"
  /\ match page (env true true 80) (asked FHtml) with Ret _ => True | _ => False end.
Proof. vm_compute. repeat split. Qed.
Example C94_case_man : let o := out_of (page (env true true 80) (asked FMan)) in
  forallb manual_shows (outline false false (asked FMan)) = true
  /\ manual_header story = ".TH APP 1 ""1843"" ""app 1.2.3"" ""app"""
  /\ firstn 9 (roff_words o) = words "NAME app - an application SYNOPSIS app [-i N]".
Proof. vm_compute. repeat split. Qed.
Example C94_case_copyright : copyright_text story "licence" =
  equal_signs 80 +s+ nl +s+ "Copyright information for app:" +s+ nl +s+ minus_signs 80 +s+ nl
  +s+ "app full copyright information not available. Displaying short copyright information instead:" +s+ nl +s+ "AL" +s+ nl
  +s+ equal_signs 80 +s+ nl +s+ "This program contains SeqAn code licensed under the following terms:" +s+ nl +s+ minus_signs 80 +s+ nl
  +s+ "licence" +s+ nl
  /\ drop_sgr (out_of (page (env true true 80) (asked FCopyright))) = copyright_text story "licence".
Proof. vm_compute. split; reflexivity. Qed.
Example C94_case_tool : tool_names app_ops = ["positional_0"; "int"; "list"; ""]
  /\ tool_texts vars0 app_ops = ["The file."; "A number. Default: 1"; "Numbers. Default: [7, 8]"; "Be brief."].
Proof. vm_compute. split; reflexivity. Qed.
