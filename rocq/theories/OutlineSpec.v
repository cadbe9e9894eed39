(** Vocabulary: what a page says, part by part, and how the kinds of pages show the parts (C94). *)
From Verif Require Import Base Values FormatParse Parser HelpSpec PageSpec.

(** a page is a sequence of titles, paragraphs, lines with a label in bold, and entries with a term and its explanation *)
Inductive part :=
| Title (s : string)
| Subtitle (s : string)
| Text (s : string)
| Labelled (label text : string)
| Entry (term text : string).

Definition given {A} (o : option A) : bool := match o with Some _ => true | None => false end.
(** a section without content has no title *)
Definition section (title : string) (l : list part) : list part := match l with [] => [] | _ => Title title :: l end.
Definition unless_empty (s : string) (p : part) : list part := if is_empty s then [] else [p].

(** ** The parts *)

Definition subcommand_parts (m : meta) (subs : list string) : list part :=
  match subs with
  | [] => []
  | first :: _ =>
      [Title "Subcommands"; Text "This program must be invoked with one of the following subcommands:"]
      ++ map (fun s => Text ("- " +s+ bold s)) subs
      ++ [Text ("See the respective help page for further details (e.g. by calling " +s+ m_app_name m +s+ " " +s+ first +s+ " -h).");
          Text ("The following options belong to the top-level parser and need to be specified " +s+ bold "before"
                +s+ " the subcommand key word. Every argument after the subcommand key word is passed on to the corresponding sub-parser.")]
  end.

Fixpoint argument_parts (n : nat) (vs : store) (l : list op) : list part :=
  match l with
  | [] => []
  | o :: l' =>
      match o with
      | OpDecl (DPositional x t c) =>
          Entry (bold ("ARGUMENT-" +s+ nat_to_string n) +s+ " " +s+ marked_type t)
                (c_desc c +s+ (match t with ListOf _ => " Default: " +s+ value_text t (vs x) | Scalar _ => "" end) +s+ checked_text c)
          :: argument_parts (S n) vs l'
      | _ => argument_parts n vs l'
      end
  end.

Definition option_part (vs : store) (o : op) : list part :=
  match o with
  | OpDecl (DOption x t c) =>
      [Entry (marked_names c +s+ " " +s+ marked_type t) (c_desc c +s+ default_text t (vs x) c +s+ checked_text c)]
  | OpDecl (DFlag _ c) => [Entry (marked_names c) (c_desc c)]
  | OpDecl (DPositional _ _ _) => []
  | OpSection s _ => [Title s]
  | OpSubsection s _ => [Subtitle s]
  | OpLine s _ _ => [Text s]
  | OpListItem k d _ => [Entry k d]
  end.

Definition common_parts (tdl dev : bool) : list part :=
  [Subtitle "Common options";
   Entry (bold "-h" +s+ ", " +s+ bold "--help") "Prints the help page.";
   Entry (bold "-hh" +s+ ", " +s+ bold "--advanced-help") "Prints the help page including advanced options.";
   Entry (bold "--version") "Prints the version information.";
   Entry (bold "--copyright") "Prints the copyright/license information.";
   Entry (bold "--export-help" +s+ " (std::string)")
         ("Export the help page information. Value must be one of " +s+ (if tdl then "[html, man, ctd, cwl]" else "[html, man]") +s+ ".")]
  ++ (if dev then [Entry (bold "--version-check" +s+ " (bool)") "Whether to check for the newest app version. Default: true"] else []).

Definition version_parts (m : meta) : list part :=
  [Title "Version"; Labelled "Last update:" (m_date m); Labelled (m_app_name m +s+ " version:") (m_version m);
   Labelled "Sharg version:" "1.1.2-rc.1"]
  ++ section "Url" (unless_empty (m_url m) (Text (m_url m))).

Definition legal_parts (m : meta) : list part :=
  if is_empty (m_short_copyright m) && is_empty (m_long_copyright m) && is_empty (m_citation m) && is_empty (m_author m) && is_empty (m_email m)
  then []
  else [Title "Legal"]
       ++ unless_empty (m_short_copyright m) (Labelled (m_app_name m +s+ " Copyright:") (m_short_copyright m))
       ++ unless_empty (m_author m) (Labelled "Author:" (m_author m))
       ++ unless_empty (m_email m) (Labelled "Contact:" (m_email m))
       ++ [Labelled "SeqAn Copyright:" "2006-2024 Knut Reinert, FU-Berlin; released under the 3-clause BSDL."]
       ++ unless_empty (m_citation m) (Labelled "In your academic works please cite:" (m_citation m))
       ++ unless_empty (m_long_copyright m) (Text "For full copyright and/or warranty information see --copyright.").

(** the whole page, without its header; [advanced]: with the advanced entries *)
Definition outline (tdl advanced : bool) (r : page_request) : list part :=
  let m := pr_info r in
  section "Synopsis" (map Text (synopsis_texts m))
  ++ section "Description" (map Text (m_description m))
  ++ subcommand_parts m (pr_subcommands r)
  ++ section "Positional Arguments" (argument_parts 1 (pr_vars r) (pr_ops r))
  ++ [Title "Options"] ++ flat_map (option_part (pr_vars r)) (filter (listed advanced) (pr_ops r))
  ++ common_parts tdl (pr_dev r)
  ++ section "Examples" (map Text (m_examples m))
  ++ version_parts m ++ legal_parts m.

(** ** The words of a part *)

(** on a terminal *)
Definition terminal_words (p : part) : list string :=
  match p with
  | Title s => words (upper_case s)
  | Subtitle s => words s
  | Text s => words (strip (until_nul s))
  | Labelled l s => words l ++ words (strip (until_nul s))
  | Entry k d => words (strip k) ++ words (strip (until_nul d))
  end.
(** in a browser *)
Definition browser_words (p : part) : list string :=
  match p with
  | Title s | Subtitle s | Text s => words (strip s)
  | Labelled l s => words l ++ words (strip s)
  | Entry k d => words (strip k) ++ words (strip d)
  end.

(** a line as the formatter of man pages shows it: "\fB", "\fI", "\fP" and "\fR" switch fonts, "\-" is a hyphen *)
Fixpoint roff (s : string) : string :=
  match s with
  | EmptyString => EmptyString
  | String c s1 =>
      if Ascii.eqb c "\" then
        match s1 with
        | EmptyString => s
        | String d s2 =>
            if Ascii.eqb d "-" then String "-" (roff s2)
            else if Ascii.eqb d "f" then
              match s2 with
              | EmptyString => s
              | String e s3 => if existsb (Ascii.eqb e) ["B"; "I"; "P"; "R"]%char then roff s3
                               else String c (String d (String e (roff s3)))
              end
            else String c (String d (roff s2))
        end
      else String c (roff s1)
  end.
Definition roff_words (s : string) : list string :=
  flat_map (fun l => words (roff (if is_request l then title_of l else l))) (lines s).
Definition manual_words (p : part) : list string :=
  match p with
  | Title s => words (roff (upper_case s))
  | Subtitle s | Text s => words (roff s)
  | Labelled l s => words l ++ words (roff s)
  | Entry k d => words (roff k) ++ words (roff d)
  end.

(** ** Texts that a page can show *)

Definition no_escape (s : string) : bool := negb (scontains "027" s).
Definition plain_label (s : string) : bool := no_escape s && no_backslash s && no_nul s.
Definition terminal_shows (p : part) : bool :=
  match p with
  | Title s | Subtitle s | Text s => no_escape s
  | Labelled l s => plain_label l && no_escape s
  | Entry k d => no_escape k && no_escape d
  end.
Definition browser_can_show (p : part) : bool :=
  match p with
  | Title s | Subtitle s | Text s => html_free s
  | Labelled l s => no_backslash l && html_free l && html_free s
  | Entry k d => html_free k && html_free d
  end.
Definition manual_shows (p : part) : bool :=
  match p with
  | Title s | Subtitle s => one_line s
  | Text s => one_line s && negb (is_request s)
  | Labelled l s => no_backslash l && one_line l && one_line s
  | Entry k d => one_line k && one_line d && negb (is_request k) && negb (is_request d)
  end.

(** ** Headers *)

(** the first line of the pages for the terminal, underlined *)
Definition header_line (m : meta) : string :=
  m_app_name m +s+ (if is_empty (m_short_description m) then "" else " - " +s+ m_short_description m).
Fixpoint equal_signs (n : nat) : string := match n with O => "" | S k => String "=" (equal_signs k) end.
(** the first line of a man page *)
Definition lower_case (s : string) : string :=
  of_chars (map (fun c => if is_upper c then ascii_of_nat (nat_of_ascii c + 32) else c) (chars s)).
Definition in_quotes (s : string) : string := """" +s+ s +s+ """".
Definition manual_header (m : meta) : string :=
  ".TH " +s+ upper_case (m_app_name m) +s+ " " +s+ nat_to_string (N.to_nat (m_man_page_section m)) +s+ " " +s+ in_quotes (m_date m) +s+ " "
  +s+ in_quotes (lower_case (m_app_name m) +s+ " " +s+ m_version m) +s+ " " +s+ in_quotes (m_man_page_title m).

(** ** The copyright page *)

Fixpoint minus_signs (n : nat) : string := match n with O => "" | S k => String "-" (minus_signs k) end.
(** a title between two lines *)
Definition between_rules (s : string) : string := equal_signs 80 +s+ nl +s+ s +s+ nl +s+ minus_signs 80 +s+ nl.
Definition copyright_text (m : meta) (license : string) : string :=
  between_rules ("Copyright information for " +s+ m_app_name m +s+ ":")
  +s+ (if negb (is_empty (m_long_copyright m)) then m_long_copyright m +s+ nl
       else if negb (is_empty (m_short_copyright m)) then
         m_app_name m +s+ " full copyright information not available. Displaying short copyright information instead:" +s+ nl
         +s+ m_short_copyright m +s+ nl
       else m_app_name m +s+ " copyright information not available." +s+ nl)
  +s+ between_rules "This program contains SeqAn code licensed under the following terms:"
  +s+ license +s+ nl.

(** ** Tool descriptions *)

Definition explanation (p : part) : list string := match p with Entry _ d => [d] | _ => [] end.
(** options and flags that are not hidden *)
Definition in_tool (o : op) : bool :=
  match o with OpDecl (DOption _ _ c) | OpDecl (DFlag _ c) => negb (c_hidden c) | _ => false end.
Definition long_name (o : op) : string := match o with OpDecl (DOption _ _ c) | OpDecl (DFlag _ c) => c_long c | _ => "" end.
Definition tool_names (l : list op) : list string :=
  map (fun n => "positional_" +s+ nat_to_string n) (seq 0 (List.length (filter is_positional l))) ++ map long_name (filter in_tool l).
Definition tool_texts (vs : store) (l : list op) : list string :=
  flat_map explanation (argument_parts 1 vs l) ++ flat_map explanation (flat_map (option_part vs) (filter in_tool l)).
