(** Vocabulary for the properties of help pages, independent of how the pages are produced. *)
From Verif Require Import Base Values ValuesSpec FormatParse Parser.

(** ** Texts as a reader sees them *)

(** pieces between separators *)
Fixpoint fields (sep : chr -> bool) (s : string) : list string :=
  match s with
  | EmptyString => [""]
  | String c s' => if sep c then "" :: fields sep s'
                   else match fields sep s' with
                        | f :: l => String c f :: l
                        | [] => [str1 c]
                        end
  end.
Definition words (s : string) : list string := filter (fun w => negb (is_empty w)) (fields is_space s).
Definition lines (s : string) : list string := fields (fun c => Ascii.eqb c "010") s.
(** no line break *)
Definition one_line (s : string) : bool := sall (fun c => negb (Ascii.eqb c "010")) s.
(** the column at which the next character would be printed *)
Definition column (s : string) : nat := String.length (List.last (lines s) "").

(** A text with the documented markup removed: "\fB", "\fI" and "\fP" switch fonts, "\-" is a hyphen. *)
Fixpoint strip (s : string) : string :=
  match s with
  | EmptyString => EmptyString
  | String c s1 =>
      if Ascii.eqb c "\" then
        match s1 with
        | EmptyString => s
        | String d s2 =>
            if Ascii.eqb d "-" then String "-" (strip s2)
            else if Ascii.eqb d "f" then
              match s2 with
              | EmptyString => s
              | String e s3 => if Ascii.eqb e "B" || Ascii.eqb e "I" || Ascii.eqb e "P" then strip s3
                               else String c (String d (String e (strip s3)))
              end
            else String c (String d (strip s2))
        end
      else String c (strip s1)
  end.

(** no backslash (or "\f") without the character it applies to *)
Fixpoint closed (s : string) : bool :=
  match s with
  | EmptyString => true
  | String c s1 =>
      if Ascii.eqb c "\" then
        match s1 with
        | EmptyString => false
        | String d s2 =>
            if Ascii.eqb d "f" then match s2 with EmptyString => false | String _ s3 => closed s3 end
            else closed s2
        end
      else closed s1
  end.

(** every backslash starts one of the documented pieces of markup *)
Fixpoint documented (s : string) : bool :=
  match s with
  | EmptyString => true
  | String c s1 =>
      if Ascii.eqb c "\" then
        match s1 with
        | EmptyString => false
        | String d s2 =>
            if Ascii.eqb d "-" then documented s2
            else if Ascii.eqb d "f" then
              match s2 with
              | EmptyString => false
              | String e s3 => (Ascii.eqb e "B" || Ascii.eqb e "I" || Ascii.eqb e "P") && documented s3
              end
            else false
        end
      else documented s1
  end.

Definition no_nul (s : string) : bool := negb (scontains nul s).
(** a text as a C string, which ends at the first null character *)
Definition until_nul (s : string) : string := match sfind nul s with Some n => stake n s | None => s end.
Definition no_backslash (s : string) : bool := negb (scontains "\" s).

(** "ESC [ d m" sequences, which change the font on a terminal, removed *)
Fixpoint drop_sgr (s : string) : string :=
  match s with
  | EmptyString => EmptyString
  | String c s1 =>
      if Ascii.eqb c "027" then
        match s1 with
        | String "[" (String _ (String "m" r)) => drop_sgr r
        | _ => String c (drop_sgr s1)
        end
      else String c (drop_sgr s1)
  end.

(** ** XML *)

(** references to the five predefined entities replaced *)
Fixpoint xml_unescape (s : string) : string :=
  match s with
  | EmptyString => EmptyString
  | String c s1 =>
      if Ascii.eqb c "&" then
        match s1 with
        | String "q" (String "u" (String "o" (String "t" (String ";" r)))) => String """" (xml_unescape r)
        | String "a" (String "p" (String "o" (String "s" (String ";" r)))) => String "'" (xml_unescape r)
        | String "a" (String "m" (String "p" (String ";" r))) => String "&" (xml_unescape r)
        | String "l" (String "t" (String ";" r)) => String "<" (xml_unescape r)
        | String "g" (String "t" (String ";" r)) => String ">" (xml_unescape r)
        | _ => String c (xml_unescape s1)
        end
      else String c (xml_unescape s1)
  end.
(** every ampersand starts a reference to a predefined entity; no quotes and angle brackets *)
Fixpoint xml_text (s : string) : bool :=
  match s with
  | EmptyString => true
  | String c s1 =>
      if Ascii.eqb c "&" then
        existsb (fun n => String.prefix n s1) ["quot;"; "apos;"; "amp;"; "lt;"; "gt;"] && xml_text s1
      else negb (existsb (Ascii.eqb c) [""""%char; "'"%char; "<"%char; ">"%char]) && xml_text s1
  end.

(** ** HTML: reading a page with a stack of open elements *)

Inductive hmode := HText | HTag (acc : string).

(** elements that are never closed *)
Definition is_void (n : string) : bool := String.eqb n "br" || String.eqb n "meta".
Fixpoint before_space (s : string) : string :=
  match s with
  | EmptyString => EmptyString
  | String c s' => if Ascii.eqb c " " then EmptyString else String c (before_space s')
  end.
(** the effect of a tag with content [t] on the stack of open elements *)
Definition tag_effect (t : string) (stack : list string) : option (list string) :=
  match t with
  | String "!" _ => Some stack
  | String "/" n => match stack with
                    | top :: stack' => if String.eqb n top then Some stack' else None
                    | [] => None
                    end
  | _ => if is_void (before_space t) then Some stack else Some (before_space t :: stack)
  end.
Definition html_char (c : chr) (st : hmode * list string) : option (hmode * list string) :=
  match fst st with
  | HText => if Ascii.eqb c "<" then Some (HTag "", snd st) else Some st
  | HTag acc => if Ascii.eqb c ">" then option_map (fun k => (HText, k)) (tag_effect acc (snd st))
                else if Ascii.eqb c "<" then None else Some (HTag (acc +s+ str1 c), snd st)
  end.
Fixpoint html_scan (s : string) (st : hmode * list string) : option (hmode * list string) :=
  match s with
  | EmptyString => Some st
  | String c s' => match html_char c st with Some st' => html_scan s' st' | None => None end
  end.
Definition well_nested (s : string) : Prop := html_scan s (HText, []) = Some (HText, []).

(** markup is closed within the text, last opened first closed: number of fonts switched on *)
Fixpoint balanced (open : nat) (s : string) : bool :=
  match s with
  | EmptyString => Nat.eqb open 0
  | String c s1 =>
      if Ascii.eqb c "\" then
        match s1 with
        | EmptyString => false
        | String d s2 =>
            if Ascii.eqb d "f" then
              match s2 with
              | EmptyString => false
              | String e s3 =>
                  if Ascii.eqb e "B" || Ascii.eqb e "I" then balanced (S open) s3
                  else if Ascii.eqb e "P" then match open with O => false | S n => balanced n s3 end
                  else balanced open s3
              end
            else balanced open s2
        end
      else balanced open s1
  end.
(** a text for which the exported HTML can be trusted *)
Definition neat (s : string) : bool := balanced 0 s && negb (scontains "<" s).

(** ** Entries of a help page *)

(** what a declaration or add_section ... add_list_item call asks for *)
Inductive entry :=
| ESection (title : string)
| ESubsection (title : string)
| ELine (text : string)
| EItem (term description : string).

Definition is_hidden (o : op) : bool :=
  match o with OpDecl (DOption _ _ c) | OpDecl (DFlag _ c) => c_hidden c | _ => false end.
Definition is_advanced (o : op) : bool :=
  match o with
  | OpDecl (DOption _ _ c) | OpDecl (DFlag _ c) => c_advanced c
  | OpDecl (DPositional _ _ _) => false
  | OpSection _ a | OpSubsection _ a | OpLine _ _ a | OpListItem _ _ a => a
  end.
Definition is_positional (o : op) : bool := match o with OpDecl (DPositional _ _ _) => true | _ => false end.

(** documented in config.hpp 86-120 and parser.hpp 523-625 *)
Definition on_help (o : op) : bool := negb (is_hidden o) && negb (is_advanced o).
Definition on_advanced_help (o : op) : bool := negb (is_hidden o).
Definition on_exports (o : op) : bool := negb (is_hidden o).

(** the entries of the options section of the page printed for -h or -hh *)
Definition listed (advanced_help : bool) (o : op) : bool :=
  negb (is_positional o) && (if advanced_help then on_advanced_help o else on_help o).

(** names as a user would type them, the type of the value *)
Definition names_shown (c : config) : string :=
  match Ascii.eqb (c_short c) nul, is_empty (c_long c) with
  | false, false => "-" +s+ str1 (c_short c) +s+ ", --" +s+ c_long c
  | false, true => "-" +s+ str1 (c_short c)
  | true, false => "--" +s+ c_long c
  | true, true => ""
  end.
Definition type_shown (t : vty) : string :=
  match t with
  | Scalar e => "(" +s+ spoken_type e +s+ ")"
  | ListOf e => "(List of " +s+ spoken_type e +s+ ")"
  end.

(** ** The texts an application supplies for its pages *)

(** no backslash (or "\f") at the end of the text, before white space or before a null character *)
Definition ends_word (c : chr) : bool := is_space c || Ascii.eqb c nul.
Fixpoint intact (s : string) : bool :=
  match s with
  | EmptyString => true
  | String c s1 =>
      if Ascii.eqb c "\" then
        match s1 with
        | EmptyString => false
        | String d s2 =>
            if Ascii.eqb d "f" then
              match s2 with EmptyString => false | String e s3 => negb (ends_word e) && intact s3 end
            else negb (ends_word d) && intact s2
        end
      else intact s1
  end.

(** a synopsis line is split at its first blank: the command and the rest *)
Definition is_blank (c : chr) : bool := Ascii.eqb c " " || Ascii.eqb c "009".
Fixpoint to_blank (s : string) : string :=
  match s with
  | EmptyString => EmptyString
  | String c s' => if is_blank c then EmptyString else String c (to_blank s')
  end.
Fixpoint from_blank (s : string) : string :=
  match s with
  | EmptyString => EmptyString
  | String c s' => if is_blank c then s else from_blank s'
  end.
Definition has_blank (s : string) : bool := negb (is_empty (from_blank s)).

(** texts of one declaration or help page element; strings are shown quoted *)
Definition default_texts (t : vty) (v : val) : list string :=
  match t with
  | Scalar TString => [quoted (to_string t v)]
  | ListOf TString => map (fun x => quoted (to_string (Scalar TString) x)) (elems v)
  | _ => [to_string t v]
  end.
Definition message_text (t : vty) (m : string) : string :=
  match t with Scalar TString | Scalar TPath => quoted m | _ => m end.
Definition op_texts (vs : store) (o : op) : list string :=
  match o with
  | OpDecl (DOption x t c) =>
      [str1 (c_short c); c_long c; type_name (elem_ty t); c_desc c; message_text t (c_default_message c); c_vhelp c]
      ++ default_texts t (vs x)
  | OpDecl (DFlag x c) => [str1 (c_short c); c_long c; c_desc c]
  | OpDecl (DPositional x t c) => [type_name (elem_ty t); c_desc c; c_vhelp c] ++ default_texts t (vs x)
  | OpSection s _ | OpSubsection s _ | OpLine s _ _ => [s]
  | OpListItem k d _ => [k; d]
  end.
Definition meta_texts (m : meta) : list string :=
  [m_app_name m; m_version m; m_short_description m; m_author m; m_email m; m_date m; m_url m; m_short_copyright m;
   m_citation m] ++ m_description m ++ map to_blank (m_synopsis m) ++ map from_blank (m_synopsis m) ++ m_examples m.
Definition page_texts (r : page_request) : list string :=
  meta_texts (pr_info r) ++ pr_subcommands r ++ flat_map (op_texts (pr_vars r)) (pr_ops r).
Definition has_commands (m : meta) : bool := forallb has_blank (m_synopsis m).

(** ** What a browser shows of a text: tags dropped, references replaced *)
Fixpoint drop_tags (inside : bool) (s : string) : string :=
  match s with
  | EmptyString => EmptyString
  | String c s' => if inside then drop_tags (negb (Ascii.eqb c ">")) s'
                   else if Ascii.eqb c "<" then drop_tags true s' else String c (drop_tags false s')
  end.
(** tags and references are recognised in one pass, so a reference may not be split by a tag *)
Fixpoint browser (inside : bool) (s : string) : string :=
  match s with
  | EmptyString => EmptyString
  | String c s1 =>
      if inside then browser (negb (Ascii.eqb c ">")) s1
      else if Ascii.eqb c "<" then browser true s1
      else if Ascii.eqb c "&" then
        match s1 with
        | String "q" (String "u" (String "o" (String "t" (String ";" r)))) => String """" (browser false r)
        | String "a" (String "p" (String "o" (String "s" (String ";" r)))) => String "'" (browser false r)
        | String "a" (String "m" (String "p" (String ";" r))) => String "&" (browser false r)
        | String "l" (String "t" (String ";" r)) => String "<" (browser false r)
        | String "g" (String "t" (String ";" r)) => String ">" (browser false r)
        | _ => String c (browser false s1)
        end
      else String c (browser false s1)
  end.
Definition browser_shows (s : string) : string := browser false s.

(** ** What a reader finds on a page for a declaration or element *)

Definition upper_case (s : string) : string :=
  of_chars (map (fun c => if is_lower c then ascii_of_nat (nat_of_ascii c - 32) else c) (chars s)).
(** how a kind of page shows section titles, and which part of a description it shows *)
Record view := { v_title : string -> string; v_subtitle : string -> string; v_text : string -> string }.
Definition terminal_view : view := {| v_title := upper_case; v_subtitle := fun s => s; v_text := until_nul |}.
Definition html_view : view := {| v_title := strip; v_subtitle := strip; v_text := fun s => s |}.
Definition man_view : view := {| v_title := fun s => strip (upper_case s); v_subtitle := strip; v_text := fun s => s |}.
(** the words shown for an entry: names, type and a description starting with the one supplied *)
Definition entry_words (w : view) (o : op) (ws : list string) : Prop :=
  match o with
  | OpDecl (DOption _ t c) =>
      exists info, ws = words (names_shown c +s+ " " +s+ type_shown t) ++ words (strip (v_text w (c_desc c +s+ info)))
  | OpDecl (DFlag _ c) => ws = words (names_shown c) ++ words (strip (v_text w (c_desc c)))
  | OpDecl (DPositional _ t c) => False
  | OpSection s _ => ws = words (v_title w s)
  | OpSubsection s _ => ws = words (v_subtitle w s)
  | OpLine s _ _ => ws = words (strip (v_text w s))
  | OpListItem k d _ => ws = words (strip k) ++ words (strip (v_text w d))
  end.
(** identifiers and type names of a declaration *)
Definition op_names (o : op) : list string :=
  match o with
  | OpDecl (DOption _ t c) => [str1 (c_short c); c_long c; type_name (elem_ty t)]
  | OpDecl (DFlag _ c) => [str1 (c_short c); c_long c]
  | OpDecl (DPositional _ t c) => [type_name (elem_ty t)]
  | _ => []
  end.

(** a title, in bold on a terminal *)
Definition heading (terminal : bool) (s : string) : string :=
  if terminal then String "027" "[1m" +s+ s +s+ String "027" "[0m" else s.

(** ** What a reader of the man page sees: lines starting with "." or "'" are requests to the formatter, of which
    ".SH" and ".SS" show their arguments as a title *)
Definition is_request (l : string) : bool :=
  match l with String c _ => Ascii.eqb c "." || Ascii.eqb c "'" | EmptyString => false end.
Definition title_of (l : string) : string :=
  if String.prefix ".SH " l || String.prefix ".SS " l then sdrop 4 l else "".
Definition man_words (s : string) : list string :=
  flat_map (fun l => words (strip (if is_request l then title_of l else l))) (lines s).
(** the texts of an entry that are printed at the beginning of a line are not taken for requests *)
Definition no_request (o : op) : bool :=
  match o with
  | OpDecl (DOption _ _ c) => negb (is_empty (c_desc c)) && negb (is_request (c_desc c))
  | OpDecl (DFlag _ c) => negb (is_request (c_desc c))
  | OpDecl (DPositional _ _ _) | OpSection _ _ | OpSubsection _ _ => true
  | OpLine s _ _ => negb (is_request s)
  | OpListItem k d _ => negb (is_request k) && negb (is_request d)
  end.

(** text without characters special to HTML *)
Definition html_free (s : string) : bool := negb (scontains "<" s) && negb (scontains "&" s).

(** the words shown for the n-th positional option *)
Definition argument_words (n : nat) (o : op) (ws : list string) : Prop :=
  match o with
  | OpDecl (DPositional _ t c) =>
      exists info, ws = words ("ARGUMENT-" +s+ nat_to_string n +s+ " " +s+ type_shown t) ++ words (strip (until_nul (c_desc c +s+ info)))
  | _ => False
  end.
(** related in order, with numbers from [n] on *)
Inductive numbered {A B} (R : nat -> A -> B -> Prop) : nat -> list A -> list B -> Prop :=
| numbered_nil n : numbered R n [] []
| numbered_cons n a b l l' : R n a b -> numbered R (S n) l l' -> numbered R n (a :: l) (b :: l').

(** the same request with other declarations and help page elements *)
Definition with_ops (r : page_request) (l : list op) : page_request :=
  {| pr_format := pr_format r; pr_info := pr_info r; pr_subcommands := pr_subcommands r; pr_dev := pr_dev r;
     pr_executable := pr_executable r; pr_ops := l; pr_vars := pr_vars r |}.
