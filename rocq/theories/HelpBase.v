(** Common parts of the pages printed on special requests:
    include/sharg/detail/format_base.hpp, classes [format_base] and [format_help_base].

    [format_help_base<derived_type>] calls the print_* members of the derived class (CRTP); here the
    derived class is a record [printer] and the driver is a function of it.

    Simplifications:
    - [std::cout] is a string to which is appended (in the state of each printer);
    - the stored lambdas are represented by what they print ([item]);
    - sizes and positions are natural numbers, i.e. no wrap-around at 2^32 (texts of 4 GB);
    - a validator's get_help_page_message() is the string [c_vhelp] of the model's config. *)
From Verif Require Import Base Fs Values Validators FormatParse Parser.

(** version.hpp 16-64: sharg_version_cstring at the pinned commit *)
Definition sharg_version : string := "1.1.2-rc.1".

(** ** format_base.hpp 28-249 *)

(** option_type_and_list_info, 90-107 *)
Definition type_info (t : vty) : string :=
  match t with
  | Scalar e => "(\fI" +s+ type_name e +s+ "\fP)"
  | ListOf e => "(\fIList\fP of \fI" +s+ type_name e +s+ "\fP)"
  end.

(** prep_id_for_help, 115-130 *)
Definition prep_id (short_id : chr) (long_id : string) : string :=
  (if Ascii.eqb short_id nul then "" else "\fB-" +s+ str1 short_id +s+ "\fP")
  +s+ (if negb (Ascii.eqb short_id nul) && negb (is_empty long_id) then ", " else "")
  +s+ (if is_empty long_id then "" else "\fB--" +s+ long_id +s+ "\fP").

(** escape_special_xml_chars, 138-161 *)
Fixpoint xml_escape (s : string) : string :=
  match s with
  | EmptyString => EmptyString
  | String c s' =>
      (if Ascii.eqb c """" then "&quot;"
       else if Ascii.eqb c "'" then "&apos;"
       else if Ascii.eqb c "&" then "&amp;"
       else if Ascii.eqb c "<" then "&lt;"
       else if Ascii.eqb c ">" then "&gt;"
       else str1 c) +s+ xml_escape s'
  end.

(** get_default_message(value, value), 199-240 with default_type = option_type *)
Definition default_of_value (t : vty) (v : val) : string :=
  " Default: " +s+
  match t with
  | ListOf TString => bracket (map (fun x => quoted (print_stream TString x)) (elems v))
  | Scalar TString => quoted (print_stream TString v)
  | _ => to_string t v
  end.

(** get_default_message(value, config.default_message), default_type = std::string *)
Definition default_of_message (t : vty) (m : string) : string :=
  " Default: " +s+
  match t with
  | Scalar TString | Scalar TPath => quoted m
  | _ => m
  end.

(** 285-293: what is appended to the description of an option *)
Definition validator_info (c : config) : string := if is_empty (c_vhelp c) then "" else ". " +s+ c_vhelp c.
Definition option_info (t : vty) (v : val) (c : config) : string :=
  c_desc c
  +s+ (if is_empty (c_default_message c) then (if c_required c then "" else default_of_value t v)
       else default_of_message t (c_default_message c))
  +s+ validator_info c.

(** ** format_help_base, 256-656 *)

(** the elements of parser_set_up_calls *)
Inductive item :=
| ISection (title : string)
| ISubsection (title : string)
| ILine (text : string) (is_paragraph : bool)
| IItem (key desc : string).

(** store_help_page_element, 634-655 *)
Definition stored (show_advanced advanced hidden : bool) : bool := negb hidden && (negb advanced || show_advanced).

(** add_option 279-298, add_flag 304-312, add_section ... add_list_item 441-492 *)
Definition item_of (vs : store) (o : op) : option (item * bool * bool) :=   (* item, advanced, hidden *)
  match o with
  | OpDecl (DOption x t c) =>
      Some (IItem (prep_id (c_short c) (c_long c) +s+ " " +s+ type_info t) (option_info t (vs x) c), c_advanced c, c_hidden c)
  | OpDecl (DFlag x c) => Some (IItem (prep_id (c_short c) (c_long c)) (c_desc c), c_advanced c, c_hidden c)
  | OpDecl (DPositional _ _ _) => None
  | OpSection s a => Some (ISection s, a, false)
  | OpSubsection s a => Some (ISubsection s, a, false)
  | OpLine s b a => Some (ILine s b, a, false)
  | OpListItem k d a => Some (IItem k d, a, false)
  end.
Fixpoint set_up_calls (show_advanced : bool) (vs : store) (l : list op) : list item :=
  match l with
  | [] => []
  | o :: l' => match item_of vs o with
               | Some (i, a, h) => if stored show_advanced a h then i :: set_up_calls show_advanced vs l'
                                   else set_up_calls show_advanced vs l'
               | None => set_up_calls show_advanced vs l'
               end
  end.

(** add_positional_option, 318-356; [n]: positional_option_count before the stored call runs *)
Definition positional_item (vs : store) (n : nat) (x : addr) (t : vty) (c : config) : item :=
  IItem ("\fBARGUMENT-" +s+ nat_to_string (S n) +s+ "\fP " +s+ type_info t)
        (c_desc c +s+ (if is_container t then default_of_value t (vs x) else "") +s+ validator_info c).
Fixpoint positional_calls (vs : store) (n : nat) (l : list op) : list item :=
  match l with
  | [] => []
  | OpDecl (DPositional x t c) :: l' => positional_item vs n x t c :: positional_calls vs (S n) l'
  | _ :: l' => positional_calls vs n l'
  end.

(** the members of the derived class used by the base class *)
Record printer (St : Type) := {
  p_header : meta -> M St unit;
  p_section : string -> M St unit;
  p_subsection : string -> M St unit;
  p_line : string -> bool -> M St unit;
  p_item : string -> string -> M St unit;
  p_footer : M St unit;
  p_bold : string -> string }.
Arguments p_header {St}. Arguments p_section {St}. Arguments p_subsection {St}. Arguments p_line {St}.
Arguments p_item {St}. Arguments p_footer {St}. Arguments p_bold {St}.

Section driver.
Context {St : Type} (P : printer St).

Definition print_item (i : item) : M St unit :=
  match i with
  | ISection s => p_section P s
  | ISubsection s => p_subsection P s
  | ILine s b => p_line P s b
  | IItem k d => p_item P k d
  end.

(** [text.find_first_of(" \t")] *)
Fixpoint find_blank (s : string) : option nat :=
  match s with
  | EmptyString => None
  | String c s' => if Ascii.eqb c " " || Ascii.eqb c "009" then Some O else option_map S (find_blank s')
  end.

(** print_synopsis, 524-534; without a blank, find_first_of gives npos and insert throws *)
Definition synopsis_line (s : string) : res string :=
  let text := "\fB" +s+ s in
  match find_blank text with
  | Some n => Ret (stake n text +s+ "\fP" +s+ sdrop n text)
  | None => Throw (Exn KStdOutOfRange "basic_string::insert")
  end.
Definition print_synopsis (m : meta) : M St unit :=
  mapM_ (fun s => do t <- (fun st => (st, synopsis_line s)); p_line P t false) (m_synopsis m).

Definition when (b : bool) (m : M St unit) : M St unit := if b then m else ret tt.
Definition nonempty {A} (l : list A) : bool := match l with [] => false | _ => true end.

(** print_version, 545-565; SeqAn3 is not included *)
Definition print_version (m : meta) : M St unit :=
  p_section P "Version" ;;
  p_line P (p_bold P "Last update: " +s+ m_date m) false ;;
  p_line P (p_bold P (m_app_name m +s+ " version: ") +s+ m_version m) false ;;
  p_line P (p_bold P "Sharg version: " +s+ sharg_version) false ;;
  when (negb (is_empty (m_url m))) (p_section P "Url" ;; p_line P (m_url m) false).

(** print_legal, 568-609 *)
Definition print_legal (m : meta) : M St unit :=
  when (negb (is_empty (m_short_copyright m)) || negb (is_empty (m_long_copyright m)) || negb (is_empty (m_citation m))
        || negb (is_empty (m_author m)) || negb (is_empty (m_email m)))
    (p_section P "Legal" ;;
     when (negb (is_empty (m_short_copyright m)))
       (p_line P (p_bold P (m_app_name m +s+ " Copyright: ") +s+ m_short_copyright m) false) ;;
     when (negb (is_empty (m_author m))) (p_line P (p_bold P "Author: " +s+ m_author m) false) ;;
     when (negb (is_empty (m_email m))) (p_line P (p_bold P "Contact: " +s+ m_email m) false) ;;
     p_line P (p_bold P "SeqAn Copyright: " +s+ "2006-2024 Knut Reinert, FU-Berlin; released under the 3-clause BSDL.") false ;;
     when (negb (is_empty (m_citation m)))
       (p_line P (p_bold P "In your academic works please cite: " +s+ m_citation m) false) ;;
     when (negb (is_empty (m_long_copyright m)))
       (p_line P ("For full copyright and/or warranty information see " +s+ p_bold P "--copyright" +s+ ".") false)).

(** 379-393 *)
Definition print_subcommands (m : meta) (subs : list string) : M St unit :=
  match subs with
  | [] => ret tt
  | s0 :: _ =>
      p_section P "Subcommands" ;;
      p_line P "This program must be invoked with one of the following subcommands:" false ;;
      mapM_ (fun name => p_line P ("- \fB" +s+ name +s+ "\fP") false) subs ;;
      p_line P ("See the respective help page for further details (e.g. by calling " +s+ m_app_name m
                +s+ " " +s+ s0 +s+ " -h).") true ;;
      p_line P ("The following options belong to the top-level parser and need to be "
                +s+ "specified \fBbefore\fP the subcommand key word. Every argument after the "
                +s+ "subcommand key word is passed on to the corresponding sub-parser.") true
  end.

(** 410-423; [exports]: detail::supported_exports *)
Definition print_common (exports : string) (dev : bool) : M St unit :=
  p_subsection P "Common options" ;;
  p_item P "\fB-h\fP, \fB--help\fP" "Prints the help page." ;;
  p_item P "\fB-hh\fP, \fB--advanced-help\fP" "Prints the help page including advanced options." ;;
  p_item P "\fB--version\fP" "Prints the version information." ;;
  p_item P "\fB--copyright\fP" "Prints the copyright/license information." ;;
  p_item P "\fB--export-help\fP (std::string)"
           ("Export the help page information. Value must be one of " +s+ exports +s+ ".") ;;
  when dev (p_item P "\fB--version-check\fP (bool)" "Whether to check for the newest app version. Default: true").

(** parse, 361-436 *)
Definition print_page (exports : string) (show_advanced : bool) (r : page_request) : M St unit :=
  let m := pr_info r in
  p_header P m ;;
  when (nonempty (m_synopsis m)) (p_section P "Synopsis" ;; print_synopsis m) ;;
  when (nonempty (m_description m))
    (p_section P "Description" ;; mapM_ (fun d => p_line P d true) (m_description m)) ;;
  print_subcommands m (pr_subcommands r) ;;
  when (nonempty (positional_calls (pr_vars r) 0 (pr_ops r))) (p_section P "Positional Arguments") ;;
  mapM_ print_item (positional_calls (pr_vars r) 0 (pr_ops r)) ;;
  p_section P "Options" ;;
  mapM_ print_item (set_up_calls show_advanced (pr_vars r) (pr_ops r)) ;;
  print_common exports (pr_dev r) ;;
  when (nonempty (m_examples m))
    (p_section P "Examples" ;; mapM_ (fun d => p_line P d true) (m_examples m)) ;;
  print_version m ;;
  print_legal m ;;
  p_footer P.

End driver.
