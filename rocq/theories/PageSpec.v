(** Vocabulary: what has to hold of the texts of an application for its pages to be printed (C46). *)
From Verif Require Import Base Values ValuesSpec FormatParse Parser HelpSpec.

(** every word of the text, as a C string, is closed *)
Definition printable (s : string) : bool := forallb closed (words (until_nul s)).
(** the text is closed, and no font is switched back that was not switched on *)
Fixpoint opened (n : nat) (s : string) : bool :=
  match s with
  | EmptyString => true
  | String c s1 =>
      if Ascii.eqb c "\" then
        match s1 with
        | EmptyString => false
        | String d s2 =>
            if Ascii.eqb d "f" then
              match s2 with
              | EmptyString => false
              | String e s3 =>
                  if Ascii.eqb e "B" || Ascii.eqb e "I" then opened (S n) s3
                  else if Ascii.eqb e "P" then match n with O => false | S k => opened k s3 end
                  else opened n s3
              end
            else opened n s2
        end
      else opened n s1
  end.
Definition taggable (s : string) : bool := opened 0 s.

(** ** The texts of a page *)

Definition bold (s : string) : string := "\fB" +s+ s +s+ "\fP".
Definition slanted (s : string) : string := "\fI" +s+ s +s+ "\fP".

Definition marked_names (c : config) : string :=
  match Ascii.eqb (c_short c) nul, is_empty (c_long c) with
  | false, false => bold ("-" +s+ str1 (c_short c)) +s+ ", " +s+ bold ("--" +s+ c_long c)
  | false, true => bold ("-" +s+ str1 (c_short c))
  | true, false => bold ("--" +s+ c_long c)
  | true, true => ""
  end.
Definition marked_type (t : vty) : string :=
  match t with
  | Scalar e => "(" +s+ slanted (spoken_type e) +s+ ")"
  | ListOf e => "(" +s+ slanted "List" +s+ " of " +s+ slanted (spoken_type e) +s+ ")"
  end.
Definition value_text (t : vty) (v : val) : string :=
  match t with
  | Scalar TString => quoted (to_string t v)
  | ListOf TString => "[" +s+ join_comma (map (fun x => quoted (to_string (Scalar TString) x)) (elems v)) +s+ "]"
  | _ => to_string t v
  end.
Definition checked_text (c : config) : string := if is_empty (c_vhelp c) then "" else ". " +s+ c_vhelp c.
Definition default_text (t : vty) (v : val) (c : config) : string :=
  if is_empty (c_default_message c) then if c_required c then "" else " Default: " +s+ value_text t v
  else " Default: " +s+ message_text t (c_default_message c).

(** what one element of the options section shows: titles, terms, texts *)
Definition op_titles (o : op) : list string := match o with OpSection s _ | OpSubsection s _ => [s] | _ => [] end.
Definition op_terms (o : op) : list string :=
  match o with
  | OpDecl (DOption _ t c) => [marked_names c +s+ " " +s+ marked_type t]
  | OpDecl (DFlag _ c) => [marked_names c]
  | OpListItem k _ _ => [k]
  | _ => []
  end.
Definition op_lines (vs : store) (o : op) : list string :=
  match o with
  | OpDecl (DOption x t c) => [c_desc c +s+ default_text t (vs x) c +s+ checked_text c]
  | OpDecl (DFlag _ c) => [c_desc c]
  | OpLine s _ _ => [s]
  | OpListItem _ d _ => [d]
  | _ => []
  end.
(** the positional options: term and text.  The term is always in order. *)
Definition positional_text (vs : store) (o : op) : list (string) :=
  match o with
  | OpDecl (DPositional x t c) =>
      [c_desc c +s+ (match t with ListOf _ => " Default: " +s+ value_text t (vs x) | _ => "" end) +s+ checked_text c]
  | _ => []
  end.
Definition positional_type (o : op) : list string :=
  match o with OpDecl (DPositional _ t _) => [marked_type t] | _ => [] end.

Definition synopsis_texts (m : meta) : list string := map (fun s => bold (to_blank s) +s+ from_blank s) (m_synopsis m).
Definition subcommand_texts (m : meta) (subs : list string) : list string :=
  map bold subs ++ match subs with [] => [] | s :: _ => [m_app_name m +s+ " " +s+ s +s+ " -h)."] end.
Definition version_texts (m : meta) : list string :=
  [m_date m; m_app_name m +s+ " version: " +s+ m_version m; m_url m].
Definition legal_texts (m : meta) : list string :=
  (if is_empty (m_short_copyright m) then [] else [m_app_name m +s+ " Copyright: " +s+ m_short_copyright m])
  ++ [m_author m; m_email m; m_citation m].

Definition all_lines (adv : bool) (r : page_request) : list string :=
  let m := pr_info r in
  synopsis_texts m ++ m_description m ++ subcommand_texts m (pr_subcommands r) ++ flat_map (positional_text (pr_vars r)) (pr_ops r)
  ++ flat_map (op_lines (pr_vars r)) (filter (listed adv) (pr_ops r)) ++ m_examples m ++ version_texts m ++ legal_texts m.
Definition all_terms (adv : bool) (r : page_request) : list string :=
  flat_map positional_type (pr_ops r) ++ flat_map op_terms (filter (listed adv) (pr_ops r)).
Definition all_titles (adv : bool) (r : page_request) : list string :=
  [m_app_name (pr_info r); m_short_description (pr_info r)] ++ flat_map op_titles (filter (listed adv) (pr_ops r)).

(** the page for -h and -hh: titles are printed as they are *)
Definition help_prints (adv : bool) (r : page_request) : bool :=
  has_commands (pr_info r) && forallb printable (all_lines adv r) && forallb closed (all_terms adv r).
(** the HTML page *)
Definition html_prints (r : page_request) : bool :=
  has_commands (pr_info r) && forallb taggable (all_lines false r ++ all_terms false r ++ all_titles false r).
(** the short page *)
Definition short_help_prints (r : page_request) : bool :=
  has_commands (pr_info r) && forallb printable (synopsis_texts (pr_info r)).
Definition version_prints (r : page_request) : bool := forallb printable (version_texts (pr_info r)).

(** a page, std::out_of_range for a synopsis line without blank, or a backslash that is the last character *)
Definition fails_as (ndebug commands : bool) (r : res string) : Prop :=
  (exists out, r = Ret out) \/ (r = Throw (Exn KStdOutOfRange "basic_string::insert") /\ commands = false)
  \/ r = (if ndebug then UB else AssertFail).
