(** The exported pages: include/sharg/detail/format_html.hpp, format_man.hpp and format_tdl.hpp. *)
From Verif Require Import Base Fs FloatNum Values Validators FormatParse Parser HelpBase HelpText.

(** ** HTML, format_html.hpp 57-245 *)

Record hstate := { h_out : string; h_dl : bool; h_p : bool }.   (* std::cout, is_dl, is_p *)

Definition put_html (s : string) : M hstate unit :=
  modify (fun st => {| h_out := h_out st +s+ s; h_dl := h_dl st; h_p := h_p st |}).

(** maybe_close_list, 57-64 *)
Definition close_list : M hstate unit :=
  modify (fun st => if h_dl st then {| h_out := h_out st +s+ "</dl>" +s+ nl; h_dl := false; h_p := h_p st |} else st).
(** maybe_close_paragraph, 67-74 *)
Definition close_paragraph : M hstate unit :=
  modify (fun st => if h_p st then {| h_out := h_out st +s+ "</p>" +s+ nl; h_dl := h_dl st; h_p := false |} else st).
(** 125-129 and 151-155 *)
Definition open_paragraph : M hstate unit :=
  modify (fun st => if h_p st then st else {| h_out := h_out st +s+ "<p>" +s+ nl; h_dl := h_dl st; h_p := true |}).
Definition open_list : M hstate unit :=
  modify (fun st => if h_dl st then st else {| h_out := h_out st +s+ "<dl>" +s+ nl; h_dl := true; h_p := h_p st |}).

Section html.
Variable ndebug : bool.

(** to_html, 173-231; [tags]: open_tags, last one first.  [buffer] (175) is never used.
    [open_tags.back()] of an empty vector is undefined (assertion 206). *)
Fixpoint html_from (tags : list string) (s : string) : res string :=
  match s with
  | EmptyString => Ret EmptyString
  | String c s1 =>
      if Ascii.eqb c "\" then
        match s1 with
        | EmptyString => dangling ndebug
        | String d s2 =>
            if Ascii.eqb d "-" then lift_res (html_from tags s2) (fun r => Ret (String d r))
            else if Ascii.eqb d "f" then
              match s2 with
              | EmptyString => dangling ndebug
              | String e s3 =>
                  if Ascii.eqb e "I" then lift_res (html_from ("em" :: tags) s3) (fun r => Ret ("<em>" +s+ r))
                  else if Ascii.eqb e "B" then lift_res (html_from ("strong" :: tags) s3) (fun r => Ret ("<strong>" +s+ r))
                  else if Ascii.eqb e "P" then
                    match tags with
                    | [] => dangling ndebug
                    | t :: tags' => lift_res (html_from tags' s3) (fun r => Ret ("</" +s+ t +s+ ">" +s+ r))
                    end
                  else lift_res (html_from tags s3) (fun r => Ret ("\f" +s+ str1 e +s+ r))
              end
            else lift_res (html_from tags s2) (fun r => Ret (String "\" (String d r)))
        end
      else lift_res (html_from tags s1) (fun r => Ret (String c r))
  end.
Definition to_html (s : string) : res string := html_from [] s.

Definition to_html_m (s : string) : M hstate string := fun st => (st, to_html s).

(** print_header, 77-92 *)
Definition html_header (m : meta) : M hstate unit :=
  put_html ("<!DOCTYPE html PUBLIC ""-//W3C//DTD HTML 4.01//EN"" "
            +s+ "http://www.w3.org/TR/html4/strict.dtd"">" +s+ nl
            +s+ "<html lang=""en"">" +s+ nl
            +s+ "<head>" +s+ nl
            +s+ "<meta http-equiv=""content-type"" content=""text/html; charset=utf-8"">" +s+ nl
            +s+ "<title>" +s+ xml_escape (m_app_name m) +s+ " &mdash; " +s+ xml_escape (m_short_description m) +s+ "</title>" +s+ nl
            +s+ "</head>" +s+ nl
            +s+ "<body>" +s+ nl) ;;
  do a <- to_html_m (m_app_name m);
  put_html ("<h1>" +s+ a +s+ "</h1>" +s+ nl) ;;
  do d <- to_html_m (m_short_description m);
  put_html ("<div>" +s+ d +s+ "</div>" +s+ nl).

(** print_section, 97-103; print_subsection, 108-114 *)
Definition html_section (title : string) : M hstate unit :=
  close_list ;; close_paragraph ;; do t <- to_html_m title; put_html ("<h2>" +s+ t +s+ "</h2>" +s+ nl).
Definition html_subsection (title : string) : M hstate unit :=
  close_list ;; close_paragraph ;; do t <- to_html_m title; put_html ("<h3>" +s+ t +s+ "</h3>" +s+ nl).

(** print_line, 121-135 *)
Definition html_line (text : string) (par : bool) : M hstate unit :=
  close_list ;; open_paragraph ;; do t <- to_html_m text; put_html (t +s+ nl) ;;
  (if par then close_paragraph else put_html ("<br>" +s+ nl)).

(** print_list_item, 146-158 *)
Definition html_item (term desc : string) : M hstate unit :=
  close_paragraph ;; open_list ;;
  do t <- to_html_m term; put_html ("<dt>" +s+ t +s+ "</dt>" +s+ nl) ;;
  do d <- to_html_m desc; put_html ("<dd>" +s+ d +s+ "</dd>" +s+ nl).

(** print_footer, 161-167 *)
Definition html_footer : M hstate unit := close_paragraph ;; put_html "</body></html>".

(** in_bold, 237-240 *)
Definition html_printer : printer hstate :=
  {| p_header := html_header; p_section := html_section; p_subsection := html_subsection; p_line := html_line;
     p_item := html_item; p_footer := html_footer; p_bold := fun s => "<strong>" +s+ s +s+ "</strong>" |}.

End html.

(** ** Man pages, format_man.hpp 57-160 *)

Record mstate := { n_out : string; n_first : bool }.     (* std::cout, is_first_in_section *)

Definition put_man (s : string) : M mstate unit := modify (fun st => {| n_out := n_out st +s+ s; n_first := n_first st |}).
Definition set_first (b : bool) : M mstate unit := modify (fun st => {| n_out := n_out st; n_first := b |}).

(** print_header, 58-83 *)
Definition man_header (m : meta) : M mstate unit :=
  put_man (".TH " +s+ smap to_upper (m_app_name m) +s+ " " +s+ Z_to_string (Z.of_N (m_man_page_section m))
           +s+ " """ +s+ m_date m +s+ """ """ +s+ smap to_lower (m_app_name m) +s+ " " +s+ m_version m +s+ """ """
           +s+ m_man_page_title m +s+ """" +s+ nl
           +s+ ".SH NAME" +s+ nl +s+ m_app_name m +s+ " \- " +s+ m_short_description m +s+ nl).
(** print_section, 88-101 *)
Definition man_section (title : string) : M mstate unit :=
  put_man (".SH " +s+ smap to_upper title +s+ nl) ;; set_first true.
(** print_subsection, 106-110 *)
Definition man_subsection (title : string) : M mstate unit := put_man (".SS " +s+ title +s+ nl) ;; set_first true.
(** print_line, 118-127 *)
Definition man_line (text : string) (par : bool) : M mstate unit :=
  (fun st => put_man (if n_first st then "" else if par then ".sp" +s+ nl else ".br" +s+ nl) st) ;;
  put_man (text +s+ nl) ;; set_first false.
(** print_list_item, 138-142 *)
Definition man_item (term desc : string) : M mstate unit :=
  put_man (".TP" +s+ nl +s+ term +s+ nl +s+ desc +s+ nl) ;; set_first false.
(** in_bold, 154-157; no footer, 145-148 *)
Definition man_printer : printer mstate :=
  {| p_header := man_header; p_section := man_section; p_subsection := man_subsection; p_line := man_line;
     p_item := man_item; p_footer := ret tt; p_bold := fun s => "\fB" +s+ s +s+ "\fR" |}.

(** ** Tool descriptions, format_tdl.hpp 105-421.  The TDL library (not part of the repository) turns the
    collected data into text; here its data types are mirrored and the conversion is a parameter.
    Simplification: [tags] of a node is a list; the tags depending on the validator's type (190-208) are a
    parameter as the model's config does not record that type. *)

Inductive tdl_value :=
| TvBool (b : bool) | TvInt (z : Z) | TvDouble (x : fnum) | TvString (s : string) | TvStringList
| TvChildren (l : list tdl_node)
with tdl_node := TdlNode (name description : string) (tags : list string) (value : tdl_value).

Definition nd_name (n : tdl_node) : string := let 'TdlNode a _ _ _ := n in a.
Definition nd_description (n : tdl_node) : string := let 'TdlNode _ d _ _ := n in d.
Definition nd_tags (n : tdl_node) : list string := let 'TdlNode _ _ t _ := n in t.
Definition nd_value (n : tdl_node) : tdl_value := let 'TdlNode _ _ _ v := n in v.

Record tool_info := {
  ti_version : string; ti_name : string; ti_docurl : string; ti_description : string; ti_executable : string;
  ti_cli : list (string * string); ti_params : list tdl_node }.

(** to_tdl, 69-97: containers, enumerations and user types become [false]; a float becomes a double *)
Definition to_tdl (t : vty) (v : val) : tdl_value :=
  match t, v with
  | Scalar TBool, VBool b => TvBool b
  | Scalar (TInt _ _), VInt z | Scalar TChar, VInt z => TvInt z
  | Scalar (TFloat _ _ _ _), VFloat x => TvDouble x
  | Scalar TString, VStr s => TvString s
  | _, _ => TvBool false
  end.

Section tdl.
Variable path_tags : config -> list string.

(** add_option, 160-238 *)
Definition tdl_option (x : addr) (t : vty) (c : config) (vs : store) : tdl_node * (string * string) :=
  let tags := (if c_required c then ["required"] else []) ++ (if c_advanced c then ["advanced"] else []) in
  (match t with
   | Scalar TPath => TdlNode (c_long c) (option_info t (vs x) c) (tags ++ path_tags c) (TvString (to_string t (vs x)))
   | _ => TdlNode (c_long c) (option_info t (vs x) c) tags (to_tdl t (vs x))
   end, ("--" +s+ c_long c, c_long c)).
(** add_flag, 244-258 *)
Definition tdl_flag (x : addr) (c : config) (vs : store) : tdl_node :=
  TdlNode (c_long c) (c_desc c) [] (to_tdl (Scalar TBool) (vs x)).
(** add_positional_option, 264-314 *)
Definition tdl_positional (n : nat) (x : addr) (t : vty) (c : config) (vs : store) : tdl_node :=
  TdlNode ("positional_" +s+ nat_to_string n)
    (c_desc c +s+ (if is_container t then default_of_value t (vs x) else "") +s+ validator_info c)
    (if is_container t then [] else ["required"]) (if is_container t then TvStringList else TvString "").

Fixpoint tdl_positionals (n : nat) (vs : store) (l : list op) : list tdl_node :=
  match l with
  | [] => []
  | OpDecl (DPositional x t c) :: l' => tdl_positional n x t c vs :: tdl_positionals (S n) vs l'
  | _ :: l' => tdl_positionals n vs l'
  end.
(** the stored calls of options and flags with [store_help_page_element], 415-421 *)
Fixpoint tdl_options (vs : store) (l : list op) : list (tdl_node * option (string * string)) :=
  match l with
  | [] => []
  | OpDecl (DOption x t c) :: l' =>
      if c_hidden c then tdl_options vs l'
      else (fst (tdl_option x t c vs), Some (snd (tdl_option x t c vs))) :: tdl_options vs l'
  | OpDecl (DFlag x c) :: l' => if c_hidden c then tdl_options vs l' else (tdl_flag x c vs, None) :: tdl_options vs l'
  | _ :: l' => tdl_options vs l'
  end.

Fixpoint somes {A} (l : list (option A)) : list A :=
  match l with [] => [] | Some a :: l' => a :: somes l' | None :: l' => somes l' end.

(** parse, 322-378: the data given to the converter; 360-367 wraps the parameters once for every further name *)
Fixpoint wrap (names : list string) (l : list tdl_node) : list tdl_node :=
  match names with
  | [] => l
  | n :: names' => wrap names' [TdlNode n "" ["basecommand"] (TvChildren l)]
  end.
Definition tool_info_of (r : page_request) : tool_info :=
  let m := pr_info r in
  let opts := tdl_options (pr_vars r) (pr_ops r) in
  {| ti_version := m_version m; ti_name := m_app_name m; ti_docurl := m_url m;
     ti_description := sconcat (map (fun d => d +s+ nl) (m_description m));
     ti_executable := match pr_executable r with [] => "" | e :: _ => e end;
     ti_cli := somes (map snd opts);
     ti_params := wrap (rev (List.tl (pr_executable r)))
                    (tdl_positionals 0 (pr_vars r) (pr_ops r) ++ map fst opts) |}.
End tdl.

(** ** All pages: parse_format of parser.hpp 1137-1148 for the formats other than format_parse *)

(** What the pages depend on besides the parser.  [pe_tdl]: the converters of the TDL library, if there is one. *)
Record page_env := {
  pe_ndebug : bool; pe_tty : bool; pe_width : nat; pe_license : string;
  pe_tdl : option (bool -> tool_info -> string); pe_path_tags : config -> list string }.

Definition printed {St} (out : St -> string) (r : St * res unit) : res string :=
  lift_res (snd r) (fun _ => Ret (out (fst r))).

Definition exports (e : page_env) : string := if pe_tdl e then "[html, man, ctd, cwl]" else "[html, man]".

Definition text_init : tstate := {| t_out := ""; t_par := false |}.
Definition html_init : hstate := {| h_out := ""; h_dl := false; h_p := false |}.
Definition man_init : mstate := {| n_out := ""; n_first := true |}.

Definition page (e : page_env) (r : page_request) : res string :=
  let lay := layout_of (pe_width e) in
  let tp := text_printer (pe_ndebug e) (pe_tty e) lay in
  match pr_format r with
  | FHelp adv => printed t_out (print_page tp (exports e) adv r text_init)
  | FShortHelp => printed t_out (short_help_page (pe_ndebug e) (pe_tty e) lay (pr_info r) text_init)
  | FVersion => printed t_out (version_page (pe_ndebug e) (pe_tty e) lay (pr_info r) text_init)
  | FCopyright => printed t_out (copyright_page (pe_tty e) (pe_license e) (pr_info r) text_init)
  | FHtml => printed h_out (print_page (html_printer (pe_ndebug e)) (exports e) false r html_init)   (* advanced = false *)
  | FMan => printed n_out (print_page man_printer (exports e) false r man_init)                     (* advanced = false *)
  | FTdl cwl =>
      match pe_tdl e with
      | None => Throw (Exn KValidation ("Validation failed for option --export-help: Value must be one of "
                                        +s+ exports e +s+ "."))          (* format_tdl.hpp 39-44 *)
      | Some conv => Ret (conv cwl (tool_info_of (pe_path_tags e) r) +s+ (if cwl then nl else ""))
      end
  | FParse => UB     (* never asked for: parse_format of Parser.v only asks for the other formats *)
  end.
