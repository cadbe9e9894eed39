(** What a parser says about itself (include/sharg/auxiliary.hpp:34-107, parser_meta_data): the last
    thing the program wrote there, and for a new parser nothing but its name. *)
From Verif Require Import Base Fs Values Validators FormatParse Parser.

(** auxiliary.hpp:34-107: the members nobody has written are empty, the section of the manual is 1 *)
Record says_only (name : string) (m : meta) : Prop := {
  so_name : m_app_name m = name;
  so_texts : Forall (fun s => s = "") [m_version m; m_short_description m; m_author m; m_email m; m_date m; m_url m;
               m_short_copyright m; m_long_copyright m; m_citation m; m_man_page_title m];
  so_section : m_man_page_section m = 1%N;
  so_lists : Forall (fun l => l = []) [m_description m; m_synopsis m; m_examples m] }.

(** the last thing written to parser.info by the calls [cs], or else [m] *)
Definition last_written (m : meta) (cs : list call) : meta :=
  fold_left (fun m c => match c with CInfo m' => m' | _ => m end) cs m.

(** the calls made on the sub-parser, of the calls made on a parser *)
Definition below (cs : list call) : list call := flat_map (fun c => match c with CSub c' => [c'] | _ => [] end) cs.

(** [cs] are the calls made on a parser that was [p] and is [p'] now; in between variables and files may change *)
Inductive lived (ndebug : bool) (bk : backend) : parser -> list call -> parser -> Prop :=
| lived_none p : lived ndebug bk p [] p
| lived_call w w' r c cs p' : step ndebug bk c w = (w', r) -> lived ndebug bk (w_parser w') cs p' ->
    lived ndebug bk (w_parser w) (c :: cs) p'.
