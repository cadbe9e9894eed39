(** The pages for the terminal: include/sharg/detail/format_help.hpp. *)
From Verif Require Import Base Fs Values Validators FormatParse Parser HelpBase.

(** ** The layout, 63-107 *)

(** only the members that are used; [width]: result of get_terminal_width(), terminal.hpp 85-102 *)
Record layout := {
  screen_width : nat; left_padding : nat; center_padding : nat; right_padding : nat; left_column_width : nat;
  right_column_tab : nat }.

Definition layout_of (width : nat) : layout :=
  let w := if (0 <? width)%nat then width else 80%nat in
  let w := Nat.min (Nat.max w 40) 120 in
  {| screen_width := w - 2; left_padding := 4; center_padding := 2; right_padding := 2; left_column_width := 4;
     right_column_tab := 4 + 4 + 2 |}.

Definition to_upper (c : chr) : chr := if is_lower c then ascii_of_N (code c - 32) else c.   (* std::toupper, "C" locale *)
Fixpoint smap (f : chr -> chr) (s : string) : string :=
  match s with EmptyString => EmptyString | String c s' => String (f c) (smap f s') end.

Definition esc (s : string) : string := String "027" s.

Section text.
Variable ndebug : bool.     (* NDEBUG defined *)
Variable tty : bool.        (* stdout_is_terminal() *)

(** the end of the text after a backslash or after "\f": the assertion fails, or [*str.end()] is read and the
    iterator runs on *)
Definition dangling {A} : res A := if ndebug then UB else AssertFail.

Definition on_tty (s : string) : string := if tty then s else "".

(** to_text, 220-273 *)
Fixpoint to_text (s : string) : res string :=
  match s with
  | EmptyString => Ret EmptyString
  | String c s1 =>
      if Ascii.eqb c "\" then
        match s1 with
        | EmptyString => dangling
        | String d s2 =>
            if Ascii.eqb d "-" then lift_res (to_text s2) (fun r => Ret (String d r))
            else if Ascii.eqb d "f" then
              match s2 with
              | EmptyString => dangling
              | String e s3 =>
                  lift_res (to_text s3) (fun r =>
                    Ret ((if Ascii.eqb e "I" then on_tty (esc "[4m")
                          else if Ascii.eqb e "B" then on_tty (esc "[1m")
                          else if Ascii.eqb e "P" then on_tty (esc "[0m")
                          else "\f" +s+ str1 e) +s+ r))
              end
            else lift_res (to_text s2) (fun r => Ret (String "\" (String d r)))
        end
      else lift_res (to_text s1) (fun r => Ret (String c r))
  end.

(** text_width, 279-321 *)
Fixpoint text_width (s : string) : nat :=
  match s with
  | EmptyString => 0
  | String c s1 =>
      if negb (Ascii.eqb c "\") then 1 + text_width s1
      else match s1 with
           | EmptyString => 1
           | String d s2 =>
               if Ascii.eqb d "\" || Ascii.eqb d "-" then 1 + text_width s2
               else match s2 with
                    | EmptyString => 2
                    | String e s3 =>
                        if Ascii.eqb d "f" then
                          if Ascii.eqb e "B" || Ascii.eqb e "I" || Ascii.eqb e "P" then text_width s3
                          else 1 + text_width s1
                        else text_width s1
                    end
           end
  end.

(** in_bold, 381-384; to_text of the two constants *)
Definition in_bold (s : string) : string := on_tty (esc "[1m") +s+ s +s+ on_tty (esc "[0m").

(** ** Printing *)

Record tstate := { t_out : string; t_par : bool }.       (* std::cout, prev_was_paragraph *)

Definition put_text (s : string) : M tstate unit := modify (fun st => {| t_out := t_out st +s+ s; t_par := t_par st |}).
Definition set_par (b : bool) : M tstate unit := modify (fun st => {| t_out := t_out st; t_par := b |}).
Definition spaces (n : nat) : string := srep n " ".
Definition get_par : M tstate bool := fun st => (st, Ret (t_par st)).
Definition put_to_text (s : string) : M tstate unit :=
  do t <- (fun st => (st, to_text s)); put_text t.

Variable L : layout.

(** [text.c_str()]: up to the first null character *)
Fixpoint c_str (s : string) : string :=
  match s with
  | EmptyString => EmptyString
  | String c s' => if Ascii.eqb c nul then EmptyString else String c (c_str s')
  end.

(** the words read by [std::istream_iterator<std::string>]; [w]: the word being read *)
Fixpoint read_words (w s : string) : list string :=
  match s with
  | EmptyString => if is_empty w then [] else [w]
  | String c s' => if is_space c then (if is_empty w then read_words "" s' else w :: read_words "" s')
                   else read_words (w +s+ str1 c) s'
  end.
Definition tokens (s : string) : list string := read_words "" (c_str s).

(** the body of the loop 341-370 for a token that is not the first, at column [pos] *)
Fixpoint print_tokens (tab pos : nat) (l : list string) : M tstate unit :=
  match l with
  | [] => ret tt
  | t :: l' =>
      if (screen_width L <? pos + 1 + text_width t)%nat then
        put_text (nl +s+ spaces tab) ;; put_to_text t ;; print_tokens tab (tab + text_width t) l'
      else
        put_text " " ;; put_to_text t ;; print_tokens tab (pos + (text_width t + 1)) l'
  end.

(** print_text, 327-374 *)
Definition print_text (text : string) (tab : nat) : M tstate unit :=
  match tokens text with
  | [] => ret tt
  | t :: l =>
      put_to_text t ;;
      (if (screen_width L <? tab + text_width t)%nat then
         put_text (nl +s+ spaces tab) ;; print_tokens tab tab l
       else print_tokens tab (tab + text_width t) l) ;;
      put_text nl
  end.

(** print_header, 114-127 *)
Definition print_header (m : meta) : M tstate unit :=
  put_text (m_app_name m
            +s+ (if is_empty (m_short_description m) then "" else " - " +s+ m_short_description m)
            +s+ nl
            +s+ srep (text_width (m_app_name m) + (if is_empty (m_short_description m) then 0 else 3)
                      + text_width (m_short_description m)) "="
            +s+ nl).

(** print_section, 132-146 *)
Definition print_section (title : string) : M tstate unit :=
  put_text (nl +s+ on_tty (esc "[1m") +s+ smap to_upper title +s+ on_tty (esc "[0m") +s+ nl) ;; set_par false.

(** print_subsection, 151-158 *)
Definition print_subsection (title : string) : M tstate unit :=
  put_text (nl +s+ spaces (left_padding L / 2) +s+ in_bold title +s+ nl) ;; set_par false.

(** print_line, 165-174 *)
Definition print_line (text : string) (par : bool) : M tstate unit :=
  do p <- get_par;
  (if p then put_text nl else ret tt) ;;
  put_text (spaces (left_padding L)) ;;
  print_text text (left_padding L) ;;
  set_par par.

(** print_list_item, 189-209; the column after the term is computed from the size of the term *)
Definition print_list_item (term desc : string) : M tstate unit :=
  do p <- get_par;
  (if p then put_text nl else ret tt) ;;
  put_text (spaces (left_padding L)) ;;
  put_to_text term ;;
  (let pos := left_padding L + String.length term in
   if (right_column_tab L <? pos + center_padding L)%nat then
     put_text (nl +s+ spaces (right_column_tab L - 0))
   else put_text (spaces (right_column_tab L - pos))) ;;
  print_text desc (right_column_tab L) ;;
  set_par false.

Definition text_printer : printer tstate :=
  {| p_header := print_header; p_section := print_section; p_subsection := print_subsection; p_line := print_line;
     p_item := print_list_item; p_footer := ret tt; p_bold := in_bold |}.

(** format_short_help::parse, 412-422 *)
Definition short_help_page (m : meta) : M tstate unit :=
  print_header m ;;
  (if nonempty (m_synopsis m) then print_synopsis text_printer m else ret tt) ;;
  print_line ("Try -h or --help for more information." +s+ nl) true.

(** format_version::parse, 442-448 *)
Definition version_page (m : meta) : M tstate unit :=
  print_header m ;; print_version text_printer m.

(** the licence text, 471-500, is a parameter: [license] *)
Variable license : string.

(** format_copyright::parse, 468-522 *)
Definition copyright_page (m : meta) : M tstate unit :=
  put_text (srep 80 "=" +s+ nl +s+ in_bold ("Copyright information for " +s+ m_app_name m +s+ ":" +s+ nl)
            +s+ srep 80 "-" +s+ nl) ;;
  put_text (if negb (is_empty (m_long_copyright m)) then on_tty (esc "[0m") +s+ m_long_copyright m +s+ nl
            else if negb (is_empty (m_short_copyright m)) then
              in_bold (m_app_name m +s+ " full copyright information not available. "
                       +s+ "Displaying short copyright information instead:" +s+ nl)
              +s+ m_short_copyright m +s+ nl
            else on_tty (esc "[0m") +s+ m_app_name m +s+ " copyright information not available." +s+ nl) ;;
  put_text (srep 80 "=" +s+ nl
            +s+ in_bold ("This program contains SeqAn code licensed under the following terms:" +s+ nl)
            +s+ srep 80 "-" +s+ nl +s+ license +s+ nl).

End text.
