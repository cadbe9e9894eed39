(** C106: fonts on a terminal. *)
From Verif Require Import Base StrLib HelpBase HelpText HelpSpec FontSpec FontProofs.

(** Every character of a text other than blanks is shown, in order, in the font that has been switched to before it, wherever the lines are broken:
    \fB adds bold, \fI adds underlining, \fP ends both; [x]: the font before the text *)
Theorem C106_fonts : forall nd L text tab st x, forallb closed (words (until_nul text)) = true -> scontains "027" text = false ->
  exists out, print_text nd true L text tab st = ({| t_out := t_out st +s+ out; t_par := t_par st |}, Ret tt) /\
    ink (seen x out) = marked adds x (sconcat (words (until_nul text))).
Proof. exact print_text_fonts. Qed.
Print Assumptions C106_fonts.

(** This is the font roff shows, where a switch replaces the font, if \fP comes before the next switch *)
Theorem C106_as_in_man : forall nd L text tab st, forallb closed (words (until_nul text)) = true -> scontains "027" text = false ->
  separate false (sconcat (words (until_nul text))) = true ->
  exists out, print_text nd true L text tab st = ({| t_out := t_out st +s+ out; t_par := t_par st |}, Ret tt) /\
    ink (seen normal out) = marked replaces normal (sconcat (words (until_nul text))).
Proof. exact print_text_asked. Qed.
Print Assumptions C106_as_in_man.

(** nothing of this is written where the output is no terminal *)
Theorem C106_file : forall nd L text tab st, forallb closed (words (until_nul text)) = true -> scontains "027" text = false ->
  exists out, print_text nd false L text tab st = ({| t_out := t_out st +s+ out; t_par := t_par st |}, Ret tt) /\ scontains "027" out = false.
Proof. exact print_text_file. Qed.
Print Assumptions C106_file.

(** the entries of options: term and description, one after the other *)
Theorem C106_items : forall nd L term desc st x, closed term = true -> scontains "027" term = false ->
  forallb closed (words (until_nul desc)) = true -> scontains "027" desc = false ->
  exists out, print_list_item nd true L term desc st = ({| t_out := t_out st +s+ out; t_par := false |}, Ret tt) /\
    ink (seen x out) = ink (marked adds x (term +s+ sconcat (words (until_nul desc)))).
Proof. exact item_fonts. Qed.
Print Assumptions C106_items.

(** titles are bold, and end every font; [r]: what is printed next *)
Theorem C106_sections : forall title st x, scontains "027" title = false ->
  exists out, print_section true title st = ({| t_out := t_out st +s+ out; t_par := false |}, Ret tt) /\
    forall r, ink (seen x (out +s+ r)) = ink (map (fun c => (c, (true, snd x))) (chars (upper_case title))) ++ ink (seen normal r).
Proof. exact section_fonts. Qed.
Print Assumptions C106_sections.
Theorem C106_subsections : forall L title st x, scontains "027" title = false ->
  exists out, print_subsection true L title st = ({| t_out := t_out st +s+ out; t_par := false |}, Ret tt) /\
    forall r, ink (seen x (out +s+ r)) = ink (map (fun c => (c, (true, snd x))) (chars title)) ++ ink (seen normal r).
Proof. exact subsection_fonts. Qed.
Print Assumptions C106_subsections.

Definition screen40 : layout := layout_of 40.
Definition nothing_yet : tstate := {| t_out := ""; t_par := false |}.
Definition printed (text : string) : string := t_out (fst (print_text true true screen40 text 4 nothing_yet)).
Definition two_fonts : string := "a \fBb c\fP \fId\fP \-".
Example C106_case : forallb closed (words (until_nul two_fonts)) = true /\ scontains "027" two_fonts = false /\
  separate false (sconcat (words (until_nul two_fonts))) = true /\
  ink (seen normal (printed two_fonts)) =
    [("a"%char, normal); ("b"%char, (true, false)); ("c"%char, (true, false)); ("d"%char, (false, true)); ("-"%char, normal)].
Proof. vm_compute. auto. Qed.

Example C106_items_case : closed "\fB-i\fP" = true /\ ink (seen normal (t_out (fst (print_list_item true true screen40 "\fB-i\fP" "a \fIb\fP" nothing_yet)))) =
    [("-"%char, (true, false)); ("i"%char, (true, false)); ("a"%char, normal); ("b"%char, (false, true))].
Proof. vm_compute. auto. Qed.
Example C106_sections_case : ink (seen normal (t_out (fst (print_section true "Op" nothing_yet)))) = [("O"%char, (true, false)); ("P"%char, (true, false))] /\
  ink (seen normal (t_out (fst (print_subsection true screen40 "Op" nothing_yet)))) = [("O"%char, (true, false)); ("p"%char, (true, false))].
Proof. vm_compute. auto. Qed.

(** The property "a text is shown in the fonts of its markup" is false if a font is switched to before the other has ended: both are shown *)
Theorem C106_as_in_man_refuted : exists text, forallb closed (words (until_nul text)) = true /\ scontains "027" text = false /\
  ink (seen normal (printed text)) = [("a"%char, (true, false)); ("b"%char, (true, true))] /\
  marked replaces normal (sconcat (words (until_nul text))) = [("a"%char, (true, false)); ("b"%char, (false, true))].
Proof. exists "\fBa\fIb\fP". vm_compute. auto. Qed.
Print Assumptions C106_as_in_man_refuted.

(** and the font of one text goes on in the next if it has not been ended *)
Theorem C106_ends_refuted : exists text, forallb closed (words (until_nul text)) = true /\ scontains "027" text = false /\
  ink (seen normal (t_out (fst (print_text true true screen40 "b" 4 {| t_out := printed text; t_par := false |})))) = [("a"%char, (true, false)); ("b"%char, (true, false))].
Proof. exists "\fBa". vm_compute. auto. Qed.
Print Assumptions C106_ends_refuted.

(** blanks are not covered by C106_fonts: where an underlined text is broken, the indentation of the next line is underlined *)
Example C106_indentation : filter (fun p => Ascii.eqb (fst p) " " && snd (snd p)) (seen normal (printed ("\fIaaaaaaaaaaaaaaaaaaaa bbbbbbbbbbbbbbbbbbbb\fP"))) =
  [(" "%char, (false, true)); (" "%char, (false, true)); (" "%char, (false, true)); (" "%char, (false, true))].
Proof. vm_compute. reflexivity. Qed.
