(** C108: fonts of the HTML page. *)
From Verif Require Import Base StrLib HelpBase HelpText HelpExport HelpSpec FontSpec HtmlFontSpec HtmlFontProofs.

(** A browser shows every character in the fonts that have been switched to before it: \fB is bold, \fI emphasised, \fP goes back to the font before *)
Theorem C108_fonts : forall nd s out, to_html nd s = Ret out -> scontains "<" s = false -> shown 0 [] out = tagged [] s.
Proof. exact to_html_fonts. Qed.
Print Assumptions C108_fonts.

(** This is the font roff shows, where a switch replaces the font, if \fP comes before the next switch *)
Theorem C108_as_in_man : forall nd s out, to_html nd s = Ret out -> scontains "<" s = false -> separate false s = true ->
  shown 0 [] out = marked replaces normal s.
Proof. exact to_html_as_in_man. Qed.
Print Assumptions C108_as_in_man.

Definition both_fonts : string := "a\fBb\fP\fIc\fP\-".
Example C108_case : to_html true both_fonts = Ret "a<strong>b</strong><em>c</em>-" /\ scontains "<" both_fonts = false /\ separate false both_fonts = true /\
  shown 0 [] "a<strong>b</strong><em>c</em>-" = [("a"%char, normal); ("b"%char, (true, false)); ("c"%char, (false, true)); ("-"%char, normal)].
Proof. vm_compute. auto. Qed.

(** Otherwise a text has other fonts in a browser than in man, and than on a terminal, where \fP ends both *)
Definition nested_fonts : string := "\fBa\fIb\fPc\fP".
Theorem C108_as_in_man_refuted : exists s out, to_html true s = Ret out /\ scontains "<" s = false /\
  shown 0 [] out <> marked replaces normal s /\ shown 0 [] out <> marked adds normal s.
Proof. exists nested_fonts, "<strong>a<em>b</em>c</strong>". vm_compute. repeat split; discriminate. Qed.
Print Assumptions C108_as_in_man_refuted.

(** A font that is not ended goes on after the text *)
Theorem C108_ends_refuted : exists s out, to_html true s = Ret out /\ scontains "<" s = false /\ shown 0 [] (out +s+ "x") <> tagged [] s ++ [("x"%char, normal)].
Proof. exists "\fBa", "<strong>a". vm_compute. repeat split; discriminate. Qed.
Print Assumptions C108_ends_refuted.
(** [scontains "<"] is needed: tags in texts are not escaped *)
Example C108_needed : to_html true "<em>a" = Ret "<em>a" /\ shown 0 [] "<em>a" <> tagged [] "<em>a".
Proof. vm_compute. split; [reflexivity|discriminate]. Qed.
