(** Exported HTML: exactly which pages are well nested (C44), exactly which texts are shown literally (C45). *)
From Verif Require Import Base StrLib Fs Values Validators FormatParse Parser HelpBase HelpText HelpExport HelpSpec PageSpec HtmlShownSpec HtmlShown HtmlNested
  Samples HelpSamples.

(** ** C44: nesting *)

(** If no text contains '<', a printed page is well nested if and only if every text switches its fonts off again. *)
Theorem C44_exact : forall e r out, pr_format r = FHtml -> page e r = Ret out ->
  scontains "\" (m_app_name (pr_info r)) = false -> scontains nul (m_app_name (pr_info r)) = false ->
  (forall s, In s (all_lines false r ++ all_terms false r ++ all_titles false r) -> scontains "<" s = false) ->
  (well_nested out <-> forall s, In s (all_lines false r ++ all_terms false r ++ all_titles false r) -> balanced 0 s = true).
Proof. exact html_nested_exact. Qed.
Print Assumptions C44_exact.

(** a page with options, a section and lines; the same with a font that stays on, printed all the same *)
Definition nested_sample (line : string) : page_request :=
  request FHtml app_meta (app_ops ++ [OpSection "More" false; OpLine "\fIone\fP" false false; OpLine line false false; OpLine "three" true false]) vars0.
Example C44_exact_case :
  forallb (fun s => negb (scontains "<" s)) (all_lines false (nested_sample "\fBtwo\fP") ++ all_terms false (nested_sample "\fBtwo\fP")
     ++ all_titles false (nested_sample "\fBtwo\fP")) = true /\
  forallb (fun s => negb (scontains "<" s)) (all_lines false (nested_sample "\fBtwo") ++ all_terms false (nested_sample "\fBtwo")
     ++ all_titles false (nested_sample "\fBtwo")) = true /\
  (exists out, page (env true false 80) (nested_sample "\fBtwo\fP") = Ret out /\ html_scan out (HText, []) = Some (HText, [])) /\
  (exists out, page (env true false 80) (nested_sample "\fBtwo") = Ret out /\ html_scan out (HText, []) = None).
Proof.
  split; [vm_compute; reflexivity|]. split; [vm_compute; reflexivity|]. split; eexists; split; vm_compute; reflexivity.
Qed.

(** ** C45: literal texts *)

(** A text is shown as it is (without its markup) if and only if it contains no '<' and no reference to a character.
    A lone '&' does no harm, nor does a reference that is split by markup. *)
Theorem C45_exact : forall ndebug s out, to_html ndebug s = Ret out ->
  (browser_shows out = strip s <-> ~ In "<"%char (chars s) /\ ~ has_reference s).
Proof. exact shows_exact. Qed.
Print Assumptions C45_exact.

(** an ampersand alone does no harm, even in front of what would be a name behind the markup; a reference does *)
Example C45_exact_ex : (exists out, to_html true "R&D \fB& more\fP &\fBlt;\fP" = Ret out /\ browser_shows out = "R&D & more &lt;")
  /\ (exists out, to_html true "a &lt; b" = Ret out /\ browser_shows out = "a < b") /\ has_reference "a &lt; b".
Proof. split; [eexists; split; reflexivity|]. split; [eexists; split; reflexivity|]. exists "a ", "lt;", "<"%char, " b". split; [cbn; tauto|reflexivity]. Qed.
