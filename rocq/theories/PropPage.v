(** Exactly when pages are printed (C46). *)
From Verif Require Import Base Fs Values Validators FormatParse Parser HelpBase HelpText HelpExport HelpSpec Samples HelpSamples PageSpec PageProofs.

Theorem C46_help_exact : forall e r adv, pr_format r = FHelp adv -> (exists out, page e r = Ret out) <-> help_prints adv r = true.
Proof. exact help_exact. Qed.
Print Assumptions C46_help_exact.
Theorem C46_html_exact : forall e r, pr_format r = FHtml -> (exists out, page e r = Ret out) <-> html_prints r = true.
Proof. exact html_exact. Qed.
Print Assumptions C46_html_exact.
Theorem C46_man_exact : forall e r, pr_format r = FMan -> (exists out, page e r = Ret out) <-> has_commands (pr_info r) = true.
Proof. exact man_exact. Qed.
Print Assumptions C46_man_exact.
Theorem C46_short_help_exact : forall e r, pr_format r = FShortHelp -> (exists out, page e r = Ret out) <-> short_help_prints r = true.
Proof. exact short_help_exact. Qed.
Print Assumptions C46_short_help_exact.
Theorem C46_version_exact : forall e r, pr_format r = FVersion -> (exists out, page e r = Ret out) <-> version_prints r = true.
Proof. exact version_exact. Qed.
Print Assumptions C46_version_exact.

(** what happens otherwise *)
Theorem C46_failures : forall e r, pr_format r <> FParse -> (forall cwl, pr_format r = FTdl cwl -> pe_tdl e <> None) ->
  fails_as (pe_ndebug e) (has_commands (pr_info r)) (page e r).
Proof. exact page_outcomes. Qed.
Print Assumptions C46_failures.

(** A description that cannot be printed matters only where the option is shown; behind a null character, nothing matters
    on the page for the terminal. *)
Example C46_hidden_case :
  let bad := described "Use C:\ as root." (cfg "r" "root") in
  let shown c := request (FHelp false) (meta_of "app") [OpDecl (DFlag 2 c)] vars0 in
  help_prints false (shown bad) = false /\ help_prints false (shown (hidden bad)) = true /\ help_prints false (shown (advanced bad)) = true
  /\ help_prints true (shown (advanced bad)) = false
  /\ html_prints (request FHtml (meta_of "app") [OpDecl (DFlag 2 bad)] vars0) = true.
Proof. repeat split; vm_compute; reflexivity. Qed.
Example C46_null_case :
  let s := "Use C:" +s+ String nul "\ as root." in
  help_prints false (request (FHelp false) (with_description (meta_of "app") [s]) [] vars0) = true /\ intact s = false /\
  let t := "Use C:" +s+ String nul "\" in
  help_prints false (request (FHelp false) (with_description (meta_of "app") [t]) [] vars0) = true /\ intact t = false /\
  html_prints (request FHtml (with_description (meta_of "app") [t]) [] vars0) = false.
Proof. cbv zeta. repeat split; vm_compute; reflexivity. Qed.
(** fonts: switching back one that was not switched on, and not switching back at all *)
Example C46_fonts_case :
  html_prints (request FHtml (with_description (meta_of "app") ["a\fP"]) [] vars0) = false /\
  html_prints (request FHtml (with_description (meta_of "app") ["\fBa"]) [] vars0) = true /\
  help_prints false (request (FHelp false) (with_description (meta_of "app") ["a\fP"; "\fBa"]) [] vars0) = true /\
  html_prints (request FHtml app_meta app_ops vars0) = true /\ help_prints true (request (FHelp true) app_meta app_ops vars0) = true.
Proof. repeat split; vm_compute; reflexivity. Qed.
Example C46_other_case :
  short_help_prints (request FShortHelp (with_synopsis (meta_of "app") ["app\ [OPTIONS]"]) [] vars0) = true /\
  short_help_prints (request FShortHelp (with_synopsis (meta_of "app") ["app [\ ]"]) [] vars0) = false /\
  version_prints (request FVersion (meta_of "app\") [] vars0) = false /\ version_prints (request FVersion (meta_of "app") [] vars0) = true.
Proof. repeat split; vm_compute; reflexivity. Qed.
