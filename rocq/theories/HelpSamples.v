(** Applications used by the examples beside the theorems about help pages. *)
From Verif Require Import Base Fs Values Validators FormatParse Parser HelpExport Samples.

Definition env (ndebug tty : bool) (width : nat) : page_env :=
  {| pe_ndebug := ndebug; pe_tty := tty; pe_width := width; pe_license := "licence"; pe_tdl := None; pe_path_tags := fun _ => [] |}.
Definition request (f : format) (m : meta) (l : list op) (vs : store) : page_request :=
  {| pr_format := f; pr_info := m; pr_subcommands := []; pr_dev := true; pr_executable := ["app"]; pr_ops := l; pr_vars := vs |}.
Definition with_synopsis (m : meta) (l : list string) : meta :=
  {| m_app_name := m_app_name m; m_version := m_version m; m_short_description := m_short_description m; m_author := m_author m;
     m_email := m_email m; m_date := m_date m; m_url := m_url m; m_short_copyright := m_short_copyright m;
     m_long_copyright := m_long_copyright m; m_citation := m_citation m; m_man_page_title := m_man_page_title m;
     m_man_page_section := m_man_page_section m; m_description := m_description m; m_synopsis := l; m_examples := m_examples m |}.
Definition with_description (m : meta) (l : list string) : meta :=
  {| m_app_name := m_app_name m; m_version := m_version m; m_short_description := m_short_description m; m_author := m_author m;
     m_email := m_email m; m_date := m_date m; m_url := m_url m; m_short_copyright := m_short_copyright m;
     m_long_copyright := m_long_copyright m; m_citation := m_citation m; m_man_page_title := m_man_page_title m;
     m_man_page_section := m_man_page_section m; m_description := l; m_synopsis := m_synopsis m; m_examples := m_examples m |}.
Definition described (d : string) (c : config) : config :=
  {| c_short := c_short c; c_long := c_long c; c_desc := d; c_default_message := c_default_message c;
     c_advanced := c_advanced c; c_hidden := c_hidden c; c_required := c_required c; c_validator := c_validator c; c_vhelp := c_vhelp c |}.
Definition advanced (c : config) : config :=
  {| c_short := c_short c; c_long := c_long c; c_desc := c_desc c; c_default_message := c_default_message c;
     c_advanced := true; c_hidden := c_hidden c; c_required := c_required c; c_validator := c_validator c; c_vhelp := c_vhelp c |}.
Definition hidden (c : config) : config :=
  {| c_short := c_short c; c_long := c_long c; c_desc := c_desc c; c_default_message := c_default_message c;
     c_advanced := c_advanced c; c_hidden := true; c_required := c_required c; c_validator := c_validator c; c_vhelp := c_vhelp c |}.
Definition explained (h : string) (c : config) : config :=
  {| c_short := c_short c; c_long := c_long c; c_desc := c_desc c; c_default_message := c_default_message c;
     c_advanced := c_advanced c; c_hidden := c_hidden c; c_required := c_required c; c_validator := c_validator c; c_vhelp := h |}.

Definition app_meta : meta := with_description (with_synopsis (meta_of "app") ["app [-i \fIN\fP] FILE"]) ["Does \fBthings\fP."].
Definition app_ops : list op :=
  [OpSection "First section" false;
   OpDecl (DOption 0 (Scalar int32) (described "A number." (cfg "i" "int")));
   OpDecl (DOption 1 (ListOf int32) (described "Numbers." (advanced (cfg nul "list"))));
   OpSubsection "More" false;
   OpDecl (DFlag 2 (described "Nothing to see." (hidden (cfg "q" "quiet"))));
   OpDecl (DPositional 4 (Scalar TString) (described "The file." (cfg nul "")));
   OpLine "A line \- of text." true false;
   OpDecl (DFlag 3 (described "Be brief." (cfg "b" "")));
   OpListItem "key" "value" true].
