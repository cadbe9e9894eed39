(** Tests, not proofs: expectations of test/unit/detail/version_check_test.hpp, evaluated in the model.  The tests run without
    a terminal; here the answer of the server does not arrive. *)
From Verif Require Import Base Fs Values FormatParse Parser HelpExport VersionCheck VersionRuns Age Samples Conformance.

Definition now : Z := 1700000000.
Definition runner (nd opt_out : bool) : venv :=
  {| ve_ndebug := nd; ve_os := Linux; ve_64 := true; ve_home := Some "/home/u"; ve_tmp := "/tmp"; ve_opt_out := opt_out; ve_now := now;
     ve_tty := false; ve_answer := ""; ve_system := fun _ => true; ve_recent := library_recent |}.
Definition seqan : key := ["home"; "u"; ".config"; "seqan"].
Definition version_file : key := seqan ++ ["test_version_check.version"].
Definition cookie (nd : bool) : key := seqan ++ [if nd then "test_version_check_usr.timestamp" else "test_version_check_dev.timestamp"].
Definition put (k : key) (s : string) (f : fs) : fs := upd f k (Some (NFile s rw)).
Definition application (url : string) : meta :=
  {| m_app_name := "test_version_check"; m_version := "2.3.4"; m_short_description := ""; m_author := ""; m_email := ""; m_date := "";
     m_url := url; m_short_copyright := ""; m_long_copyright := ""; m_citation := ""; m_man_page_title := "";
     m_man_page_section := 1; m_description := []; m_synopsis := []; m_examples := [] |}.

(** what the check says on standard error, whether it asks the server, and the files afterwards *)
Definition said (l : list event) : string := fold_right append "" (map (fun e => match e with Message s => s | _ => "" end) l).
Definition asked (l : list event) : bool := existsb (fun e => match e with Request _ => true | _ => false end) l.
Definition node_same (a b : option node) : bool :=
  match a, b with None, None => true | Some (NFile s _), Some (NFile t _) => String.eqb s t | _, _ => false end.
Definition checks (nd opt_out : bool) (url : string) (user : option bool) (f : fs) (err : string) (request : bool) (cookie_after version_after : option string)
  : bool :=
  let '(st, r) := version_check (runner nd opt_out) (application url) true user {| vs_fs := f; vs_log := [] |} in
  match r with Ret _ => true | _ => false end && String.eqb (said (vs_log st)) err && Bool.eqb (asked (vs_log st)) request &&
  node_same (vs_fs st (cookie nd)) (match cookie_after with Some s => Some (NFile s rw) | None => None end) &&
  node_same (vs_fs st version_file) (match version_after with Some s => Some (NFile s rw) | None => None end).
Definition both (t : bool -> bool) : bool := t true && t false.
Definition day_before : string := Z_to_string (now - 100401).

Example option_on : both (fun nd => checks nd false "" (Some true) disk "" true None None) = true.
Proof. vm_compute. reflexivity. Qed.
Example option_implicitely_on :
  both (fun nd => checks nd false "" None disk "" false (Some (Z_to_string now +s+ nl +s+ "ASK")) None) = true.
Proof. vm_compute. reflexivity. Qed.
Example time_out :
  both (fun nd => checks nd false "" None (put (cookie nd) (Z_to_string now) disk) "" false (Some (Z_to_string now)) None) = true.
Proof. vm_compute. reflexivity. Qed.
Example environment_variable_set : both (fun nd => checks nd true "" None disk "" false None None) = true.
Proof. vm_compute. reflexivity. Qed.
Example option_off : both (fun nd => checks nd false "" (Some false) disk "" false None None) = true.
Proof. vm_compute. reflexivity. Qed.

Definition with_version (nd : bool) (s : string) (f : fs) : fs := put version_file s (put (cookie nd) day_before f).
Example smaller_sharg_version :
  let s := "2.3.4" +s+ nl +s+ "20.5.9" in
  checks false false "" (Some true) (with_version false s disk) message_sharg_update true (Some day_before) (Some s) = true.
Proof. vm_compute. reflexivity. Qed.
Example greater_app_version :
  let s := "1.5.9" +s+ nl +s+ "1.1.2-rc.1" in
  checks false false "" (Some true) (with_version false s disk) message_registered_app_update true (Some day_before) (Some s) = true.
Proof. vm_compute. reflexivity. Qed.
Example unregistered_app :
  let s := "UNREGISTERED_APP" +s+ nl +s+ "1.1.2-rc.1" in
  checks false false "" (Some true) (with_version false s disk) message_unregistered_app true (Some day_before) (Some s) = true.
Proof. vm_compute. reflexivity. Qed.
Example smaller_app_version :
  let s := "20.5.9" +s+ nl +s+ "1.1.2-rc.1" in
  forallb (fun url => checks true false url (Some true) (with_version true s disk) (message_app_update url) true (Some day_before) (Some s))
    [""; "https//foo.de"] = true.
Proof. vm_compute. reflexivity. Qed.
Example user_specified_never :
  both (fun nd => checks nd false "" None (put (cookie nd) "NEVER" disk) "" false (Some "NEVER") None) = true.
Proof. vm_compute. reflexivity. Qed.
Example user_specified_always :
  both (fun nd => checks nd false "" None (put (cookie nd) "ALWAYS" disk) "" true (Some "ALWAYS") None) = true.
Proof. vm_compute. reflexivity. Qed.
Example wrong_version_string :
  let s := "20.wrong.9" +s+ nl +s+ "also.wrong.4" in
  both (fun nd => checks nd false "" None (put version_file s (put (cookie nd) "ALWAYS" disk)) "" true (Some "ALWAYS") (Some s)) = true.
Proof. vm_compute. reflexivity. Qed.

(** option_off_with_help_page: --version-check is read although a help page is requested *)
Example option_off_with_help_page :
  forallb (fun nd =>
    let '(w, log) := run nd (backend_of here (runner nd false)) [CParse]
                       {| w_parser := construct 1 "test_version_check" ["test_version_check"; "-h"; "--version-check"; "0"] true [];
                          w_vars := fun _ => VOther ""; w_fs := disk |} in
    all_meet [Exits] log && node_same (w_fs w (cookie nd)) None && node_same (w_fs w version_file) None) [true; false] = true.
Proof. vm_compute. reflexivity. Qed.
