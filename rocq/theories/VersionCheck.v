(** include/sharg/detail/version_check.hpp (and parser.hpp 1114-1125, run_version_check).

    Windows is not modelled.  The clock does not advance during a check (the code asks twice).  The detached
    thread (call_server, 38-45) is represented by the event [Request]; what the server writes to the version file
    is not part of a run (histories of runs allow it to appear between runs, see VersionSpec.v). *)
From Verif Require Import Base Fs Values FormatParse Parser HelpExport.

Inductive os := Linux | MacOS | FreeBSD | OpenBSD | UnknownOs.

(** What a run depends on.  [ve_recent line now]: [now - d < 86400] for the double [d] that [std::from_chars] reads
    from [line] (0 if there is none), any function here; the one of the code is [library_recent] in Age.v.
    [ve_system]: whether a command exits with status 0. *)
Record venv := {
  ve_ndebug : bool;
  ve_os : os; ve_64 : bool;
  ve_home : option string;          (* getenv("HOME") *)
  ve_tmp : string;                  (* what temp_directory_path() takes from the environment, else "/tmp" *)
  ve_opt_out : bool;                (* SHARG_NO_VERSION_CHECK is set *)
  ve_now : Z;                       (* seconds since the epoch *)
  ve_tty : bool;                    (* stdin and stderr are terminals *)
  ve_answer : string;               (* the line std::getline(std::cin, line) yields *)
  ve_system : string -> bool;
  ve_recent : string -> Z -> bool }.

(** What a run does besides changing files. *)
Inductive event :=
| Message (s : string)              (* std::cerr << s *)
| Probe (command : string)          (* system(command), get_program *)
| Request (command : string).       (* system(command) in the detached thread *)

Record vstate := { vs_fs : fs; vs_log : list event }.

Definition on_fs {A} (g : fs -> fs * A) : M vstate A :=
  fun st => let '(f, a) := g (vs_fs st) in ({| vs_fs := f; vs_log := vs_log st |}, Ret a).
Definition log (e : event) : M vstate unit := modify (fun st => {| vs_fs := vs_fs st; vs_log := vs_log st ++ [e] |}).
Definition fail {St A} (r : res A) : M St A := fun st => (st, r).

(** [std::ifstream{p}]: the content of the file if it can be opened.  Reading from a directory or a device yields
    nothing (simplification for devices). *)
Definition read_file (f : fs) (p : string) : option string :=
  if open_read f p then match lookup f p with Some (NFile s _) => Some s | _ => Some "" end else None.

(** up to the first newline; the rest if there is one *)
Fixpoint cut_line (s : string) : string * option string :=
  match s with
  | EmptyString => (EmptyString, None)
  | String c s' => if Ascii.eqb c "010" then (EmptyString, Some s')
                   else let '(l, r) := cut_line s' in (String c l, r)
  end.

(** [std::getline(stream, line)]; [None]: the stream is at its end (eofbit), then [line] is not changed *)
Definition getline (stream : option string) (line : string) : option string * string :=
  match stream with
  | None => (None, line)
  | Some s => let '(l, r) := cut_line s in (r, l)
  end.

(** [std::ofstream{p} << s], if it could be opened *)
Definition write_file (p s : string) (f : fs) : fs * bool :=
  let '(f', ok) := open_write f p in
  (if ok then match f' (comps p) with
              | Some (NFile _ m) => upd f' (comps p) (Some (NFile s m))
              | _ => f'
              end
   else f', ok).

Section with_env.
Variable e : venv.

(** [std::filesystem::temp_directory_path()] throws std::filesystem::filesystem_error if it is not a directory *)
Definition temp_directory_path : M vstate string :=
  fun st => if is_directory (vs_fs st) (ve_tmp e) then (st, Ret (ve_tmp e))
            else throw KStdOther "filesystem error: temp_directory_path" st.

(** get_path, 223-263.  [std::string{getenv("HOME")}] without HOME is undefined behaviour.  remove_no_throw on a
    directory is left out: the guard removes the directory right afterwards, empty or not. *)
Definition get_path : M vstate string :=
  match ve_home e with
  | None => fail UB
  | Some home =>
      do err <- on_fs (fun f => create_directory f (path_join home ".config"));
      do err <- (if err then ret true
                 else on_fs (fun f => create_directory f (path_join (path_join home ".config") "seqan")));
      do tmp_path <- (if err then temp_directory_path else ret (path_join (path_join home ".config") "seqan"));
      let dummy := path_join tmp_path "dummy.txt" in
      do good <- on_fs (fun f => open_write f dummy);
      do _ <- on_fs (fun f => if is_directory f dummy then (f, false) else remove f dummy);
      do removed <- on_fs (fun f => guard_destroy f dummy);
      if negb removed && negb (ve_ndebug e) then fail AssertFail
      else ret (if good then tmp_path else "")
  end.

(** 79-83 *)
Definition message_app_update (url : string) : string :=
  "[APP VERSION INFO] :: A new version of this application is now available." +s+ nl
  +s+ "[APP VERSION INFO] :: If you don't wish to receive further notifications, set --version-check false." +s+ nl
  +s+ (if is_empty url then nl else "[APP VERSION INFO] :: Visit " +s+ url +s+ " for updates." +s+ nl +s+ nl).

(** 394-411 *)
Definition message_sharg_update : string :=
  "[SHARG VERSION INFO] :: A new Sharg version is available online." +s+ nl
  +s+ "[SHARG VERSION INFO] :: Please visit www.github.com/seqan/sharg-parser.git for an update" +s+ nl
  +s+ "[SHARG VERSION INFO] :: or inform the developer of this app." +s+ nl
  +s+ "[SHARG VERSION INFO] :: If you don't wish to receive further notifications, set --version-check false." +s+ nl +s+ nl.
Definition message_unregistered_app : string :=
  "[SHARG VERSION INFO] :: Thank you for using Sharg!" +s+ nl
  +s+ "[SHARG VERSION INFO] :: Do you wish to register your app for update notifications?" +s+ nl
  +s+ "[SHARG VERSION INFO] :: Just send an email to support@seqan.de with your app name and version number." +s+ nl
  +s+ "[SHARG VERSION INFO] :: If you don't wish to receive further notifications, set --version-check false." +s+ nl +s+ nl.
Definition message_registered_app_update : string :=
  "[APP VERSION INFO] :: We noticed the app version you use is newer than the one registered with us." +s+ nl
  +s+ "[APP VERSION INFO] :: Please send us an email with the new version so we can correct it "
  +s+ "(support@seqan.de)" +s+ nl +s+ nl.

(** the question, 338-360 *)
Definition rule : string := "#######################################################################".
Definition question : string :=
  nl +s+ rule +s+ nl +s+ "   Automatic Update Notifications" +s+ nl +s+ rule +s+ nl +s+ nl
  +s+ " This app can look for updates automatically in the background," +s+ nl
  +s+ " do you want to do that?" +s+ nl +s+ nl
  +s+ "    [a] Always perform version checks for this app (the default)." +s+ nl
  +s+ "    [n] Never perform version checks for this app." +s+ nl
  +s+ "    [y] Yes, perform a version check now, and ask again tomorrow." +s+ nl
  +s+ "    [s] Skip the version check now, but ask again tomorrow." +s+ nl +s+ nl
  +s+ " Please enter one of [a, n, y, s] and press [RETURN]." +s+ nl +s+ nl
  +s+ " For more information, see:" +s+ nl
  +s+ " https://docs.seqan.de/sharg/main_user/about_update_notifications.html" +s+ nl +s+ nl
  +s+ rule +s+ nl +s+ nl.

(** [[:digit:]]+, greedily; the rest *)
Fixpoint span_digits (s : string) : string * string :=
  match s with
  | String c s' => if is_digit c then let '(d, r) := span_digits s' in (String c d, r) else (EmptyString, s)
  | EmptyString => (EmptyString, s)
  end.

(** the match of "[[:digit:]]+\.[[:digit:]]+\.[[:digit:]]+" at the beginning, and the rest.  A period is no digit, so
    there is nothing to backtrack over. *)
Definition match_version (s : string) : option (string * string) :=
  let '(a, r) := span_digits s in
  if is_empty a then None else
  match r with
  | String c r => if negb (Ascii.eqb c ".") then None else
      let '(b, r) := span_digits r in
      if is_empty b then None else
      match r with
      | String c r => if negb (Ascii.eqb c ".") then None else
          let '(d, r) := span_digits r in
          if is_empty d then None else Some (a +s+ "." +s+ b +s+ "." +s+ d, r)
      | EmptyString => None
      end
  | EmptyString => None
  end.

(** the constructor's [version], 90-97 (initially 431) *)
Definition version_of_app (version : string) : string :=
  match match_version version with Some (v, _) => v | None => "0.0.0" end.

(** [std::from_chars] into an [int] that is 0: a number out of range leaves 0 *)
Definition read_component (s : string) : Z * string :=
  let '(n, r) := read_digits s 0 in ((if (n <=? int_max true 32)%Z then n else 0%Z), r).

(** get_numbers_from_version_string, 476-488; [res.ptr + 1] skips the period *)
Definition get_numbers (s : string) : Z * Z * Z :=
  match match_version s with
  | Some (_, EmptyString) =>
      let '(a, r) := read_component s in
      let '(b, r) := read_component (sdrop 1 r) in
      let '(c, _) := read_component (sdrop 1 r) in (a, b, c)
  | _ => (0, 0, 0)%Z
  end.

(** comparison of [std::array<int, 3>] *)
Definition version_ltb (v w : Z * Z * Z) : bool :=
  let '(a, b, c) := v in let '(a', b', c') := w in
  ((a <? a') || ((a =? a') && ((b <? b') || ((b =? b') && (c <? c')))))%Z.
Definition version_eqb (v w : Z * Z * Z) : bool :=
  let '(a, b, c) := v in let '(a', b', c') := w in ((a =? a') && (b =? b') && (c =? c'))%Z.

(** get_program, 439-457 *)
Definition get_program : M vstate string :=
  let wget := "/usr/bin/env -i wget --version > /dev/null 2>&1" in
  let curl := "/usr/bin/env -i curl --version > /dev/null 2>&1" in
  log (Probe wget) ;;
  if ve_system e wget then ret "/usr/bin/env -i wget --timeout=10 --tries=1 -q -O"
  else log (Probe curl) ;;
       if ve_system e curl then ret "/usr/bin/env -i curl --connect-timeout 10 -o"
       else ret (match ve_os e with
                 | OpenBSD => "/usr/bin/env -i ftp -w10 -Vo"
                 | FreeBSD => "/usr/bin/env -i fetch --timeout=10 -o"
                 | _ => ""
                 end).

Definition os_name : string :=
  match ve_os e with
  | Linux => "Linux" | MacOS => "MacOS" | FreeBSD => "FreeBSD" | OpenBSD => "OpenBSD" | UnknownOs => "unknown"
  end.

(** the state of a version_checker *)
Record checker := { ck_name : string; ck_version : string; ck_url : string; ck_path : string; ck_timestamp : string }.

(** the constructor, 73-98.  The members are initialised first: get_path runs whatever the developer or the user
    decided. *)
Definition version_checker (name version url : string) : M vstate checker :=
  do cookie_path <- get_path;
  if negb (name_matches name) && negb (ve_ndebug e) then fail AssertFail
  else ret {| ck_name := name; ck_version := version_of_app version; ck_url := url; ck_path := cookie_path;
              ck_timestamp := path_join cookie_path (name +s+ (if ve_ndebug e then "_usr.timestamp" else "_dev.timestamp")) |}.

(** write_cookie, 495-508 *)
Definition write_cookie (k : checker) (msg : string) : M vstate unit :=
  do _ <- on_fs (write_file (ck_timestamp k) (Z_to_string (ve_now e) +s+ nl +s+ msg)); ret tt.

(** 347-383 *)
Definition ask_user (k : checker) : M vstate bool :=
  log (Message question) ;;
  let c := match ve_answer e with String c _ => c | EmptyString => "s"%char end in
  if Ascii.eqb c "y" then ret true
  else if Ascii.eqb c "a" then write_cookie k "ALWAYS" ;; ret true
  else if Ascii.eqb c "n" then write_cookie k "NEVER" ;; ret false
  else ret false.

(** 324-388 *)
Definition ask_or_default (k : checker) : M vstate bool :=
  write_cookie k "ASK" ;; if ve_tty e then ask_user k else ret false.

(** decide_if_check_is_performed, 290-389; [on]: update_notifications::on *)
Definition decide (k : checker) (on : bool) (user : option bool) : M vstate bool :=
  if negb on then ret false
  else if ve_opt_out e then ret false
  else match user with
  | Some b => ret b
  | None =>
      fun st =>
        match (if exists_ (vs_fs st) (ck_path k) then read_file (vs_fs st) (ck_timestamp k) else None) with
        | None => ask_or_default k st
        | Some content =>
            let '(stream, line) := getline (Some content) "" in
            if ve_recent e line (ve_now e) then (st, Ret false)
            else let '(_, line) := getline stream line in
                 if String.eqb line "NEVER" then (st, Ret false)
                 else if String.eqb line "ALWAYS" then (st, Ret true)
                 else ask_or_default k st
        end
  end.

(** SHARG_VERSION_MAJOR/MINOR/PATCH, version.hpp 16-20 *)
Definition sharg_version : Z * Z * Z := (1, 1, 2)%Z.

(** 131-170: the messages *)
Definition show_messages (k : checker) : M vstate unit :=
  do versions <- (fun st =>
    match read_file (vs_fs st) (path_join (ck_path k) (ck_name k +s+ ".version")) with
    | None => (st, Ret ((0, 0, 0)%Z, (0, 0, 0)%Z))
    | Some content =>
        let '(stream, line) := getline (Some content) "" in
        let '(_, line2) := getline stream line in
        (do app <- (if String.eqb line "UNREGISTERED_APP"
                    then (if ve_ndebug e then ret tt else log (Message message_unregistered_app)) ;; ret (0, 0, 0)%Z
                    else ret (get_numbers line));
         ret (app, get_numbers line2)) st
    end);
  let '(srv_app, srv_sharg) := versions in
  (if negb (ve_ndebug e) && negb (version_eqb srv_sharg (0, 0, 0)%Z) && version_ltb sharg_version srv_sharg
   then log (Message message_sharg_update) else ret tt) ;;
  if version_eqb srv_app (0, 0, 0)%Z then ret tt
  else if ve_ndebug e
       then (if version_ltb (get_numbers (ck_version k)) srv_app then log (Message (message_app_update (ck_url k))) else ret tt)
       else (if version_ltb srv_app (get_numbers (ck_version k)) then log (Message message_registered_app_update) else ret tt).

(** 181-216 *)
Definition server_command (k : checker) (program : string) : string :=
  program +s+ " " +s+ path_join (ck_path k) (ck_name k +s+ ".version") +s+ " "
  +s+ "https://seqan-update.informatik.uni-tuebingen.de/check/SeqAn-Sharg_"
  +s+ os_name +s+ (if ve_64 e then "_64_" else "_32_") +s+ ck_name k +s+ "_" +s+ ck_version k +s+ " > /dev/null 2>&1".

(** operator(), 126-220 *)
Definition check (k : checker) : M vstate unit :=
  show_messages k ;;
  do program <- get_program;
  if is_empty program then ret tt else log (Request (server_command k program)).

(** parser.hpp 1114-1125, run_version_check *)
Definition version_check (m : meta) (on : bool) (user : option bool) : M vstate unit :=
  do k <- version_checker (m_app_name m) (m_version m) (m_url m);
  do yes <- decide k on user;
  if yes then check k else ret tt.

End with_env.

(** The parts of Parser.v that were left open. *)
Definition backend_of (pe : page_env) (ve : venv) : backend :=
  {| bk_tdl := match pe_tdl pe with Some _ => true | None => false end;
     bk_page := page pe;
     bk_version_check := fun m on user f =>
       let '(st, r) := version_check ve m on user {| vs_fs := f; vs_log := [] |} in (vs_fs st, r) |}.
