(** include/sharg/detail/version_check.hpp once more, as a sequence of single accesses to the file system, for runs
    that overlap in time.  VersionStepsProofs.v shows that an undisturbed run does what VersionCheck.v says.

    Simplifications: mkdir and stat of create_directory are one access, so are the accesses of remove_all; a file that
    is read is small enough for one read(2); files are identified by their path, not by their inode (nobody removes
    the files that are read or written here).  The clock does not advance during a run. *)
From Verif Require Import Base Fs Values FormatParse Parser VersionCheck.

(** a program: finished, or about to access the file system, or about to have another effect *)
Inductive prog (A : Type) : Type :=
| Done (r : res A)
| Access (B : Set) (act : fs -> fs * B) (next : B -> prog A)
| Emit (x : event) (next : prog A).
Arguments Done {A}. Arguments Access {A B}. Arguments Emit {A}.

Fixpoint pbind {A B} (p : prog A) (g : A -> prog B) : prog B :=
  match p with
  | Done (Ret a) => g a
  | Done (Throw x) => Done (Throw x)
  | Done (Exit o) => Done (Exit o)
  | Done AssertFail => Done AssertFail
  | Done UB => Done UB
  | Done OutOfFuel => Done OutOfFuel
  | Access act next => Access act (fun b => pbind (next b) g)
  | Emit x next => Emit x (pbind next g)
  end.
Definition pret {A} (a : A) : prog A := Done (Ret a).
Definition access {B : Set} (act : fs -> fs * B) : prog B := Access act pret.
Definition emit (x : event) : prog unit := Emit x (pret tt).

Notation "'let*' x := p 'in' q" := (pbind p (fun x => q)) (at level 200, x name, p at level 100, q at level 200).

(** [std::ifstream]: opening and reading are two accesses *)
Definition content_of (f : fs) (p : string) : string := match lookup f p with Some (NFile s _) => s | _ => "" end.
Definition read_steps (p : string) : prog (option string) :=
  let* opened := access (fun f => (f, open_read f p)) in
  if opened then let* s := access (fun f => (f, content_of f p)) in pret (Some s) else pret None.

(** [std::ofstream]: the file is emptied when it is opened and written when it is closed, from its beginning on, over
    what others wrote in between *)
Definition overwrite (s old : string) : string := s +s+ sdrop (String.length s) old.
Definition write_at (f : fs) (p s : string) : fs :=
  match f (comps p) with Some (NFile old m) => upd f (comps p) (Some (NFile (overwrite s old) m)) | _ => f end.
Definition write_steps (p s : string) : prog unit :=
  let* opened := access (fun f => open_write f p) in
  if opened then access (fun f => (write_at f p s, tt)) else pret tt.

Section with_env.
Variable e : venv.

(** get_path, 223-263 *)
Definition path_steps : prog string :=
  match ve_home e with
  | None => Done UB
  | Some home =>
      let* err := access (fun f => create_directory f (path_join home ".config")) in
      let* err := (if err then pret true
                   else access (fun f => create_directory f (path_join (path_join home ".config") "seqan"))) in
      let* tmp_path := (if err
                        then let* ok := access (fun f => (f, is_directory f (ve_tmp e))) in
                             if ok then pret (ve_tmp e) else Done (Throw (Exn KStdOther "filesystem error: temp_directory_path"))
                        else pret (path_join (path_join home ".config") "seqan")) in
      let* good := access (fun f => open_write f (path_join tmp_path "dummy.txt")) in
      let* _ := access (fun f => if is_directory f (path_join tmp_path "dummy.txt") then (f, false) else remove f (path_join tmp_path "dummy.txt")) in
      let* removed := access (fun f => guard_destroy f (path_join tmp_path "dummy.txt")) in
      if negb removed && negb (ve_ndebug e) then Done AssertFail else pret (if good then tmp_path else "")
  end.

(** the constructor, 73-98 *)
Definition checker_steps (name version url : string) : prog checker :=
  let* cookie_path := path_steps in
  if negb (name_matches name) && negb (ve_ndebug e) then Done AssertFail
  else pret {| ck_name := name; ck_version := version_of_app version; ck_url := url; ck_path := cookie_path;
               ck_timestamp := path_join cookie_path (name +s+ (if ve_ndebug e then "_usr.timestamp" else "_dev.timestamp")) |}.

(** write_cookie, 495-508 *)
Definition cookie_steps (k : checker) (msg : string) : prog unit :=
  write_steps (ck_timestamp k) (Z_to_string (ve_now e) +s+ nl +s+ msg).

(** 324-388 *)
Definition ask_steps (k : checker) : prog bool :=
  let* _ := cookie_steps k "ASK" in
  if ve_tty e then
    let* _ := emit (Message question) in
    let c := match ve_answer e with String c _ => c | EmptyString => "s"%char end in
    if Ascii.eqb c "y" then pret true
    else if Ascii.eqb c "a" then let* _ := cookie_steps k "ALWAYS" in pret true
    else if Ascii.eqb c "n" then let* _ := cookie_steps k "NEVER" in pret false
    else pret false
  else pret false.

(** decide_if_check_is_performed, 290-389 *)
Definition decide_steps (k : checker) (on : bool) (user : option bool) : prog bool :=
  if negb on then pret false
  else if ve_opt_out e then pret false
  else match user with
  | Some b => pret b
  | None =>
      let* there := access (fun f => (f, exists_ f (ck_path k))) in
      let* content := (if there then read_steps (ck_timestamp k) else pret None) in
      match content with
      | None => ask_steps k
      | Some content =>
          let '(stream, line) := getline (Some content) "" in
          if ve_recent e line (ve_now e) then pret false
          else let '(_, line) := getline stream line in
               if String.eqb line "NEVER" then pret false
               else if String.eqb line "ALWAYS" then pret true
               else ask_steps k
      end
  end.

(** 131-170 *)
Definition message_steps (k : checker) : prog unit :=
  let* content := read_steps (path_join (ck_path k) (ck_name k +s+ ".version")) in
  let* versions :=
    (match content with
     | None => pret ((0, 0, 0)%Z, (0, 0, 0)%Z)
     | Some content =>
         let '(stream, line) := getline (Some content) "" in
         let '(_, line2) := getline stream line in
         let* app := (if String.eqb line "UNREGISTERED_APP"
                      then let* _ := (if ve_ndebug e then pret tt else emit (Message message_unregistered_app)) in pret (0, 0, 0)%Z
                      else pret (get_numbers line)) in
         pret (app, get_numbers line2)
     end) in
  let '(srv_app, srv_sharg) := versions in
  let* _ := (if negb (ve_ndebug e) && negb (version_eqb srv_sharg (0, 0, 0)%Z) && version_ltb sharg_version srv_sharg
             then emit (Message message_sharg_update) else pret tt) in
  if version_eqb srv_app (0, 0, 0)%Z then pret tt
  else if ve_ndebug e
       then (if version_ltb (get_numbers (ck_version k)) srv_app then emit (Message (message_app_update (ck_url k))) else pret tt)
       else (if version_ltb srv_app (get_numbers (ck_version k)) then emit (Message message_registered_app_update) else pret tt).

(** 439-457 *)
Definition program_steps : prog string :=
  let wget := "/usr/bin/env -i wget --version > /dev/null 2>&1" in
  let curl := "/usr/bin/env -i curl --version > /dev/null 2>&1" in
  let* _ := emit (Probe wget) in
  if ve_system e wget then pret "/usr/bin/env -i wget --timeout=10 --tries=1 -q -O"
  else let* _ := emit (Probe curl) in
       if ve_system e curl then pret "/usr/bin/env -i curl --connect-timeout 10 -o"
       else pret (match ve_os e with
                  | OpenBSD => "/usr/bin/env -i ftp -w10 -Vo"
                  | FreeBSD => "/usr/bin/env -i fetch --timeout=10 -o"
                  | _ => ""
                  end).

(** operator(), 126-220 *)
Definition check_steps (k : checker) : prog unit :=
  let* _ := message_steps k in
  let* program := program_steps in
  if is_empty program then pret tt else emit (Request (server_command e k program)).

(** parser.hpp 1114-1125 *)
Definition version_steps (m : meta) (on : bool) (user : option bool) : prog unit :=
  let* k := checker_steps (m_app_name m) (m_version m) (m_url m) in
  let* yes := decide_steps k on user in
  if yes then check_steps k else pret tt.

End with_env.

(** ** Runs that overlap *)

Record launch := { l_env : venv; l_meta : meta; l_on : bool; l_user : option bool }.
Record proc := { p_prog : prog unit; p_log : list event }.
Definition start (l : launch) : proc := {| p_prog := version_steps (l_env l) (l_meta l) (l_on l) (l_user l); p_log := [] |}.

(** one step of a run *)
Definition proc_step (f : fs) (p : proc) : fs * proc :=
  match p_prog p with
  | Done _ => (f, p)
  | Access act next => let '(f', b) := act f in (f', {| p_prog := next b; p_log := p_log p |})
  | Emit x next => (f, {| p_prog := next; p_log := p_log p ++ [x] |})
  end.

(** whose turn it is: one of the runs, or some other program *)
Inductive turn := Run (i : nat) | World (g : fs -> fs).

Fixpoint replace {A} (i : nat) (a : A) (l : list A) : list A :=
  match l, i with
  | [], _ => []
  | _ :: l', O => a :: l'
  | x :: l', S i' => x :: replace i' a l'
  end.

Fixpoint exec (s : list turn) (f : fs) (ps : list proc) : fs * list proc :=
  match s with
  | [] => (f, ps)
  | World g :: s' => exec s' (g f) ps
  | Run i :: s' =>
      match nth_error ps i with
      | None => exec s' f ps
      | Some p => let '(f', p') := proc_step f p in exec s' f' (replace i p' ps)
      end
  end.
