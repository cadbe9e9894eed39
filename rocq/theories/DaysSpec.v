(** What a user sees of the version check over any number of days (C48, C49, C61), without files: all that is kept between two
    runs is when something was decided and what. *)
From Verif Require Import Base Fs Values FormatParse Parser VersionCheck VersionSpec.
Local Open Scope Z_scope.

Definition memory := option (Z * string).
Definition a_day : Z := 86400.

(** [expected e user mem asks checks mem']: whether the question is put, whether the server is to be asked, what is kept *)
Inductive expected (e : venv) : option bool -> memory -> bool -> bool -> memory -> Prop :=
| ex_opted_out user mem : ve_opt_out e = true -> expected e user mem false false mem
| ex_told b mem : ve_opt_out e = false -> expected e (Some b) mem false b mem
| ex_recent t d : ve_opt_out e = false -> ve_now e - t < a_day -> expected e None (Some (t, d)) false false (Some (t, d))
| ex_never t : ve_opt_out e = false -> a_day <= ve_now e - t -> expected e None (Some (t, "NEVER")) false false (Some (t, "NEVER"))
| ex_always t : ve_opt_out e = false -> a_day <= ve_now e - t -> expected e None (Some (t, "ALWAYS")) false true (Some (t, "ALWAYS"))
| ex_asked mem : ve_opt_out e = false -> mem = None \/ (exists t, mem = Some (t, "ASK") /\ a_day <= ve_now e - t) -> ve_tty e = true ->
    expected e None mem true (fst (verdict (ve_answer e))) (Some (ve_now e, snd (verdict (ve_answer e))))
| ex_nobody mem : ve_opt_out e = false -> mem = None \/ (exists t, mem = Some (t, "ASK") /\ a_day <= ve_now e - t) -> ve_tty e = false ->
    expected e None mem false false (Some (ve_now e, "ASK")).

(** a request needs a program to make it with *)
Inductive course : memory -> list run -> memory -> Prop :=
| course_end mem : course mem [] mem
| course_run mem a c mem1 r l mem2 : expected (r_env r) (r_user r) mem a c mem1 ->
    (asks (r_events r) <-> a = true) -> (requests (r_events r) <-> c = true /\ has_program (r_env r)) ->
    course mem1 l mem2 -> course mem (r :: l) mem2.

(** the file that stands for it *)
Definition remembered (nd : bool) (home name : string) (f : fs) (mem : memory) : Prop :=
  match mem with
  | None => f (cookie nd home name) = None
  | Some (t, d) => stored nd home name f t d /\ 0 <= t < 2 ^ 53 /\ In d ["ASK"; "ALWAYS"; "NEVER"]
  end.

(** Nothing can be kept: the directory that is chosen (below the home directory, or the one for temporary files if the former cannot be
    created) cannot be written to. *)
Definition no_place (e : venv) (home : string) (f : fs) : Prop := exists chosen m,
  f chosen = Some (NDir m) /\ f_writable m = false /\ f (chosen ++ ["dummy.txt"]) = None /\
  ((exists m', f (config_dir home) = Some (NDir m')) /\ chosen = cookie_dir home
   \/ f (config_dir home) = None /\ (forall m', f (comps home) = Some (NDir m') -> f_writable m' = false) /\ ve_tmp e <> "" /\ chosen = comps (ve_tmp e)).

(** the cookie in the working directory *)
Definition stray_cookie (nd : bool) (name : string) : key := [name +s+ if nd then "_usr.timestamp" else "_dev.timestamp"].

(** The directory below the home directory cannot be made, the one for temporary files can be used. *)
Definition tmp_cookie (e : venv) (name : string) : key := comps (ve_tmp e) ++ stray_cookie (ve_ndebug e) name.
Definition only_tmp (e : venv) (home name : string) (f : fs) : Prop :=
  f (config_dir home) = None /\ (forall m, f (comps home) = Some (NDir m) -> f_writable m = false) /\ ve_tmp e <> "" /\
  (exists m, f (comps (ve_tmp e)) = Some (NDir m) /\ f_writable m = true) /\ f (comps (ve_tmp e) ++ ["dummy.txt"]) = None /\
  (f (tmp_cookie e name) = None \/ exists s m, f (tmp_cookie e name) = Some (NFile s m) /\ f_readable m = true /\ f_writable m = true).
Definition remembered_tmp (e : venv) (name : string) (f : fs) (mem : memory) : Prop :=
  match mem with
  | None => f (tmp_cookie e name) = None
  | Some (t, d) => (exists m, f (tmp_cookie e name) = Some (NFile (Z_to_string t +s+ nl +s+ d) m)) /\ 0 <= t < 2 ^ 53 /\ In d ["ASK"; "ALWAYS"; "NEVER"]
  end.
