(** Vocabulary for the properties of the version check, independent of its code. *)
From Verif Require Import Base Fs Values ValuesSpec FormatParse Parser VersionCheck.

(** ** What a run did *)

Definition is_request (x : event) : bool := match x with Request _ => true | _ => false end.
Definition requests (l : list event) : Prop := existsb is_request l = true.
Definition asks (l : list event) : Prop := In (Message question) l.

(** ** Places *)

Definition config_dir (home : string) : key := comps home ++ [".config"].
Definition cookie_dir (home : string) : key := config_dir home ++ ["seqan"].
Definition cookie (ndebug : bool) (home name : string) : key :=
  cookie_dir home ++ [name +s+ if ndebug then "_usr.timestamp" else "_dev.timestamp"].

(** where the answer of the server is stored *)
Definition version_file (home name : string) : key := cookie_dir home ++ [name +s+ ".version"].

(** [f] and [g] differ at most in the existence of the configuration directories and in what is called dummy.txt *)
Definition spares (e : venv) (f g : fs) : Prop := forall k,
  (forall home, ve_home e = Some home -> k <> config_dir home /\ k <> cookie_dir home
     /\ list_prefixb (cookie_dir home ++ ["dummy.txt"]) k = false) ->
  list_prefixb (comps (ve_tmp e) ++ ["dummy.txt"]) k = false -> g k = f k.

(** The configuration directory can be used: it exists, files can be created in it, and a cookie can be read and
    replaced. *)
Definition usable (ndebug : bool) (home name : string) (f : fs) : Prop :=
  (exists m, f (config_dir home) = Some (NDir m))
  /\ (exists m, f (cookie_dir home) = Some (NDir m) /\ f_writable m = true)
  /\ f (cookie_dir home ++ ["dummy.txt"]) = None
  /\ (f (cookie ndebug home name) = None
      \/ exists s m, f (cookie ndebug home name) = Some (NFile s m) /\ f_readable m = true /\ f_writable m = true).

(** the stored time and decision *)
Definition stored (ndebug : bool) (home name : string) (f : fs) (t : Z) (decision : string) : Prop :=
  exists m, f (cookie ndebug home name) = Some (NFile (Z_to_string t +s+ nl +s+ decision) m) /\ f_readable m = true /\ f_writable m = true.

(** ** The question *)

(** what the answers mean: whether to check now, and what to remember *)
Definition verdict (answer : string) : bool * string :=
  if String.prefix "a" answer then (true, "ALWAYS")
  else if String.prefix "n" answer then (false, "NEVER")
  else if String.prefix "y" answer then (true, "ASK")
  else (false, "ASK").

(** a program to contact the server with is there *)
Definition has_program (e : venv) : Prop :=
  ve_system e "/usr/bin/env -i wget --version > /dev/null 2>&1" = true
  \/ ve_system e "/usr/bin/env -i curl --version > /dev/null 2>&1" = true \/ ve_os e = OpenBSD \/ ve_os e = FreeBSD.

(** ** Histories of runs of one application by one user *)

(** times as they are stored are read back exactly: true of doubles below 2^53 *)
Definition clock_ok (recent : string -> Z -> bool) : Prop := forall t now,
  (0 <= t < 2 ^ 53)%Z -> (0 <= now < 2 ^ 53)%Z -> recent (Z_to_string t) now = (now - t <? 86400)%Z.

Record run := { r_env : venv; r_user : option bool; r_events : list event }.

(** Between runs other programs may change anything as long as the configuration directory stays usable and the
    cookie is left alone; this includes the answers of the server. *)
Inductive history (m : meta) (ndebug : bool) (home : string) : fs -> list run -> fs -> Prop :=
| no_runs f : history m ndebug home f [] f
| one_run f f1 e user st l f2 :
    usable ndebug home (m_app_name m) f1 -> f1 (cookie ndebug home (m_app_name m)) = f (cookie ndebug home (m_app_name m)) ->
    ve_ndebug e = ndebug -> ve_home e = Some home -> clock_ok (ve_recent e) -> (0 <= ve_now e < 2 ^ 53)%Z ->
    version_check e m true user {| vs_fs := f1; vs_log := [] |} = (st, Ret tt) ->
    history m ndebug home (vs_fs st) l f2 ->
    history m ndebug home f ({| r_env := e; r_user := user; r_events := vs_log st |} :: l) f2.

(** ** Versions *)

(** [version_text s v]: the text is "a.b.c" with decimal numbers *)
Definition version_text (s : string) (v : Z * Z * Z) : Prop :=
  exists a b c, digits a /\ digits b /\ digits c /\ s = a +s+ "." +s+ b +s+ "." +s+ c /\ v = (weight a, weight b, weight c).

(** [begins_with_version s v]: the longest such beginning *)
Definition begins_with_version (s : string) (v : Z * Z * Z) : Prop :=
  exists p r, s = p +s+ r /\ version_text p v /\ match r with String c _ => is_digit c = false | EmptyString => True end.

(** what the application's version string says; nothing recognisable counts as 0.0.0 *)
Definition app_version (s : string) (v : Z * Z * Z) : Prop :=
  begins_with_version s v \/ (v = (0, 0, 0)%Z /\ forall w, ~ begins_with_version s w).

Definition newer (v w : Z * Z * Z) : Prop :=
  let '(a, b, c) := v in let '(a', b', c') := w in
  (a' < a)%Z \/ (a = a' /\ ((b' < b)%Z \/ (b = b' /\ (c' < c)%Z))).
Definition fits_int (v : Z * Z * Z) : Prop :=
  let '(a, b, c) := v in (a < 2 ^ 31)%Z /\ (b < 2 ^ 31)%Z /\ (c < 2 ^ 31)%Z.

(** the first line of a text, and the text behind it *)
Definition first_line (s l : string) : Prop :=
  scontains "010" l = false /\ (s = l \/ exists r, s = l +s+ nl +s+ r).

(** ** Shell *)

(** characters without meaning to the shell *)
Definition shell_safe (c : chr) : bool := is_alnum c || existsb (Ascii.eqb c) ["_"; "-"; "."; ":"; "/"]%char.

Definition programs : list string :=
  ["/usr/bin/env -i wget --timeout=10 --tries=1 -q -O"; "/usr/bin/env -i curl --connect-timeout 10 -o";
   "/usr/bin/env -i ftp -w10 -Vo"; "/usr/bin/env -i fetch --timeout=10 -o"].

(** where the answer of the server may be written *)
Definition place (e : venv) (directory : string) : Prop :=
  directory = "" \/ directory = ve_tmp e
  \/ exists home, ve_home e = Some home /\ directory = path_join (path_join home ".config") "seqan".
