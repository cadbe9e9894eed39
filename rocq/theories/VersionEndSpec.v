(** When the version check lets parse() go on (C62), in terms of the files before the run. *)
From Verif Require Import Base Fs VersionCheck VersionSpec.

Definition has_dir (f : fs) (k : key) : Prop := exists m, f k = Some (NDir m).
Definition open_dir (f : fs) (k : key) : Prop := exists m, f k = Some (NDir m) /\ f_writable m = true.
Definition closed_dir (f : fs) (k : key) : Prop := exists m, f k = Some (NDir m) /\ f_writable m = false.

(** the configuration directory is there or can be created *)
Definition obtainable (home : string) (f : fs) : Prop :=
  has_dir f (config_dir home) /\ (has_dir f (cookie_dir home) \/ f (cookie_dir home) = None /\ open_dir f (config_dir home)) \/
  f (config_dir home) = None /\ open_dir f (comps home).
(** there is a directory for temporary files *)
Definition temporary (e : venv) (f : fs) : Prop := ve_tmp e <> "" /\ has_dir f (comps (ve_tmp e)).
(** a dummy.txt that cannot be deleted *)
Definition stuck (f : fs) (k : key) : Prop := closed_dir f k /\ f (k ++ ["dummy.txt"]) <> None.

(** nothing is inside of what is not there *)
Definition rooted (home : string) (f : fs) : Prop := f (config_dir home) = None -> f (cookie_dir home) = None.

(** what becomes of a run *)
Inductive ending := Goes_on | Undefined | No_temporary | Assertion.
Inductive ends (e : venv) (f : fs) : ending -> Prop :=
| en_home : ve_home e = None -> ends e f Undefined
| en_tmp home : ve_home e = Some home -> ~ obtainable home f -> ~ temporary e f -> ends e f No_temporary
| en_stuck home : ve_home e = Some home -> ve_ndebug e = false -> obtainable home f -> stuck f (cookie_dir home) -> ends e f Assertion
| en_stuck_tmp home : ve_home e = Some home -> ve_ndebug e = false -> ~ obtainable home f -> temporary e f -> stuck f (comps (ve_tmp e)) -> ends e f Assertion
| en_config home : ve_home e = Some home -> obtainable home f -> ve_ndebug e = true \/ ~ stuck f (cookie_dir home) -> ends e f Goes_on
| en_temporary home : ve_home e = Some home -> ~ obtainable home f -> temporary e f -> ve_ndebug e = true \/ ~ stuck f (comps (ve_tmp e)) -> ends e f Goes_on.
Definition result_of (x : ending) : res unit :=
  match x with
  | Goes_on => Ret tt
  | Undefined => UB
  | No_temporary => Throw (Exn KStdOther "filesystem error: temp_directory_path")
  | Assertion => AssertFail
  end.

(** ** What is made of the numbers the server has sent (C50) *)

(** [std::from_chars] into an [int]: larger numbers count as 0, one by one *)
Definition seen1 (n : Z) : Z := if (n <? 2 ^ 31)%Z then n else 0%Z.
Definition seen (v : Z * Z * Z) : Z * Z * Z := let '(a, b, c) := v in (seen1 a, seen1 b, seen1 c).
(** the line that counts as the version of Sharg: the second one, or the first one of a file with one line *)
Inductive sharg_line : string -> string -> Prop :=
| sl_one c : scontains "010" c = false -> sharg_line c c
| sl_two c r l : scontains "010" c = false -> first_line r l -> sharg_line (c +s+ nl +s+ r) l.
