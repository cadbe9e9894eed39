(** Vocabulary for the properties of overlapping runs of the version check. *)
From Verif Require Import Base Fs Values ValuesSpec FormatParse Parser VersionCheck VersionSpec VersionSteps.

(** how often it is the turn of run [i] *)
Fixpoint turns_of (i : nat) (s : list turn) : nat :=
  match s with
  | [] => 0
  | Run j :: s' => if Nat.eqb j i then S (turns_of i s') else turns_of i s'
  | World _ :: s' => turns_of i s'
  end.

(** [l] is a run of this build of this application *)
Definition run_of (ndebug : bool) (name : string) (l : launch) : Prop := ve_ndebug (l_env l) = ndebug /\ m_app_name (l_meta l) = name.
Definition cookie_file (ndebug : bool) (name : string) : string := name +s+ if ndebug then "_usr.timestamp" else "_dev.timestamp".

(** the developer, the environment or the user does not want the check *)
Definition opted_out (l : launch) : Prop := l_on l = false \/ ve_opt_out (l_env l) = true \/ l_user l = Some false.

(** the user of this run is asked and answers so *)
Definition answered (l : launch) (letter : string) : Prop := ve_tty (l_env l) = true /\ String.prefix letter (ve_answer (l_env l)) = true.

(** Other programs leave the files of this name alone, wherever they are. *)
Definition left_alone (file : string) (s : list turn) : Prop :=
  forall g f d, In (World g) s -> g f (d ++ [file]) = f (d ++ [file]).

(** what files of this name contain *)
Definition contents (file : string) (f : fs) (P : string -> Prop) : Prop :=
  forall d c m, f (d ++ [file]) = Some (NFile c m) -> P c.

(** the content of a cookie: nothing, or one of these times and one of these decisions *)
Definition remembers (times : Z -> Prop) (decisions : list string) (c : string) : Prop :=
  c = "" \/ exists t d, times t /\ In d decisions /\ c = Z_to_string t +s+ nl +s+ d.

(** the second line of a text *)
Definition second_line (s l : string) : Prop := exists a r, scontains "010" a = false /\ s = a +s+ nl +s+ r /\ first_line r l.

(** times of ten digits: from 2001 to 2286 *)
Definition our_days (t : Z) : Prop := (10 ^ 9 <= t < 10 ^ 10)%Z.

(** The configuration directories exist and files can be created there.  Another run may just be trying that. *)
Definition ready (home : string) (f : fs) : Prop :=
  (exists m, f (config_dir home) = Some (NDir m))
  /\ (exists m, f (cookie_dir home) = Some (NDir m) /\ f_writable m = true)
  /\ (f (cookie_dir home ++ ["dummy.txt"]) = None \/ exists c m, f (cookie_dir home ++ ["dummy.txt"]) = Some (NFile c m) /\ f_writable m = true).
