(** Properties of the version check (C47 - C51, C61 - C64). *)
From Verif Require Import Base StrLib Fs Values ValuesSpec FormatParse Parser VersionCheck VersionSpec VersionProofs VersionRuns Age AgeProofs Samples.

(** ** Samples *)

Definition ro : fmeta := {| f_readable := true; f_writable := false |}.
Definition dirs (l : list key) (f : fs) : fs := fun k => if existsb (list_eqb k) l then Some (NDir rw) else f k.
Definition nothing : fs := fun _ => None.
Definition file (k : key) (s : string) (f : fs) : fs := upd f k (Some (NFile s rw)).

(** a home directory without and with a configuration directory *)
Definition bare : fs := dirs [[]; ["tmp"]; ["home"]; ["home"; "u"]] nothing.
Definition disk : fs := dirs [["home"; "u"; ".config"]; ["home"; "u"; ".config"; "seqan"]] bare.
Definition seqan : key := ["home"; "u"; ".config"; "seqan"].

(** a run at a terminal with wget, now and the answer *)
Definition at_ (nd : bool) (now : Z) (answer : string) : venv :=
  {| ve_ndebug := nd; ve_os := Linux; ve_64 := true; ve_home := Some "/home/u"; ve_tmp := "/tmp"; ve_opt_out := false; ve_now := now;
     ve_tty := true; ve_answer := answer; ve_system := String.eqb "/usr/bin/env -i wget --version > /dev/null 2>&1"; ve_recent := library_recent |}.
Definition with_home (h : option string) (e : venv) : venv :=
  {| ve_ndebug := ve_ndebug e; ve_os := ve_os e; ve_64 := ve_64 e; ve_home := h; ve_tmp := ve_tmp e; ve_opt_out := ve_opt_out e; ve_now := ve_now e;
     ve_tty := ve_tty e; ve_answer := ve_answer e; ve_system := ve_system e; ve_recent := ve_recent e |}.
Definition no_terminal (e : venv) : venv :=
  {| ve_ndebug := ve_ndebug e; ve_os := ve_os e; ve_64 := ve_64 e; ve_home := ve_home e; ve_tmp := ve_tmp e; ve_opt_out := ve_opt_out e; ve_now := ve_now e;
     ve_tty := false; ve_answer := ve_answer e; ve_system := ve_system e; ve_recent := ve_recent e |}.
Definition opted_out (e : venv) : venv :=
  {| ve_ndebug := ve_ndebug e; ve_os := ve_os e; ve_64 := ve_64 e; ve_home := ve_home e; ve_tmp := ve_tmp e; ve_opt_out := true; ve_now := ve_now e;
     ve_tty := ve_tty e; ve_answer := ve_answer e; ve_system := ve_system e; ve_recent := ve_recent e |}.
Definition app (version : string) : meta :=
  {| m_app_name := "app"; m_version := version; m_short_description := ""; m_author := ""; m_email := ""; m_date := "";
     m_url := ""; m_short_copyright := ""; m_long_copyright := ""; m_citation := ""; m_man_page_title := "";
     m_man_page_section := 1; m_description := []; m_synopsis := []; m_examples := [] |}.
Definition go (e : venv) (on : bool) (user : option bool) (f : fs) : vstate * res unit :=
  version_check e (app "1.2.3") on user {| vs_fs := f; vs_log := [] |}.
Definition events (r : vstate * res unit) : list event := vs_log (fst r).
Definition after (r : vstate * res unit) : fs := vs_fs (fst r).

Lemma app_name_ok v : cookie_name (app v).
Proof. reflexivity. Qed.
Lemma disk_usable nd : usable nd "/home/u" "app" disk.
Proof. destruct nd; repeat split; try (exists rw); try (split; reflexivity); try reflexivity; left; reflexivity. Qed.

(** ** C47: opting out *)

(** Switched off by the developer, by the environment or by --version-check 0, nothing is said, asked or requested,
    and apart from the configuration directories and dummy.txt no file is touched. *)
Theorem C47_opt_out : forall e m on user st, on = false \/ ve_opt_out e = true \/ user = Some false ->
  let st' := fst (version_check e m on user st) in vs_log st' = vs_log st /\ spares e (vs_fs st) (vs_fs st').
Proof. exact opt_out_lemma. Qed.
Print Assumptions C47_opt_out.

Example C47_opt_out_ex : events (go (at_ true 1000 "y") false None disk) = []
  /\ events (go (opted_out (at_ true 1000 "y")) true (Some true) disk) = []
  /\ events (go (at_ true 1000 "y") true (Some false) disk) = []
  /\ List.length (events (go (at_ true 1000 "y") true None disk)) = 3.
Proof. repeat split; vm_compute; reflexivity. Qed.

(** A stored NEVER is honoured unless --version-check 1 is given, and it stays. *)
Theorem C47_never : forall m nd home f l f2, cookie_name m -> history m nd home f l f2 -> forall t, stored nd home (m_app_name m) f t "NEVER" ->
  (forall r, In r l -> r_user r <> Some true -> r_events r = []) /\ stored nd home (m_app_name m) f2 t "NEVER".
Proof. intros m nd home f l f2 HN H. exact (never_again m nd home HN f l f2 H). Qed.
Print Assumptions C47_never.

Example C47_never_ex : let f := file (seqan ++ ["app_usr.timestamp"]) ("1000" +s+ nl +s+ "NEVER") disk in
  stored true "/home/u" "app" f 1000 "NEVER"
  /\ map r_events (fst (simulate (app "1.2.3") f [(at_ true 200000 "a", None); (at_ true 300000 "a", None)])) = [[]; []].
Proof. split; [exists rw; repeat split|]; vm_compute; reflexivity. Qed.

(** "with notifications switched off nothing in the file system is touched" is false: directories appear, and files
    are deleted. *)
Theorem C47_untouched_refuted : exists e m f, let g := vs_fs (fst (version_check e m false None {| vs_fs := f; vs_log := [] |})) in
  f (cookie_dir "/home/u") = None /\ g (cookie_dir "/home/u") = Some (NDir rw).
Proof. exists (at_ true 1000 ""), (app "1.2.3"), bare. vm_compute. split; reflexivity. Qed.
Theorem C47_deleted_refuted : exists e m f k, let g := vs_fs (fst (version_check e m false None {| vs_fs := f; vs_log := [] |})) in
  f k = Some (NFile "my notes" rw) /\ g k = None.
Proof.
  exists (at_ true 1000 ""), (app "1.2.3"), (file (seqan ++ ["dummy.txt"; "notes"]) "my notes" (dirs [seqan ++ ["dummy.txt"]] disk)), (seqan ++ ["dummy.txt"; "notes"]).
  vm_compute. split; reflexivity.
Qed.

(** ** C48: at most one request per day *)

(** After the question was asked, nothing happens for a day, whatever the answer and whatever else is run in between. *)
Theorem C48_day_after_question : forall m nd home f l1 r1 l2 r2 l3 f2, cookie_name m -> history m nd home f (l1 ++ r1 :: l2 ++ r2 :: l3) f2 ->
  asks (r_events r1) -> r_user r2 = None -> requests (r_events r2) \/ asks (r_events r2) ->
  (ve_now (r_env r2) - ve_now (r_env r1) >= 86400)%Z.
Proof. intros m nd home f l1 r1 l2 r2 l3 f2 HN. exact (day_after_question m nd home f l1 r1 l2 r2 l3 f2 HN). Qed.
Print Assumptions C48_day_after_question.

(** Full statement: without the condition that nobody answers "always" (refuted below). *)
Theorem C48_day_between_partial : forall m nd home f l1 r1 l2 r2 l3 f2, cookie_name m -> history m nd home f (l1 ++ r1 :: l2 ++ r2 :: l3) f2 ->
  f (cookie nd home (m_app_name m)) = None ->
  (forall r, In r (l1 ++ r1 :: l2 ++ r2 :: l3) -> snd (verdict (ve_answer (r_env r))) <> "ALWAYS") ->
  r_user r1 = None -> r_user r2 = None -> requests (r_events r1) -> requests (r_events r2) ->
  (ve_now (r_env r2) - ve_now (r_env r1) >= 86400)%Z.
Proof. intros m nd home f l1 r1 l2 r2 l3 f2 HN. exact (day_between m nd home f l1 r1 l2 r2 l3 f2 HN). Qed.
Print Assumptions C48_day_between_partial.

Definition days (l : list (Z * string)) : list (venv * option bool) := map (fun x => (at_ true (fst x) (snd x), None)) l.
Lemma days_ok l : forallb (fun x => (0 <=? fst x)%Z && (fst x <? 2 ^ 53)%Z) l = true -> forall e user, In (e, user) (days l) ->
  ve_ndebug e = true /\ ve_home e = Some "/home/u" /\ clock_ok (ve_recent e) /\ (0 <= ve_now e < 2 ^ 53)%Z.
Proof.
  intros H e user I. unfold days in I. apply in_map_iff in I as ([t a] & [= <- <-] & I). rewrite forallb_forall in H. specialize (H _ I).
  apply andb_prop in H as [H1 H2]. apply Z.leb_le in H1. apply Z.ltb_lt in H2. repeat split; auto using library_clock.
Qed.

Example C48_ex : exists f2, history (app "1.2.3") true "/home/u" disk (fst (simulate (app "1.2.3") disk (days [(1000, "y"); (5000, "y"); (87400, "y")]%Z))) f2
  /\ map (fun r => existsb is_request (r_events r)) (fst (simulate (app "1.2.3") disk (days [(1000, "y"); (5000, "y"); (87400, "y")]%Z))) = [true; false; true].
Proof.
  eexists. split; [|vm_compute; reflexivity].
  apply (simulate_history (app "1.2.3") true "/home/u" (app_name_ok _)); [apply disk_usable|]. now apply days_ok.
Qed.

(** The documentation: "we send at most one request per day".  Answering "always" stores the time of the answer and
    never another one: a day later every run sends a request. *)
Theorem C48_always_refuted : exists m home f r0 r1 r2 f2, history m true home f [r0; r1; r2] f2
  /\ r_user r1 = None /\ r_user r2 = None /\ requests (r_events r1) /\ requests (r_events r2)
  /\ (ve_now (r_env r2) - ve_now (r_env r1) = 1)%Z.
Proof.
  pose (runs := simulate (app "1.2.3") disk (days [(1000, "a"); (90000, ""); (90001, "")]%Z)).
  assert (H : history (app "1.2.3") true "/home/u" disk (fst runs) (snd runs)).
  { apply simulate_history; [apply app_name_ok|apply disk_usable|]. now apply days_ok. }
  exists (app "1.2.3"), "/home/u", disk. unfold runs in H. cbn [simulate days map fst snd] in H.
  do 4 eexists. split; [exact H|]. repeat split; vm_compute; reflexivity.
Qed.

(** ** C49: never *)

(** full statement: without [history] requiring the configuration directory to be usable (refuted below) *)
Theorem C49_never_partial : forall m nd home f l1 r1 l2 f2, cookie_name m -> history m nd home f (l1 ++ r1 :: l2) f2 ->
  asks (r_events r1) -> snd (verdict (ve_answer (r_env r1))) = "NEVER" ->
  forall r, In r l2 -> r_user r <> Some true -> r_events r = [].
Proof. intros m nd home f l1 r1 l2 f2 HN. exact (never_after_answer m nd home f l1 r1 l2 f2 HN). Qed.
Print Assumptions C49_never_partial.

Example C49_ex : map r_events (fst (simulate (app "1.2.3") disk (days [(1000, "n"); (100000, "y"); (1000000, "a")]%Z))) = [[Message question]; []; []].
Proof. vm_compute. reflexivity. Qed.

(** If neither the configuration directory nor the directory for temporary files is writable, the decision is
    written to the working directory and never read: the user is asked at every run. *)
Theorem C49_asked_again_refuted : exists e m f, let run1 := version_check e m true None {| vs_fs := f; vs_log := [] |} in
  let run2 := version_check e m true None {| vs_fs := vs_fs (fst run1); vs_log := [] |} in
  snd (verdict (ve_answer e)) = "NEVER" /\ snd run1 = Ret tt /\ snd run2 = Ret tt /\ asks (vs_log (fst run1)) /\ asks (vs_log (fst run2))
  /\ vs_fs (fst run1) ["app_usr.timestamp"] = Some (NFile ("1000" +s+ nl +s+ "NEVER") rw).
Proof.
  exists (at_ true 1000 "n"), (app "1.2.3"), (upd (upd bare ["home"; "u"] (Some (NDir ro))) ["tmp"] (Some (NDir ro))).
  repeat split; try (vm_compute; reflexivity); vm_compute; left; reflexivity.
Qed.

(** ** C50: messages *)

(** full statement: without [fits_int] (refuted below) *)
Theorem C50_release_partial : forall e home m f c mm l v, ve_home e = Some home -> ve_opt_out e = false -> cookie_name m -> ve_ndebug e = true ->
  usable true home (m_app_name m) f -> f (version_file home (m_app_name m)) = Some (NFile c mm) -> f_readable mm = true ->
  first_line c l -> app_version (m_version m) v -> fits_int v -> (forall w, version_text l w -> fits_int w) ->
  exists st, version_check e m true (Some true) {| vs_fs := f; vs_log := [] |} = (st, Ret tt)
    /\ (In (Message (message_app_update (m_url m))) (vs_log st) <-> exists w, version_text l w /\ newer w v)
    /\ forall s, In (Message s) (vs_log st) -> s = message_app_update (m_url m).
Proof. exact release_lemma. Qed.
Print Assumptions C50_release_partial.

Theorem C50_debug_partial : forall e home m f c1 r mm l2 v, ve_home e = Some home -> ve_opt_out e = false -> cookie_name m -> ve_ndebug e = false ->
  usable false home (m_app_name m) f -> f (version_file home (m_app_name m)) = Some (NFile (c1 +s+ nl +s+ r) mm) -> f_readable mm = true ->
  scontains "010" c1 = false -> first_line r l2 -> app_version (m_version m) v -> fits_int v ->
  (forall w, version_text c1 w -> fits_int w) -> (forall w, version_text l2 w -> fits_int w) ->
  exists st, version_check e m true (Some true) {| vs_fs := f; vs_log := [] |} = (st, Ret tt)
    /\ (In (Message message_sharg_update) (vs_log st) <-> exists w, version_text l2 w /\ newer w (1, 1, 2)%Z)
    /\ (In (Message message_registered_app_update) (vs_log st) <-> exists w, version_text c1 w /\ w <> (0, 0, 0)%Z /\ newer v w)
    /\ (In (Message message_unregistered_app) (vs_log st) <-> c1 = "UNREGISTERED_APP")
    /\ ~ In (Message (message_app_update (m_url m))) (vs_log st).
Proof. exact debug_lemma. Qed.
Print Assumptions C50_debug_partial.

Theorem C50_no_file : forall e home m f, ve_home e = Some home -> cookie_name m -> usable (ve_ndebug e) home (m_app_name m) f -> ve_opt_out e = false ->
  f (version_file home (m_app_name m)) = None ->
  exists st, version_check e m true (Some true) {| vs_fs := f; vs_log := [] |} = (st, Ret tt) /\ forall s, ~ In (Message s) (vs_log st).
Proof. exact no_file_lemma. Qed.
Print Assumptions C50_no_file.

Definition server_says (s : string) : fs := file (seqan ++ ["app.version"]) s disk.
Definition messages (r : vstate * res unit) : list string := flat_map (fun x => match x with Message s => [s] | _ => [] end) (events r).
Example C50_ex : messages (go (at_ true 1 "") true (Some true) (server_says ("1.2.10" +s+ nl +s+ "1.0.0" +s+ nl))) = [message_app_update ""]
  /\ messages (go (at_ true 1 "") true (Some true) (server_says ("1.2.3" +s+ nl +s+ "9.0.0" +s+ nl))) = []
  /\ messages (go (at_ true 1 "") true (Some true) (server_says ("1.2.10x" +s+ nl))) = []
  /\ messages (go (at_ false 1 "") true (Some true) (server_says ("1.1.9" +s+ nl +s+ "1.2.0" +s+ nl))) = [message_sharg_update; message_registered_app_update]
  /\ messages (go (at_ false 1 "") true (Some true) (server_says ("UNREGISTERED_APP" +s+ nl +s+ "1.1.2" +s+ nl))) = [message_unregistered_app]
  /\ messages (go (at_ true 1 "") true (Some true) disk) = [].
Proof. repeat split; vm_compute; reflexivity. Qed.

(** numbers of 2^31 and more count as 0 *)
Theorem C50_large_refuted : exists e m f l w, version_text l w /\ newer w (1, 2, 3)%Z /\ app_version (m_version m) (1, 2, 3)%Z
  /\ f (version_file "/home/u" "app") = Some (NFile l rw) /\ messages (version_check e m true (Some true) {| vs_fs := f; vs_log := [] |}) = [].
Proof.
  exists (at_ true 1 ""), (app "1.2.3"), (server_says "2147483648.0.0"), "2147483648.0.0", (2147483648, 0, 0)%Z. split; [|split; [|split; [|split]]].
  - exists "2147483648", "0", "0". repeat split; discriminate || reflexivity.
  - cbn. left. reflexivity.
  - left. exists "1.2.3", "". split; [reflexivity|]. split; [|exact I]. exists "1", "2", "3". repeat split; discriminate || reflexivity.
  - reflexivity.
  - vm_compute. reflexivity.
Qed.

(** a file with one line only: its number also counts as the version of Sharg *)
Theorem C50_one_line_refuted : exists e m f, f (version_file "/home/u" "app") = Some (NFile "7.0.0" rw)
  /\ messages (version_check e m true (Some true) {| vs_fs := f; vs_log := [] |}) = [message_sharg_update].
Proof. exists (at_ false 1 ""), (app "1.2.3"), (server_says "7.0.0"). split; vm_compute; reflexivity. Qed.

(** ** C51: what the shell gets to see *)

(** Every command is one of four programs with the file to write, the address and a redirection; the address consists
    of harmless characters and is made of the operating system, 32 or 64 bit, the name and the numbers of the version.
    [place]: where the file is. *)
Theorem C51_command : forall e m on user st c, cookie_name m -> In (Request c) (vs_log (fst (version_check e m on user st))) ->
  In (Request c) (vs_log st) \/
  exists program directory url version, In program programs /\ place e directory
    /\ (exists v, version_text version v /\ app_version (m_version m) v)
    /\ c = program +s+ " " +s+ path_join directory (m_app_name m +s+ ".version") +s+ " " +s+ url +s+ " > /dev/null 2>&1"
    /\ sall shell_safe url = true /\ is_empty url = false
    /\ url = "https://seqan-update.informatik.uni-tuebingen.de/check/SeqAn-Sharg_" +s+ os_name e +s+ (if ve_64 e then "_64_" else "_32_") +s+ m_app_name m +s+ "_" +s+ version.
Proof. exact command_lemma. Qed.
Print Assumptions C51_command.

Example C51_ex : events (version_check (at_ true 1 "") (app "1.2.3; rm -rf /") true (Some true) {| vs_fs := disk; vs_log := [] |})
  = [Probe "/usr/bin/env -i wget --version > /dev/null 2>&1";
     Request ("/usr/bin/env -i wget --timeout=10 --tries=1 -q -O /home/u/.config/seqan/app.version "
              +s+ "https://seqan-update.informatik.uni-tuebingen.de/check/SeqAn-Sharg_Linux_64_app_1.2.3 > /dev/null 2>&1")].
Proof. vm_compute. reflexivity. Qed.

(** ** C61: the answer *)

Theorem C61_answer : forall e home m f, ve_home e = Some home -> cookie_name m -> usable (ve_ndebug e) home (m_app_name m) f -> ve_opt_out e = false ->
  undecided (ve_ndebug e) home (m_app_name m) (ve_recent e) (ve_now e) f ->
  exists st, version_check e m true None {| vs_fs := f; vs_log := [] |} = (st, Ret tt)
    /\ (ve_tty e = true -> asks (vs_log st)
        /\ stored (ve_ndebug e) home (m_app_name m) (vs_fs st) (ve_now e) (snd (verdict (ve_answer e)))
        /\ (requests (vs_log st) <-> fst (verdict (ve_answer e)) = true /\ has_program e))
    /\ (ve_tty e = false -> vs_log st = [] /\ stored (ve_ndebug e) home (m_app_name m) (vs_fs st) (ve_now e) "ASK").
Proof. exact answer_lemma. Qed.
Print Assumptions C61_answer.

Theorem C61_always : forall e home m f t, ve_home e = Some home -> cookie_name m -> usable (ve_ndebug e) home (m_app_name m) f -> ve_opt_out e = false ->
  stored (ve_ndebug e) home (m_app_name m) f t "ALWAYS" ->
  exists st, version_check e m true None {| vs_fs := f; vs_log := [] |} = (st, Ret tt)
    /\ stored (ve_ndebug e) home (m_app_name m) (vs_fs st) t "ALWAYS" /\ ~ asks (vs_log st)
    /\ (requests (vs_log st) <-> ve_recent e (Z_to_string t) (ve_now e) = false /\ has_program e).
Proof. exact always_lemma. Qed.
Print Assumptions C61_always.

(** --version-check 1: checked whatever was decided before, and the decision is not changed *)
Theorem C61_explicit : forall e home m f, ve_home e = Some home -> cookie_name m -> usable (ve_ndebug e) home (m_app_name m) f -> ve_opt_out e = false ->
  exists st, version_check e m true (Some true) {| vs_fs := f; vs_log := [] |} = (st, Ret tt)
    /\ (forall k, vs_fs st k = f k) /\ ~ asks (vs_log st) /\ (requests (vs_log st) <-> has_program e).
Proof. exact explicit_lemma. Qed.
Print Assumptions C61_explicit.

Definition decided (r : vstate * res unit) : option node := after r (seqan ++ ["app_usr.timestamp"]).
Example C61_ex : map (fun a => let r := go (at_ true 1000 a) true None disk in (existsb is_request (events r), decided r)) ["always"; "n"; "y"; "s"; "q"]
  = map (fun x => (fst x, Some (NFile ("1000" +s+ nl +s+ snd x) rw))) [(true, "ALWAYS"); (false, "NEVER"); (true, "ASK"); (false, "ASK"); (false, "ASK")].
Proof. vm_compute. reflexivity. Qed.

(** The question announces "always" as the default; just pressing RETURN skips the check. *)
Theorem C61_return_refuted : exists e m f, ve_answer e = "" /\
  let r := version_check e m true None {| vs_fs := f; vs_log := [] |} in
  snd r = Ret tt /\ vs_log (fst r) = [Message question] /\ after r (cookie true "/home/u" "app") = Some (NFile ("1000" +s+ nl +s+ "ASK") rw).
Proof. exists (at_ true 1000 ""), (app "1.2.3"), disk. repeat split; vm_compute; reflexivity. Qed.

(** The comment on decide_if_check_is_performed: "If we cannot ask the user, the default kicks in (do the check)". *)
Theorem C61_no_terminal_refuted : exists e m f, ve_tty e = false /\ has_program e /\ usable true "/home/u" "app" f /\
  let r := version_check e m true None {| vs_fs := f; vs_log := [] |} in snd r = Ret tt /\ vs_log (fst r) = [].
Proof.
  exists (no_terminal (at_ true 1000 "a")), (app "1.2.3"), disk. split; [reflexivity|]. split; [left; vm_compute; reflexivity|]. split; [apply disk_usable|].
  split; vm_compute; reflexivity.
Qed.

(** ** C62: the version check never makes parse() fail *)

(** full statement: without hypotheses (refuted below) *)
Theorem C62_never_fails_partial : forall e home m on user st, ve_home e = Some home -> cookie_name m ->
  (exists mm, lookup (vs_fs st) (ve_tmp e) = Some (NDir mm)) ->
  ve_ndebug e = true \/ (vs_fs st (comps (ve_tmp e) ++ ["dummy.txt"]) = None /\ vs_fs st (cookie_dir home ++ ["dummy.txt"]) = None) ->
  exists st', version_check e m on user st = (st', Ret tt).
Proof. exact never_fails. Qed.
Print Assumptions C62_never_fails_partial.

Example C62_ex : snd (go (at_ false 1000 "y") true None (upd bare ["home"; "u"] (Some (NDir ro)))) = Ret tt
  /\ after (go (at_ false 1000 "y") true None (upd bare ["home"; "u"] (Some (NDir ro)))) ["tmp"; "app_dev.timestamp"] = Some (NFile ("1000" +s+ nl +s+ "ASK") rw).
Proof. split; vm_compute; reflexivity. Qed.

(** without HOME, even with notifications switched off *)
Theorem C62_no_home_refuted : exists e m st, snd (version_check e m false None st) = UB.
Proof. exists (with_home None (at_ true 1000 "")), (app "1.2.3"), {| vs_fs := disk; vs_log := [] |}. vm_compute. reflexivity. Qed.
(** HOME is not writable and there is no directory for temporary files: an exception that is none of Sharg's *)
Theorem C62_no_tmp_refuted : exists e m f what, snd (version_check e m false None {| vs_fs := f; vs_log := [] |}) = Throw (Exn KStdOther what).
Proof. exists (at_ true 1000 ""), (app "1.2.3"), (upd (upd bare ["home"; "u"] (Some (NDir ro))) ["tmp"] None). eexists. vm_compute. reflexivity. Qed.
(** a dummy.txt that cannot be deleted *)
Theorem C62_assertion_refuted : exists e m f, snd (version_check e m false None {| vs_fs := f; vs_log := [] |}) = AssertFail.
Proof. exists (at_ false 1000 ""), (app "1.2.3"), (upd (file (seqan ++ ["dummy.txt"]) "x" disk) seqan (Some (NDir ro))). vm_compute. reflexivity. Qed.

(** ** C63: what is revealed *)

(** Two runs of the same program on the same kind of machine visit the same address, whatever the time, the files,
    the answers and everything else: it tells nothing about them. *)
Theorem C63_same_address : forall m e1 e2 on1 on2 user1 user2 f1 f2 c1 c2, cookie_name m -> ve_os e1 = ve_os e2 -> ve_64 e1 = ve_64 e2 ->
  In (Request c1) (vs_log (fst (version_check e1 m on1 user1 {| vs_fs := f1; vs_log := [] |}))) ->
  In (Request c2) (vs_log (fst (version_check e2 m on2 user2 {| vs_fs := f2; vs_log := [] |}))) ->
  exists p1 p2 d1 d2 url, In p1 programs /\ In p2 programs /\ sall shell_safe url = true
    /\ c1 = p1 +s+ " " +s+ path_join d1 (m_app_name m +s+ ".version") +s+ " " +s+ url +s+ " > /dev/null 2>&1"
    /\ c2 = p2 +s+ " " +s+ path_join d2 (m_app_name m +s+ ".version") +s+ " " +s+ url +s+ " > /dev/null 2>&1".
Proof. exact same_address. Qed.
Print Assumptions C63_same_address.

(** The documentation lists "The Sharg version that the application was built with" (1.1.2); it is not sent. *)
Theorem C63_sharg_version_refuted : exists e m st c, events (version_check e m true (Some true) st) = [Probe "/usr/bin/env -i wget --version > /dev/null 2>&1"; Request c]
  /\ forall a b, c <> a +s+ "1.1.2" +s+ b.
Proof.
  exists (at_ true 1 ""), (app "1.2.3"), {| vs_fs := disk; vs_log := [] |}. eexists. split; [vm_compute; reflexivity|].
  intros a b H. apply (f_equal (sub_in "1.1.2")) in H. rewrite sub_in_app in H. vm_compute in H. discriminate H.
Qed.

(** ** C64: the file name is one word *)

(** full statement: for all values of HOME (refuted below) *)
Theorem C64_one_word_partial : forall e m directory, place e directory -> cookie_name m ->
  (forall home, ve_home e = Some home -> sall shell_safe home = true) -> sall shell_safe (ve_tmp e) = true ->
  sall shell_safe (path_join directory (m_app_name m +s+ ".version")) = true.
Proof. exact safe_place. Qed.
Print Assumptions C64_one_word_partial.

(** the value of HOME reaches the shell unquoted *)
Theorem C64_home_refuted : exists e m f c, ve_home e = Some "/home/u;reboot" /\
  In (Request c) (vs_log (fst (version_check e m true (Some true) {| vs_fs := f; vs_log := [] |})))
  /\ c = "/usr/bin/env -i wget --timeout=10 --tries=1 -q -O /home/u;reboot/.config/seqan/app.version "
              +s+ "https://seqan-update.informatik.uni-tuebingen.de/check/SeqAn-Sharg_Linux_64_app_1.2.3 > /dev/null 2>&1".
Proof.
  exists (with_home (Some "/home/u;reboot") (at_ true 1 "")), (app "1.2.3"), (dirs [["home"; "u;reboot"]] bare). eexists. split; [reflexivity|]. split; [|reflexivity].
  vm_compute. right. left. reflexivity.
Qed.
