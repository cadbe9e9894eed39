(** Exact forms of C50 (every number, every file), C62 (every state of the files) and C64 (every directory). *)
From Verif Require Import Base StrLib Fs Values ValuesSpec FormatParse Parser VersionCheck VersionSpec VersionProofs VersionRuns VersionEndSpec VersionEnd VersionSeen Samples PropVersion.

(** ** C50 *)

(** Every file has a first line and a line for the version of Sharg. *)
Theorem C50_lines : forall c, (exists l, first_line c l) /\ exists l, sharg_line c l.
Proof. intros c. split; [exact (has_first c)|exact (has_sharg_line c)]. Qed.
Print Assumptions C50_lines.

(** An optimised build reports an update if and only if the first line is a version whose numbers, with those of
    2^31 and more taken for 0, are newer than those of the program, taken likewise. *)
Theorem C50_release_exact : forall e home m f c mm l v, ve_home e = Some home -> ve_opt_out e = false -> cookie_name m -> ve_ndebug e = true ->
  usable true home (m_app_name m) f -> f (version_file home (m_app_name m)) = Some (NFile c mm) -> f_readable mm = true ->
  first_line c l -> app_version (m_version m) v ->
  exists st, version_check e m true (Some true) {| vs_fs := f; vs_log := [] |} = (st, Ret tt)
    /\ (In (Message (message_app_update (m_url m))) (vs_log st) <-> exists w, version_text l w /\ newer (seen w) (seen v))
    /\ forall s, In (Message s) (vs_log st) -> s = message_app_update (m_url m).
Proof. exact release_exact. Qed.
Print Assumptions C50_release_exact.

(** The messages of a build for development, for files of one line and of more. *)
Theorem C50_debug_exact : forall e home m f c mm l1 l2 v, ve_home e = Some home -> ve_opt_out e = false -> cookie_name m -> ve_ndebug e = false ->
  usable false home (m_app_name m) f -> f (version_file home (m_app_name m)) = Some (NFile c mm) -> f_readable mm = true ->
  first_line c l1 -> sharg_line c l2 -> app_version (m_version m) v ->
  exists st, version_check e m true (Some true) {| vs_fs := f; vs_log := [] |} = (st, Ret tt)
    /\ (In (Message message_sharg_update) (vs_log st) <-> exists w, version_text l2 w /\ newer (seen w) (1, 1, 2)%Z)
    /\ (In (Message message_registered_app_update) (vs_log st) <-> exists w, version_text l1 w /\ seen w <> (0, 0, 0)%Z /\ newer (seen v) (seen w))
    /\ (In (Message message_unregistered_app) (vs_log st) <-> l1 = "UNREGISTERED_APP")
    /\ ~ In (Message (message_app_update (m_url m))) (vs_log st).
Proof. exact debug_exact. Qed.
Print Assumptions C50_debug_exact.

Example C50_exact_ex : messages (go (at_ true 1 "") true (Some true) (server_says ("2.2147483648.1" +s+ nl))) = [message_app_update ""]
  /\ messages (go (at_ true 1 "") true (Some true) (server_says ("1.2147483648.9" +s+ nl))) = []
  /\ messages (go (at_ true 1 "") true (Some true) (server_says ("1.2147483647.9" +s+ nl))) = [message_app_update ""]
  /\ messages (go (at_ false 1 "") true (Some true) (server_says "1.2147483648.9")) = [message_registered_app_update]
  /\ seen (1, 2147483648, 9)%Z = (1, 0, 9)%Z.
Proof. repeat split; vm_compute; reflexivity. Qed.

(** ** C62 *)

(** What becomes of a run, for every state of the files before it: it goes on, or HOME is not set, or there is no
    directory for temporary files although it is needed, or a dummy.txt cannot be deleted. *)
Theorem C62_exact : forall e m on user st x, cookie_name m -> (forall home, ve_home e = Some home -> rooted home (vs_fs st)) ->
  (snd (version_check e m on user st) = result_of x <-> ends e (vs_fs st) x).
Proof. exact check_ends. Qed.
Print Assumptions C62_exact.

(** There is exactly one ending. *)
Theorem C62_one_ending : forall e f, (forall home, ve_home e = Some home -> rooted home f) ->
  exists x, ends e f x /\ forall y, ends e f y -> y = x.
Proof.
  intros e f R. destruct (ends_total e f R) as [x X]. exists x. split; [exact X|]. intros y Y. exact (ends_fun e f y x Y X).
Qed.
Print Assumptions C62_one_ending.

Lemma C62_no_dir f k : f k = None -> ~ has_dir f k.
Proof. intros H [m E]. rewrite H in E. discriminate E. Qed.
Lemma C62_not_open f k : f k = Some (NDir ro) -> ~ open_dir f k.
Proof. intros H (m & E & W). rewrite H in E. injection E as <-. discriminate W. Qed.

(** the same run in four situations *)
Example C62_exact_ex :
  let closed := upd bare ["home"; "u"] (Some (NDir ro)) in
  let jam := upd (file (seqan ++ ["dummy.txt"]) "x" disk) seqan (Some (NDir ro)) in
  ends (at_ false 1000 "") bare Goes_on /\ ends (with_home None (at_ false 1000 "")) bare Undefined
  /\ ends (at_ false 1000 "") closed Goes_on /\ ends (at_ false 1000 "") (upd closed ["tmp"] None) No_temporary
  /\ ends (at_ false 1000 "") jam Assertion /\ ends (at_ true 1000 "") jam Goes_on.
Proof.
  cbv zeta. split; [|split; [|split; [|split; [|split]]]].
  - apply en_config with "/home/u"; [reflexivity| |].
    + right. split; [vm_compute; reflexivity|]. exists rw. split; vm_compute; reflexivity.
    + right. intros [(m & E & _) _]. vm_compute in E. discriminate E.
  - apply en_home. reflexivity.
  - apply en_temporary with "/home/u"; [reflexivity| | |].
    + intros [[H _]|[_ H]]; [apply C62_no_dir in H; [exact H|vm_compute; reflexivity]|apply C62_not_open in H; [exact H|vm_compute; reflexivity]].
    + split; [discriminate|]. exists rw. vm_compute. reflexivity.
    + right. intros [_ H]. apply H. vm_compute. reflexivity.
  - apply en_tmp with "/home/u"; [reflexivity| |].
    + intros [[H _]|[_ H]]; [apply C62_no_dir in H; [exact H|vm_compute; reflexivity]|apply C62_not_open in H; [exact H|vm_compute; reflexivity]].
    + intros [_ H]. apply C62_no_dir in H; [exact H|vm_compute; reflexivity].
  - apply en_stuck with "/home/u"; [reflexivity|reflexivity| |].
    + left. split; [exists rw; vm_compute; reflexivity|]. left. exists ro. vm_compute. reflexivity.
    + split; [exists ro; split; vm_compute; reflexivity|]. vm_compute. discriminate.
  - apply en_config with "/home/u"; [reflexivity| |left; reflexivity].
    left. split; [exists rw; vm_compute; reflexivity|]. left. exists ro. vm_compute. reflexivity.
Qed.

(** ** C64 *)

(** The name of the file is one harmless word for the shell if and only if the directory in use is the working
    directory, or is made of harmless characters itself. *)
Theorem C64_exact : forall e m on user f c, cookie_name m -> In (Request c) (vs_log (fst (version_check e m on user {| vs_fs := f; vs_log := [] |}))) ->
  exists program directory url, In program programs /\ place e directory /\ sall shell_safe url = true
    /\ c = program +s+ " " +s+ path_join directory (m_app_name m +s+ ".version") +s+ " " +s+ url +s+ " > /dev/null 2>&1"
    /\ (sall shell_safe (path_join directory (m_app_name m +s+ ".version")) = true
        <-> directory = "" \/ directory = ve_tmp e /\ sall shell_safe (ve_tmp e) = true
            \/ exists home, ve_home e = Some home /\ directory = seqan_dir home /\ sall shell_safe home = true).
Proof. exact word_exact. Qed.
Print Assumptions C64_exact.

Example C64_exact_ex : exists c, In (Request c) (events (go (at_ true 1 "") true (Some true) disk)) /\ sall shell_safe "/home/u" = true
  /\ sall shell_safe "/home/u;reboot" = false /\ sall shell_safe "/home/a b" = false.
Proof. eexists. split; [vm_compute; right; left; reflexivity|]. repeat split; vm_compute; reflexivity. Qed.
