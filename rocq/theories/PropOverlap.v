(** Properties of runs of the version check that overlap in time (C66 - C71). *)
From Verif Require Import Base StrLib Fs Values ValuesSpec FormatParse Parser VersionCheck VersionSpec VersionProofs VersionRuns Samples PropVersion.
From Verif Require Import VersionSteps OverlapSpec VersionStepsProofs VersionOverlap VersionQuiet VersionPartial.

(** ** Samples *)

Definition at_terminal (now : Z) (answer : string) : launch := {| l_env := at_ true now answer; l_meta := app "1.2.3"; l_on := true; l_user := None |}.
Definition in_script (now : Z) : launch := {| l_env := no_terminal (at_ true now ""); l_meta := app "1.2.3"; l_on := true; l_user := None |}.
Definition switched_off (now : Z) : launch := {| l_env := at_ true now "a"; l_meta := app "1.2.3"; l_on := true; l_user := Some false |}.
Definition results (x : fs * list proc) : list (option (res unit)) := map (fun p => match p_prog p with Done r => Some r | _ => None end) (snd x).
Definition logs (x : fs * list proc) : list (list event) := map p_log (snd x).
Definition cookie_now (x : fs * list proc) : option node := fst x (seqan ++ ["app_usr.timestamp"]).
Definition turns (i n : nat) : list turn := repeat (Run i) n.
Definition said (t d : string) : option node := Some (NFile (t +s+ nl +s+ d) rw).

Lemma no_files name P : contents name disk P.
Proof. intros d c m H. unfold disk, bare, dirs, nothing in H. repeat match type of H with context [existsb ?a ?b] => destruct (existsb a b) end; discriminate. Qed.

(** ** C66: steps *)

(** A run that nobody disturbs does what the model of single runs says. *)
Theorem C66_alone : forall l f ps i, nth_error ps i = Some (start l) ->
  exists n, forall n', n <= n' -> exec (repeat (Run i) n') f ps =
    let '(st, r) := version_check (l_env l) (l_meta l) (l_on l) (l_user l) {| vs_fs := f; vs_log := [] |} in
    (vs_fs st, replace i {| p_prog := Done r; p_log := vs_log st |} ps).
Proof. exact alone_lemma. Qed.
Print Assumptions C66_alone.

(** No run waits for another: it is over after 22 steps of its own, whatever other runs and programs do in between. *)
Theorem C66_wait_free : forall s f ps i l, nth_error ps i = Some (start l) -> 22 <= turns_of i s ->
  exists r log, nth_error (snd (exec s f ps)) i = Some {| p_prog := Done r; p_log := log |}.
Proof. exact wait_free. Qed.
Print Assumptions C66_wait_free.

Example C66_ex : let x := exec (turns 0 3 ++ turns 1 4 ++ [World (fun _ => bare)] ++ turns 0 22 ++ turns 1 22) disk (map start [at_terminal 1700000000 "y"; in_script 1700000001]) in
  results x = [Some (Ret tt); Some (Ret tt)] /\ List.length (nth 0 (logs x) []) = 3.
Proof. vm_compute. split; reflexivity. Qed.

(** ** C67: opting out *)

(** Whatever happens meanwhile, a run without the check never says, asks or requests anything, and none of its steps
    touches a file apart from the configuration directories and dummy.txt. *)
Theorem C67_opt_out : forall s f ps i l, nth_error ps i = Some (start l) -> opted_out l ->
  let '(f', ps') := exec s f ps in exists p, nth_error ps' i = Some p /\ p_log p = [] /\ spares (l_env l) f' (fst (proc_step f' p)).
Proof. exact opt_out_lemma. Qed.
Print Assumptions C67_opt_out.

Example C67_ex : let x := exec (turns 0 3 ++ turns 1 9 ++ turns 0 22 ++ turns 1 22) disk (map start [switched_off 1700000000; at_terminal 1700000001 "a"]) in
  opted_out (switched_off 1700000000) /\ results x = [Some (Ret tt); Some (Ret tt)] /\ nth 0 (logs x) [] = [] /\ List.length (nth 1 (logs x) []) = 3.
Proof. split; [right; right; reflexivity|]. vm_compute. repeat split; reflexivity. Qed.

(** ** C68: consent *)

(** As long as nobody answered a, now or before, a run that does more than asking was told to by --version-check 1 or by
    the answer of its own user. *)
Theorem C68_consent : forall nd name ls s f,
  (forall l, In l ls -> name_matches (m_app_name (l_meta l)) = true) -> left_alone (cookie_file nd name) s ->
  contents (cookie_file nd name) f (remembers (fun _ => True) ["ASK"; "NEVER"]) ->
  (forall l, In l ls -> run_of nd name l -> ~ answered l "a") ->
  forall i l p x, nth_error ls i = Some l -> run_of nd name l -> nth_error (snd (exec s f (map start ls))) i = Some p ->
  In x (p_log p) -> x <> Message question -> l_user l = Some true \/ answered l "y".
Proof. exact consent_lemma. Qed.
Print Assumptions C68_consent.

Example C68_case : let ls := [at_terminal 1700000000 "y"; in_script 1700000000; at_terminal 1700000000 "s"] in
  let x := exec (turns 0 8 ++ turns 1 7 ++ turns 2 9 ++ turns 0 22 ++ turns 1 22 ++ turns 2 22) disk (map start ls) in
  (forall l, In l ls -> name_matches (m_app_name (l_meta l)) = true) /\ (forall l, In l ls -> run_of true "app" l -> ~ answered l "a")
  /\ contents (cookie_file true "app") disk (remembers (fun _ => True) ["ASK"; "NEVER"]) /\ results x = [Some (Ret tt); Some (Ret tt); Some (Ret tt)]
  /\ map (@List.length event) (logs x) = [3; 0; 1] /\ cookie_now x = said "1700000000" "ASK".
Proof.
  cbv zeta. split; [intros l [<-|[<-|[<-|[]]]]; reflexivity|]. split; [intros l [<-|[<-|[<-|[]]]] _ [H1 H2]; vm_compute in H1, H2; discriminate|].
  split; [|repeat split; vm_compute; reflexivity]. exact (no_files _ _).
Qed.

(** somebody else's a does count: this run does more than asking although its user is not even asked *)
Theorem C68_only_own_refuted : exists ls s f i l p x, contents (cookie_file true "app") f (remembers (fun _ => True) ["ASK"; "NEVER"])
  /\ nth_error ls i = Some l /\ nth_error (snd (exec s f (map start ls))) i = Some p /\ In x (p_log p) /\ is_request x = true
  /\ l_user l = None /\ ve_tty (l_env l) = false.
Proof.
  exists [at_terminal 1700000000 "a"; in_script 1700086400], (turns 1 6 ++ turns 0 22 ++ turns 1 22), disk, 1, (in_script 1700086400). eexists. eexists.
  split; [exact (no_files _ _)|].
  split; [reflexivity|]. split; [vm_compute; reflexivity|]. split; [vm_compute; right; left; reflexivity|]. repeat split; vm_compute; reflexivity.
Qed.

(** ** C69: a decision in force *)

(** While NEVER is stored, or a question less than a day old, no run of this build of the application does anything
    unless --version-check 1 is given; the cookie stays as it is whatever other applications do, and every run that
    ends returns normally. *)
Theorem C69_quiet : forall nd home name ls s f t d,
  (forall l, In l ls -> ve_home (l_env l) = Some home /\ name_matches (m_app_name (l_meta l)) = true) ->
  (forall g h, In (World g) s -> ready home h -> ready home (g h) /\ g h (cookie nd home name) = h (cookie nd home name)) ->
  ready home f -> stored nd home name f t d -> scontains "010" d = false ->
  (forall l, In l ls -> run_of nd name l -> d = "NEVER" \/ ve_recent (l_env l) (Z_to_string t) (ve_now (l_env l)) = true) ->
  let '(f', ps') := exec s f (map start ls) in
  ready home f' /\ f' (cookie nd home name) = f (cookie nd home name) /\
  (forall i p r, nth_error ps' i = Some p -> p_prog p = Done r -> r = Ret tt) /\
  (forall i l p, nth_error ls i = Some l -> nth_error ps' i = Some p -> run_of nd name l -> l_user l <> Some true -> p_log p = []).
Proof. exact quiet_lemma. Qed.
Print Assumptions C69_quiet.

Definition other_app (now : Z) (answer : string) : launch :=
  {| l_env := at_ true now answer; l_on := true; l_user := None;
     l_meta := {| m_app_name := "app2"; m_version := "1.2.3"; m_short_description := ""; m_author := ""; m_email := ""; m_date := "";
                  m_url := ""; m_short_copyright := ""; m_long_copyright := ""; m_citation := ""; m_man_page_title := "";
                  m_man_page_section := 1; m_description := []; m_synopsis := []; m_examples := [] |} |}.
Definition never : fs := file (seqan ++ ["app_usr.timestamp"]) ("1600000000" +s+ nl +s+ "NEVER") disk.
Example C69_case : let ls := [at_terminal 1700000000 "a"; other_app 1700000000 "a"; in_script 1700000000] in
  let x := exec (turns 0 3 ++ turns 1 4 ++ turns 2 5 ++ turns 0 2 ++ turns 1 22 ++ turns 2 22 ++ turns 0 22) never (map start ls) in
  (forall l, In l ls -> ve_home (l_env l) = Some "/home/u" /\ name_matches (m_app_name (l_meta l)) = true)
  /\ ready "/home/u" never /\ stored true "/home/u" "app" never 1600000000 "NEVER"
  /\ map (@List.length event) (logs x) = [0; 3; 0] /\ cookie_now x = said "1600000000" "NEVER" /\ fst x (seqan ++ ["app2_usr.timestamp"]) = said "1700000000" "ALWAYS".
Proof.
  cbv zeta. split; [intros l [<-|[<-|[<-|[]]]]; split; reflexivity|]. split; [|split; [|repeat split; vm_compute; reflexivity]].
  - split; [exists rw; reflexivity|]. split; [exists rw; split; reflexivity|left; reflexivity].
  - exists rw. split; [reflexivity|]. split; reflexivity.
Qed.

(** ** C70: decisions *)

(** Overlapping runs invent no decisions: ALWAYS and NEVER are in a cookie only if they were there before or somebody
    said so. *)
Theorem C70_decisions : forall nd name ls s f ds,
  (forall l, In l ls -> name_matches (m_app_name (l_meta l)) = true) -> left_alone (cookie_file nd name) s ->
  (forall d, In d ds -> In d ["ASK"; "ALWAYS"; "NEVER"]) -> contents (cookie_file nd name) f (remembers (fun _ => True) ds) ->
  contents (cookie_file nd name) (fst (exec s f (map start ls))) (fun c =>
    (second_line c "ALWAYS" -> In "ALWAYS" ds \/ exists l, In l ls /\ run_of nd name l /\ answered l "a") /\
    (second_line c "NEVER" -> In "NEVER" ds \/ exists l, In l ls /\ run_of nd name l /\ answered l "n")).
Proof. exact decisions_lemma. Qed.
Print Assumptions C70_decisions.

(** A cookie is empty, or its first line is the time of some run and its second line one of seven words. *)
Theorem C70_times : forall nd name ls s f (T : Z -> Prop),
  (forall l, In l ls -> name_matches (m_app_name (l_meta l)) = true) -> left_alone (cookie_file nd name) s ->
  (forall t, T t -> our_days t) -> (forall l, In l ls -> run_of nd name l -> our_days (ve_now (l_env l))) ->
  contents (cookie_file nd name) f (remembers T ["ASK"; "ALWAYS"; "NEVER"]) ->
  contents (cookie_file nd name) (fst (exec s f (map start ls)))
    (remembers (fun t => T t \/ exists l, In l ls /\ run_of nd name l /\ ve_now (l_env l) = t)
       ["ASK"; "ALWAYS"; "NEVER"; "ASKER"; "ASKAYS"; "NEVERS"; "ASKERS"]).
Proof. exact times_lemma. Qed.
Print Assumptions C70_times.

(** the answer n is lost when another run that had not seen it writes later *)
Theorem C70_kept_refuted : exists ls s f l, ls = [l; in_script 1700000000] /\ answered l "n" /\ let x := exec s f (map start ls) in
  results x = [Some (Ret tt); Some (Ret tt)] /\ nth 0 (logs x) [] = [Message question] /\ cookie_now x = said "1700000000" "ASK".
Proof.
  exists [at_terminal 1700000000 "n"; in_script 1700000000], (turns 1 7 ++ turns 0 22 ++ turns 1 22), disk, (at_terminal 1700000000 "n").
  split; [reflexivity|]. split; [split; reflexivity|]. vm_compute. repeat split; reflexivity.
Qed.

(** two texts are mixed: neither NEVER nor ALWAYS nor ASK is remembered *)
Theorem C70_word_refuted : exists ls s f, let x := exec s f (map start ls) in
  results x = [Some (Ret tt); Some (Ret tt)] /\ cookie_now x = said "1700000000" "ASKER".
Proof.
  exists [at_terminal 1700000000 "n"; in_script 1700000000], (turns 1 8 ++ turns 0 22 ++ turns 1 22), disk. vm_compute. split; reflexivity.
Qed.
Theorem C70_both_refuted : exists ls s f, let x := exec s f (map start ls) in
  results x = [Some (Ret tt); Some (Ret tt)] /\ cookie_now x = said "1700000000" "NEVERS".
Proof.
  exists [at_terminal 1700000000 "n"; at_terminal 1700000000 "a"], (turns 0 11 ++ turns 1 22 ++ turns 0 22), disk. vm_compute. split; reflexivity.
Qed.

(** the user is asked twice on the same day, by a run that looks into the cookie of the other one just after it was
    emptied *)
Theorem C70_asked_twice_refuted : exists ls s f, let x := exec s f (map start ls) in
  results x = [Some (Ret tt); Some (Ret tt)] /\ logs x = [[Message question]; [Message question]].
Proof.
  exists [at_terminal 1700000000 "s"; at_terminal 1700000000 "s"], (turns 0 8 ++ turns 1 22 ++ turns 0 22), disk. vm_compute. split; reflexivity.
Qed.

(** ** C71: reading the answer of the server while it is downloaded *)

(** A release build that sees only the beginning of the answer announces an update only if there is one. *)
Theorem C71_release : forall e home m f c more mm l v w, ve_home e = Some home -> ve_opt_out e = false -> cookie_name m -> ve_ndebug e = true ->
  usable true home (m_app_name m) f -> f (version_file home (m_app_name m)) = Some (NFile c mm) -> f_readable mm = true ->
  first_line (c +s+ more) l -> version_text l w -> fits_int w -> app_version (m_version m) v -> fits_int v ->
  exists st, version_check e m true (Some true) {| vs_fs := f; vs_log := [] |} = (st, Ret tt)
    /\ forall s, In (Message s) (vs_log st) -> s = message_app_update (m_url m) /\ newer w v.
Proof. exact release_cut. Qed.
Print Assumptions C71_release.

Example C71_case : messages (go (at_ true 1 "") true (Some true) (server_says "1.2.1")) = []
  /\ messages (go (at_ true 1 "") true (Some true) (server_says "1.2.12")) = [message_app_update ""]
  /\ messages (go (at_ true 1 "") true (Some true) (server_says "1.3.1")) = [message_app_update ""].
Proof. vm_compute. repeat split; reflexivity. Qed.

(** A debug build tells its developer to register a version that is registered. *)
Theorem C71_debug_refuted : exists e m f c more w, ve_ndebug e = false /\ f (version_file "/home/u" "app") = Some (NFile c rw)
  /\ first_line (c +s+ more) "1.2.34" /\ version_text "1.2.34" w /\ app_version (m_version m) w
  /\ In message_registered_app_update (messages (version_check e m true (Some true) {| vs_fs := f; vs_log := [] |})).
Proof.
  exists (at_ false 1 ""), (app "1.2.34"), (server_says "1.2.3"), "1.2.3", ("4" +s+ nl +s+ "1.1.2" +s+ nl), (1, 2, 34)%Z.
  split; [reflexivity|]. split; [reflexivity|]. split; [split; [reflexivity|right; exists ("1.1.2" +s+ nl); reflexivity]|].
  assert (V : version_text "1.2.34" (1, 2, 34)%Z) by (exists "1", "2", "34"; repeat split; discriminate || reflexivity).
  split; [exact V|]. split; [left; exists "1.2.34", ""; split; [reflexivity|]; split; [exact V|exact Logic.I]|]. vm_compute. tauto.
Qed.
