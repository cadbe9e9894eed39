(** How long the version check holds up a program (C82). *)
From Coq Require Import ZArith Lia.
From Verif Require Import Base StrLib Fs Values FormatParse VersionCheck VersionSpec VersionProofs Waiting WaitingSpec WaitingProofs
  Parser ParserSpec NestedSpec NestedProofs PropVersion.

(** ** C82: the time the version check takes *)

(** a check asks or says something, looks for wget and curl, and makes at most one request *)
Theorem C82_events : forall e m on user f, check_log (vs_log (fst (version_check e m on user {| vs_fs := f; vs_log := [] |}))).
Proof. exact check_log_lemma. Qed.
Print Assumptions C82_events.

(** however parsers are made, moved, used and destroyed: three seconds for each request at most *)
Theorem C82_bound : forall p acts t, (wt_waited (live p acts (begin_at t)) <= 3000 * N.of_nat (requests acts))%N.
Proof. exact bound_lemma. Qed.
Print Assumptions C82_bound.

(** all the time a program takes: its own, that of the user, that for looking for wget and curl, that in destructors *)
Theorem C82_account : forall p acts st st', live p acts st = st' -> wt_hung st' = false -> wt_exited st' = false ->
  (wt_now st' + wt_waited st = wt_now st + own_time acts + asked_time p acts + search_time p acts + wt_waited st')%N.
Proof. exact account_lemma. Qed.
Print Assumptions C82_account.

(** one parser, with work [d] between parse() and the destructor: the rest of the request, three seconds at most *)
Theorem C82_exact : forall p i l c d st st', check_log l -> In (Request c) l -> wt_hung st = false -> wt_exited st = false ->
  live p [ACheck i l; AWork d; ADestroy i] st = st' -> wt_hung st' = false ->
  wt_waited st' = (wt_waited st + match wt_system p c with Some k => N.min 3000 (k - d) | None => 3000 end)%N.
Proof. exact exact_lemma. Qed.
Print Assumptions C82_exact.

Theorem C82_no_request : forall p i l d st st', check_log l -> (forall c, ~ In (Request c) l) -> wt_futures st i = None ->
  live p [ACheck i l; AWork d; ADestroy i] st = st' -> wt_waited st' = wt_waited st.
Proof. exact no_request_lemma. Qed.
Print Assumptions C82_no_request.

(** requests that take three seconds at most are done once all parsers are destroyed, unless a parser is moved onto one
    that made a request or the program exits *)
Theorem C82_served : forall p acts t, (forall c, exists d, wt_system p c = Some d /\ (d <= 3000)%N) -> none_lost p acts (begin_at t) ->
  let st := live p acts (begin_at t) in wt_hung st = false -> wt_exited st = false -> (forall i, wt_futures st i = None) ->
  forall r, In r (wt_requests st) -> exists u, r = At u /\ (u <= wt_now st)%N.
Proof. exact served_lemma. Qed.
Print Assumptions C82_served.

(** opting out costs no time *)
Theorem C82_off : forall e m on user f p i st, on = false \/ ve_opt_out e = true \/ user = Some false ->
  on_act p st (ACheck i (vs_log (fst (version_check e m on user {| vs_fs := f; vs_log := [] |})))) = st.
Proof. exact off_lemma. Qed.
Print Assumptions C82_off.

Theorem C82_idle : forall p acts t, events_of acts = [] ->
  let st := live p acts (begin_at t) in
  wt_hung st = false /\ wt_waited st = 0%N /\ (wt_exited st = false -> wt_now st = t + own_time acts)%N /\ (wt_now st <= t + own_time acts)%N.
Proof. exact idle_lemma. Qed.
Print Assumptions C82_idle.

(** sub-parsers, whatever the user asks them for *)
Theorem C82_sub : forall nd bk css w0 ways wn, descends nd bk css w0 ways wn -> css <> [] ->
  forall e m user f p i st, on_act p st (ACheck i (vs_log (fst (version_check e m (dev_decision (w_parser wn)) user {| vs_fs := f; vs_log := [] |})))) = st.
Proof. exact sub_lemma. Qed.
Print Assumptions C82_sub.

(** a run at a terminal, answered with "y" after 5 seconds; wget is found after 40 ms, the request takes 2 seconds; the
    program works for half a second *)
Definition yes_log : list event := events (go (at_ true 1000 "y") true None disk).
Definition slow (n : option N) : pace := {| wt_system := fun c => if String.eqb c wget then Some 40%N else n; wt_answer := 5000 |}.
Definition story (n : option N) : wstate := live (slow n) [ACheck 0 yes_log; AMove 0 1; AWork 500; ADestroy 0; ADestroy 1] (begin_at 0).
Example C82_case : requests [ACheck 0 yes_log] = 1 /\ (exists c, In (Request c) yes_log) /\ check_log yes_log
  /\ wt_waited (story (Some 2000%N)) = 1500%N /\ wt_now (story (Some 2000%N)) = 7040%N
  /\ wt_waited (story (Some 20000%N)) = 3000%N /\ wt_waited (story None) = 3000%N /\ wt_waited (story (Some 400%N)) = 0%N.
Proof.
  split; [reflexivity|]. split; [eexists; right; right; left; vm_compute; reflexivity|]. split; [apply check_log_lemma|]. repeat split; vm_compute; reflexivity.
Qed.
Example C82_served_ex : none_lost (slow (Some 2000%N)) [ACheck 0 yes_log; AMove 0 1; AWork 500; ADestroy 0; ADestroy 1] (begin_at 0)
  /\ wt_hung (story (Some 2000%N)) = false /\ wt_exited (story (Some 2000%N)) = false /\ wt_requests (story (Some 2000%N)) = [At 7040].
Proof.
  split; [|repeat split; vm_compute; reflexivity]. cbn [none_lost]. split; [split; [reflexivity|apply check_log_lemma]|]. split; [right; vm_compute; reflexivity|]. repeat split.
Qed.

(** Full statement: the check never holds up parse() (version_check.hpp 218, "launch a separate thread to not defer
    runtime").  Refuted: the commands that look for a program are waited for, however long they take. *)
Theorem C82_parse_refuted : exists p e m f, let l := vs_log (fst (version_check e m true (Some true) {| vs_fs := f; vs_log := [] |})) in
  wt_hung (live p [ACheck 0 l] (begin_at 0)) = true.
Proof. exists {| wt_system := fun _ => None; wt_answer := 0 |}, (at_ true 1000 "y"), (app "1.2.3"), disk. vm_compute. reflexivity. Qed.
Print Assumptions C82_parse_refuted.

(** Full statement: requests are done when the program ends.  Refuted: for slow ones, if a page was printed (exit), and
    if a parser was moved onto the one that made the request. *)
Theorem C82_slow_refuted : exists p acts t, none_lost p acts (begin_at t) /\ (let st := live p acts (begin_at t) in
  wt_hung st = false /\ wt_exited st = false /\ (forall i, wt_futures st i = None) /\ exists u, In (At u) (wt_requests st) /\ (wt_now st < u)%N).
Proof.
  exists (slow (Some 3001%N)), [ACheck 0 yes_log; ADestroy 0], 0%N. split.
  - cbn [none_lost]. split; [split; [reflexivity|apply check_log_lemma]|]. repeat split.
  - cbn zeta. split; [vm_compute; reflexivity|]. split; [vm_compute; reflexivity|]. split; [intros [|i]; reflexivity|]. exists 8041%N. split; [left; vm_compute; reflexivity|vm_compute; reflexivity].
Qed.
Print Assumptions C82_slow_refuted.

Theorem C82_exit_refuted : exists p acts t, (forall c, exists d, wt_system p c = Some d /\ (d <= 3000)%N) /\ none_lost p acts (begin_at t) /\
  (let st := live p acts (begin_at t) in wt_hung st = false /\ exists u, In (At u) (wt_requests st) /\ (wt_now st < u)%N).
Proof.
  exists (slow (Some 100%N)), [ACheck 0 yes_log; AExit; ADestroy 0], 0%N. split.
  { intros c. cbn [slow wt_system]. destruct (String.eqb c wget); eexists; (split; [reflexivity|lia]). }
  split.
  - cbn [none_lost]. split; [split; [reflexivity|apply check_log_lemma]|]. repeat split.
  - cbn zeta. split; [vm_compute; reflexivity|]. exists 5140%N. split; [left; vm_compute; reflexivity|vm_compute; reflexivity].
Qed.
Print Assumptions C82_exit_refuted.

Theorem C82_move_refuted : exists p acts t, (forall c, exists d, wt_system p c = Some d /\ (d <= 3000)%N) /\
  (let st := live p acts (begin_at t) in wt_hung st = false /\ wt_exited st = false /\ (forall i, wt_futures st i = None) /\
   exists u, In (At u) (wt_requests st) /\ (wt_now st < u)%N).
Proof.
  exists (slow (Some 100%N)), [ACheck 0 yes_log; AMove 1 0; ADestroy 1; ADestroy 0], 0%N. split.
  { intros c. cbn [slow wt_system]. destruct (String.eqb c wget); eexists; (split; [reflexivity|lia]). }
  cbn zeta. split; [vm_compute; reflexivity|]. split; [vm_compute; reflexivity|]. split; [intros [|[|i]]; reflexivity|]. exists 5140%N. split; [left; vm_compute; reflexivity|vm_compute; reflexivity].
Qed.
Print Assumptions C82_move_refuted.
