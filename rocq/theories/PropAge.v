(** The age of the stored answer (C91). *)
From Coq Require Import QArith.
From Verif Require Import Base StrLib Fs FloatNum Values Charconv FloatSpec FloatProofs Ieee VersionCheck VersionSpec Age AgeSpec AgeProofs Samples PropVersion.
Local Open Scope Z_scope.

(** times written by the code are compared exactly: the condition of C48 and C49 on the clock holds *)
Theorem C91_clock : clock_ok library_recent.
Proof. exact library_clock. Qed.
Print Assumptions C91_clock.

(** any other line *)
Theorem C91_line : forall line now, Z.abs now <= 2 ^ 53 -> exists d, stands_for line d /\ (library_recent line now = true <-> younger now d).
Proof. exact library_recent_lemma. Qed.
Print Assumptions C91_line.

(** a line that does not start with a number is old, from the second day of 1970 on *)
Theorem C91_no_number : forall line now, 86400 <= now < 2 ^ 53 -> (forall p x, longest line p -> ~ float_text p x) -> library_recent line now = false.
Proof.
  intros line now H N. destruct (library_recent_lemma line now ltac:(lia)) as (d & [(p & x & L & T & _)|(-> & _)] & R); [exfalso; exact (N p x L T)|].
  apply Bool.not_true_iff_false. rewrite R. cbn [younger fvalue]. intros Y. assert (K : (inject_Z now < middle)%Q) by (unfold Qminus in Y; change (- 0)%Q with 0%Q in Y; now rewrite Qplus_0_r in Y). apply whole_day in K. lia.
Qed.
Print Assumptions C91_no_number.

(** Full statement: a question is asked and a request is made again once a day has passed, whatever the cookie contains.  A time in
    the future or the word inf in the cookie: never, or not for years *)
Theorem C91_again_refuted : exists line line' now, library_recent line now = true /\ library_recent line (now + 315360000) = true /\ forallb (fun n => library_recent line' n) [now; 2 * now; 2 ^ 53] = true.
Proof. exists "2524608000", "inf", 1700000000. vm_compute. auto. Qed.
Print Assumptions C91_again_refuted.

(** with the replacement for missing library support times are read as float: for times below 2^31 up to 64 seconds
    too early or too late *)
Theorem C91_replacement_partial : forall t now j, 0 <= t -> 1 <= j <= 29 -> t < 2 ^ (24 + j) -> 0 <= now < 2 ^ 53 ->
  (now - t < 86400 - 2 ^ (j - 1) -> shim_recent false (Z_to_string t) now = true) /\
  (86400 + 2 ^ (j - 1) <= now - t -> shim_recent false (Z_to_string t) now = false).
Proof. exact shim_clock_lemma. Qed.
Print Assumptions C91_replacement_partial.
Theorem C91_replacement_refuted : ~ clock_ok (shim_recent false).
Proof. intros H. specialize (H 1700000064 1700086400 ltac:(lia) ltac:(lia)). vm_compute in H. discriminate. Qed.
Print Assumptions C91_replacement_refuted.
(** both directions, at the distance of 64 seconds *)
Theorem C91_replacement_early_refuted : exists t now, now - t = 86400 - 64 /\ shim_recent false (Z_to_string t) now = false.
Proof. exists 1700000064, 1700086400. vm_compute. auto. Qed.
Print Assumptions C91_replacement_early_refuted.
Theorem C91_replacement_late_refuted : exists t now, now - t = 86400 + 63 /\ shim_recent false (Z_to_string t) now = true.
Proof. exists 1700000192, 1700086655. vm_compute. auto. Qed.
Print Assumptions C91_replacement_late_refuted.

(** after any number that was out of range (errno) no stored answer is recent *)
Theorem C91_errno : forall line now, 0 <= now < 2 ^ 53 -> shim_recent true line now = (now <? 86400).
Proof. exact shim_errno_lemma. Qed.
Print Assumptions C91_errno.

Example C91_case : map (fun l => library_recent l 1700086400) ["1700000000"; "1700000001"; "1.7000001e9NEVER"; "NEVER"; ""; "nan"; "-inf"; "1e999"; "0x655"; " 1700000001"; "1700000000.1"]
  = [false; true; true; false; false; false; false; false; false; false; true] /\ stands_for "1.5e1x" (FFin false 15 0) /\ (forall p x, longest "NEVER" p -> ~ float_text p x).
Proof.
  split; [vm_compute; reflexivity|]. split.
  - left. exists "1.5e1", (false, Dec 15 0). assert (T : float_text "1.5e1" (false, Dec 15 0)) by (apply (std_whole "1.5e1"); vm_compute; reflexivity). split; [|split; [exact T|vm_compute; reflexivity]].
    destruct (proj1 (std_longest "1.5e1x" (false, Dec 15 0) "x") ltac:(vm_compute; reflexivity)) as (p & E & _ & L). assert (p = "1.5e1"); [|now subst].
    clear -E. destruct p as [|? [|? [|? [|? [|? [|? p]]]]]]; try discriminate E; cbn in E; injection E; intros; subst; try discriminate; try reflexivity. now destruct p.
  - intros p x ((r & E) & _) T. assert (S : exists x' r', std_scan "NEVER" = Some (x', r')) by (rewrite E; destruct (std_complete p x r T) as (x' & r' & H & _); eauto). destruct S as (x' & r' & S). vm_compute in S. discriminate.
Qed.

(** two runs of a program on two days *)
Example C91_case_runs : map (fun e => existsb is_request (r_events e)) (fst (VersionRuns.simulate (app "1.2.3") disk (days [(1700000000, "y"); (1700086399, "y"); (1700086400, "y")]))) = [true; false; true].
Proof. vm_compute. reflexivity. Qed.
