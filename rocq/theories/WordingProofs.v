(** Everything the version check can write. *)
From Verif Require Import Base StrLib Fs Values ValuesSpec FormatParse Parser VersionCheck VersionSpec VersionProofs VersionRuns WordingSpec.

Section with_env.
Variables (e : venv) (m : meta).

Definition worded (x : event) : Prop := match x with Message s => may_say e m s | _ => True end.

Lemma new_version_text url : message_app_update url = says_new_version url.
Proof.
  destruct url as [|c u]; [reflexivity|]. unfold message_app_update, says_new_version, paragraph, switch_off. cbn [app fold_right is_empty]. rewrite !app_assoc_s. reflexivity.
Qed.

Lemma worded_program : emits worded (fun _ => True) (get_program e).
Proof.
  unfold get_program. apply emits_bind with (Q := fun _ => True); [now apply emits_log|]. intros _ _. apply emits_if; [now apply emits_ret|].
  apply emits_bind with (Q := fun _ => True); [now apply emits_log|]. intros _ _. apply emits_if; now apply emits_ret.
Qed.

Lemma worded_messages k : ck_url k = m_url m -> emits worded (fun _ => True) (show_messages e k).
Proof.
  intros Hk. unfold show_messages. apply emits_bind with (Q := fun _ => True).
  - intros st. destruct (read_file (vs_fs st) _) as [c|].
    2: { exists []. cbn. rewrite app_nil_r. auto. }
    destruct (getline (Some c) "") as [s line]. destruct (getline s line) as [s2 line2].
    revert st. apply emits_bind with (Q := fun _ => True); [|intros; now apply emits_ret]. apply emits_if; [|now apply emits_ret].
    apply emits_bind with (Q := fun _ => True); [|intros; now apply emits_ret]. destruct (ve_ndebug e) eqn:E; [now apply emits_ret|]. apply emits_log.
    right. right. split; [exact E|]. right. left. reflexivity.
  - intros [a s] _. apply emits_bind with (Q := fun _ => True).
    + destruct (ve_ndebug e) eqn:E; cbn [negb andb]; [now apply emits_ret|]. apply emits_if; [|now apply emits_ret]. apply emits_log. right. right. split; [exact E|]. left. reflexivity.
    + intros _ _. apply emits_if; [now apply emits_ret|]. destruct (ve_ndebug e) eqn:E; apply emits_if; try (now apply emits_ret); apply emits_log; right.
      * left. split; [exact E|]. now rewrite Hk, new_version_text.
      * right. split; [exact E|]. right. right. reflexivity.
Qed.

Lemma worded_check k : ck_url k = m_url m -> emits worded (fun _ => True) (check e k).
Proof.
  intros Hk. unfold check. apply emits_bind with (Q := fun _ => True); [now apply worded_messages|]. intros _ _.
  apply emits_bind with (Q := fun _ => True); [apply worded_program|]. intros p _. apply emits_if; [now apply emits_ret|now apply emits_log].
Qed.

Lemma worded_ask k : emits worded (fun _ => True) (ask_or_default e k).
Proof.
  unfold ask_or_default. apply emits_bind with (Q := fun _ => True); [apply emits_write|]. intros _ _. destruct (ve_tty e) eqn:E; [|now apply emits_ret].
  unfold ask_user. apply emits_bind with (Q := fun _ => True); [apply emits_log; left; now split|]. intros _ _. cbv zeta.
  repeat apply emits_if; try (now apply emits_ret); (apply emits_bind with (Q := fun _ => True); [apply emits_write|]; intros _ _; now apply emits_ret).
Qed.

Lemma worded_decide k on user : emits worded (fun _ => True) (decide e k on user).
Proof.
  unfold decide. apply emits_if; [now apply emits_ret|]. apply emits_if; [now apply emits_ret|]. destruct user; [now apply emits_ret|].
  intros st. destruct (if exists_ (vs_fs st) _ then _ else _) as [c|]; [|apply worded_ask]. destruct (getline (Some c) "") as [s line].
  destruct (ve_recent e line (ve_now e)); [exists []; cbn; rewrite app_nil_r; auto|]. destruct (getline s line) as [s2 line2].
  destruct (String.eqb line2 "NEVER"); [exists []; cbn; rewrite app_nil_r; auto|].
  destruct (String.eqb line2 "ALWAYS"); [exists []; cbn; rewrite app_nil_r; auto|]. apply worded_ask.
Qed.

Lemma worded_version_check on user : emits worded (fun _ => True) (version_check e m on user).
Proof.
  unfold version_check. apply emits_bind with (Q := fun k => ck_url k = m_url m).
  - unfold version_checker. apply emits_bind with (Q := place e); [apply emits_path|]. intros p Hp. apply emits_if; [now apply emits_fail|]. now apply emits_ret.
  - intros k Hk. apply emits_bind with (Q := fun _ => True); [apply worded_decide|]. intros yes _. apply emits_if; [now apply worded_check|now apply emits_ret].
Qed.

Lemma wording_lemma on user st s : In (Message s) (vs_log (fst (version_check e m on user st))) -> In (Message s) (vs_log st) \/ may_say e m s.
Proof.
  destruct (worded_version_check on user st) as (l & -> & F & _). intros H. apply in_app_iff in H as [H|H]; [now left|right]. rewrite Forall_forall in F. exact (F _ H).
Qed.
End with_env.

Lemma switch_off_lemma e m s : may_say e m s -> s <> asks -> s <> says_newer_than_registered -> exists p q, s = p +s+ switch_off +s+ String "010" q.
Proof.
  intros [[_ ->]|[[_ ->]|[_ [->|[->| ->]]]]] H1 H2; try contradiction.
  - exists ("[APP VERSION INFO] :: A new version of this application is now available." +s+ String "010" "[APP VERSION INFO] :: "). eexists. reflexivity.
  - eexists ("[SHARG VERSION INFO] :: A new Sharg version is available online." +s+ String "010" "" +s+
      "[SHARG VERSION INFO] :: Please visit www.github.com/seqan/sharg-parser.git for an update" +s+ String "010" "" +s+
      "[SHARG VERSION INFO] :: or inform the developer of this app." +s+ String "010" "[SHARG VERSION INFO] :: "). eexists. reflexivity.
  - eexists ("[SHARG VERSION INFO] :: Thank you for using Sharg!" +s+ String "010" "" +s+
      "[SHARG VERSION INFO] :: Do you wish to register your app for update notifications?" +s+ String "010" "" +s+
      "[SHARG VERSION INFO] :: Just send an email to support@seqan.de with your app name and version number." +s+ String "010" "[SHARG VERSION INFO] :: "). eexists. reflexivity.
Qed.
