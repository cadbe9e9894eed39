(** Proofs about the numbers of versions without a bound on them (C50) and about the word with the file name (C64). *)
From Verif Require Import Base StrLib Fs Values ValuesSpec ValuesProofs FormatParse Parser VersionCheck VersionSpec VersionProofs VersionRuns VersionEndSpec.

Lemma seen1_pos n : (0 <= n)%Z -> (0 <= seen1 n)%Z.
Proof. unfold seen1. destruct (n <? _)%Z; lia. Qed.

Lemma read_component_seen d r : sall is_digit d = true -> match r with String c _ => is_digit c = false | EmptyString => True end ->
  read_component (d +s+ r) = (seen1 (weight d), r).
Proof.
  intros H T. unfold read_component, seen1. rewrite read_digits_span by assumption. rewrite read_digits_all by exact H. cbn [fst].
  rewrite Z.mul_0_l, Z.add_0_l. change (int_max true 32) with (2 ^ 31 - 1)%Z. f_equal.
  destruct (Z.leb_spec (weight d) (2 ^ 31 - 1)), (Z.ltb_spec (weight d) (2 ^ 31)); lia.
Qed.

Lemma get_numbers_seen s v : version_text s v -> get_numbers s = seen v.
Proof.
  intros (a & b & c & Ha & Hb & Hc & -> & ->). unfold get_numbers.
  assert (X : match_version (a +s+ "." +s+ b +s+ "." +s+ c) = Some (a +s+ "." +s+ b +s+ "." +s+ c, "")).
  { apply match_version_iff. exists a, b, c. rewrite app_nil_r_s. auto 8. }
  rewrite X. rewrite read_component_seen by (try apply Ha; reflexivity). cbn [append sdrop].
  rewrite read_component_seen by (try apply Hb; reflexivity). cbn [append sdrop].
  rewrite <- (app_nil_r_s c) at 1. rewrite read_component_seen by (try apply Hc; reflexivity). reflexivity.
Qed.

Lemma version_of_app_seen s v : app_version s v -> get_numbers (version_of_app s) = seen v.
Proof.
  intros [(p & r & -> & (a & b & c & Ha & Hb & Hc & -> & ->) & T)|[-> N]]; unfold version_of_app.
  - rewrite (proj2 (match_version_iff _ (a +s+ "." +s+ b +s+ "." +s+ c) r)) by (exists a, b, c; auto 8).
    apply get_numbers_seen. exists a, b, c. auto 8.
  - destruct (match_version s) as [[p r]|] eqn:E; [|reflexivity]. apply match_version_iff in E as (a & b & c & Ha & Hb & Hc & E & -> & T).
    exfalso. eapply N. exists p, r. split; [reflexivity|]. split; [|exact T]. exists a, b, c. eauto 8.
Qed.

Lemma seen_newer l v : (0 <= fst (fst v) /\ 0 <= snd (fst v) /\ 0 <= snd v)%Z ->
  (version_eqb (get_numbers l) (0, 0, 0)%Z = false /\ version_ltb v (get_numbers l) = true <-> exists w, version_text l w /\ newer (seen w) v).
Proof.
  intros P. destruct (version_text_dec l) as [[w V]|N].
  - rewrite (get_numbers_seen l w V). rewrite version_ltb_iff. split; [intros [_ H]; eauto|].
    intros (w' & V' & H). rewrite <- (version_text_fun _ _ _ V V') in H. split; [|exact H].
    destruct (version_eqb (seen w) (0, 0, 0)%Z) eqn:E; [|reflexivity]. apply version_eqb_iff in E. rewrite E in H. destruct v as [[a b] c]. cbn in *. lia.
  - rewrite (get_numbers_other l N). split; [intros [H _]; discriminate|intros (w & V & _)]. now apply N in V.
Qed.

Lemma seen_pos v : (0 <= fst (fst v) /\ 0 <= snd (fst v) /\ 0 <= snd v)%Z -> (0 <= fst (fst (seen v)) /\ 0 <= snd (fst (seen v)) /\ 0 <= snd (seen v))%Z.
Proof. destruct v as [[a b] c]. cbn. intros (A & B & C). auto using seen1_pos. Qed.

Lemma release_exact e home m f c mm l v : ve_home e = Some home -> ve_opt_out e = false -> name_matches (m_app_name m) = true -> ve_ndebug e = true ->
  usable true home (m_app_name m) f -> f (version_file home (m_app_name m)) = Some (NFile c mm) -> f_readable mm = true ->
  first_line c l -> app_version (m_version m) v ->
  exists st, version_check e m true (Some true) {| vs_fs := f; vs_log := [] |} = (st, Ret tt)
    /\ (In (Message (message_app_update (m_url m))) (vs_log st) <-> exists w, version_text l w /\ newer (seen w) (seen v))
    /\ forall s, In (Message s) (vs_log st) -> s = message_app_update (m_url m).
Proof.
  intros H O HN N U V R F HA. apply cut_first in F. destruct (cut_line c) as [l1 o] eqn:C. cbn [fst] in F. subst l1.
  rewrite <- N in U. destruct (run_messages e home m f c mm l o H O HN U V R C) as (st & l' & E & NM & L). exists st. split; [exact E|].
  rewrite shown_version, N in L. rewrite L. cbn [negb]. rewrite !andb_false_r. cbn [andb said app]. rewrite !andb_true_r.
  rewrite (version_of_app_seen _ v HA). pose proof (seen_newer l (seen v) (seen_pos v (app_version_pos _ _ HA))) as NW.
  split.
  - rewrite in_app_iff, in_said, <- NW, andb_true_iff, negb_true_iff. split; [intros [[[P1 P2] _]|X]; [auto|now apply no_message_in in X]|auto].
  - intros s. rewrite in_app_iff, in_said. intros [[_ [= ->]]|X]; [reflexivity|now apply no_message_in in X].
Qed.

Lemma sharg_line_cut c l2 : sharg_line c l2 -> exists l1 o, first_line c l1 /\ cut_line c = (l1, o) /\ match o with None => l1 | Some r => fst (cut_line r) end = l2.
Proof.
  intros [d N|d r l N F].
  - exists d, None. split; [split; auto|]. split; [now apply cut_line_end|reflexivity].
  - exists d, (Some r). split; [split; eauto|]. split; [now apply cut_line_nl|now apply cut_first].
Qed.

Lemma debug_exact e home m f c mm l1 l2 v : ve_home e = Some home -> ve_opt_out e = false -> name_matches (m_app_name m) = true -> ve_ndebug e = false ->
  usable false home (m_app_name m) f -> f (version_file home (m_app_name m)) = Some (NFile c mm) -> f_readable mm = true ->
  first_line c l1 -> sharg_line c l2 -> app_version (m_version m) v ->
  exists st, version_check e m true (Some true) {| vs_fs := f; vs_log := [] |} = (st, Ret tt)
    /\ (In (Message message_sharg_update) (vs_log st) <-> exists w, version_text l2 w /\ newer (seen w) (1, 1, 2)%Z)
    /\ (In (Message message_registered_app_update) (vs_log st) <-> exists w, version_text l1 w /\ seen w <> (0, 0, 0)%Z /\ newer (seen v) (seen w))
    /\ (In (Message message_unregistered_app) (vs_log st) <-> l1 = "UNREGISTERED_APP")
    /\ ~ In (Message (message_app_update (m_url m))) (vs_log st).
Proof.
  intros H O HN N U V R F1 F2 HA. rewrite <- N in U. destruct (sharg_line_cut c l2 F2) as (l1' & o & F1' & C & E2).
  assert (X : l1' = l1) by (rewrite <- (cut_first _ _ F1), <- (cut_first _ _ F1'); reflexivity). subst l1'. clear F1 F1' F2.
  destruct (run_messages e home m f _ mm l1 o H O HN U V R C) as (st & l' & E & NM & L). exists st. split; [exact E|].
  rewrite shown_version, N, E2 in L. rewrite L. cbn [negb]. rewrite !andb_true_r, !andb_false_r. cbn [andb said app].
  rewrite (version_of_app_seen _ v HA).
  split; [|split; [|split]].
  - rewrite !in_app_iff, !in_said. rewrite <- (seen_newer l2 (1, 1, 2)%Z) by (cbn; lia). rewrite andb_true_iff, negb_true_iff. change sharg_version with (1, 1, 2)%Z. split.
    + intros [[_ X]|[[X _]|[[_ X]|X]]]; [discriminate X|exact X|discriminate X|now apply no_message_in in X].
    + intros X. right. left. auto.
  - rewrite !in_app_iff, !in_said. rewrite !andb_true_iff, !negb_true_iff, !version_ltb_iff.
    assert (Q : version_eqb (get_numbers l1) (0, 0, 0)%Z = false /\ newer (seen v) (get_numbers l1) <-> exists w, version_text l1 w /\ seen w <> (0, 0, 0)%Z /\ newer (seen v) (seen w)).
    { destruct (version_text_dec l1) as [[w W]|NV].
      - rewrite (get_numbers_seen l1 w W). split.
        + intros [Q1 Q2]. exists w. repeat split; auto. intros Q. rewrite Q in Q1. discriminate Q1.
        + intros (w' & W' & NZ & Q). rewrite <- (version_text_fun _ _ _ W W') in NZ, Q. split; [|exact Q].
          destruct (version_eqb (seen w) (0, 0, 0)%Z) eqn:X; [apply version_eqb_iff in X; contradiction|reflexivity].
      - rewrite (get_numbers_other l1 NV). split; [intros [X _]; discriminate X|intros (w & W & _); now apply NV in W]. }
    rewrite <- Q. split.
    + intros [[_ X]|[[_ X]|[[X _]|X]]]; [discriminate X|discriminate X|exact X|now apply no_message_in in X].
    + intros X. right. right. left. auto.
  - rewrite !in_app_iff, !in_said, String.eqb_eq. split.
    + intros [[X _]|[[_ X]|[[_ X]|X]]]; [exact X|discriminate X|discriminate X|now apply no_message_in in X].
    + auto.
  - rewrite !in_app_iff, !in_said. intros [[_ X]|[[_ X]|[[_ X]|X]]]; [discriminate X|discriminate X|discriminate X|now apply no_message_in in X].
Qed.

(** every file has these lines *)
Lemma has_first c : exists l, first_line c l.
Proof.
  induction c as [|x c (l & N & D)]; [exists ""; split; auto|].
  destruct (Ascii.eqb_spec x "010") as [->|NE].
  - exists "". split; [reflexivity|]. right. exists c. reflexivity.
  - exists (String x l). split; [cbn; rewrite N; destruct (Ascii.eqb_spec x "010"); [contradiction|]; destruct (Ascii.eqb_spec "010" x); [now subst|reflexivity]|].
    destruct D as [->|[r ->]]; [now left|right; now exists r].
Qed.
Lemma has_sharg_line c : exists l, sharg_line c l.
Proof.
  destruct (has_first c) as (l & N & [->|[r ->]]); [exists l; now constructor|]. destruct (has_first r) as (l2 & F). exists l2. now constructor.
Qed.

(** ** the word *)
Lemma join_safe_iff p q : sall shell_safe q = true -> (sall shell_safe (path_join p q) = true <-> sall shell_safe p = true).
Proof.
  intros Q. unfold path_join. destruct p as [|x p]; [cbn; tauto|]. destruct (last_chr _) as [c|] eqn:L.
  - destruct (Ascii.eqb c slash); rewrite !sall_app, !andb_true_iff; cbn [sall]; rewrite ?Q; cbn; tauto.
  - exfalso. clear -L. cbn in L. revert x L. induction p as [|y p IH]; intros x L; [discriminate L|]. cbn in L. destruct p; [discriminate L|]. exact (IH y L).
Qed.

Lemma word_exact e m on user f c : name_matches (m_app_name m) = true -> In (Request c) (vs_log (fst (version_check e m on user {| vs_fs := f; vs_log := [] |}))) ->
  exists program directory url, In program programs /\ place e directory /\ sall shell_safe url = true
    /\ c = program +s+ " " +s+ path_join directory (m_app_name m +s+ ".version") +s+ " " +s+ url +s+ " > /dev/null 2>&1"
    /\ (sall shell_safe (path_join directory (m_app_name m +s+ ".version")) = true
        <-> directory = "" \/ directory = ve_tmp e /\ sall shell_safe (ve_tmp e) = true
            \/ exists home, ve_home e = Some home /\ directory = seqan_dir home /\ sall shell_safe home = true).
Proof.
  intros HN H. destruct (command_lemma e m on user _ c HN H) as [[]|(p & d & url & ver & Hp & Hd & _ & -> & Su & _)].
  exists p, d, url. split; [exact Hp|]. split; [exact Hd|]. split; [exact Su|]. split; [reflexivity|].
  unfold name_matches in HN. apply andb_prop in HN as [_ HN].
  rewrite join_safe_iff by (rewrite sall_app, (sall_impl _ _ _ name_safe HN); reflexivity).
  assert (J : forall home, sall shell_safe (seqan_dir home) = true <-> sall shell_safe home = true) by (intros home; unfold seqan_dir; rewrite !join_safe_iff by reflexivity; tauto).
  split.
  - intros S. destruct Hd as [->|[->|(home & Hh & ->)]]; [auto|right; left; auto|]. right. right. exists home. rewrite <- J. auto.
  - intros [->|[[-> S]|(home & Hh & -> & S)]]; [reflexivity|exact S|now apply J].
Qed.
