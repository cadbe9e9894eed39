(** Whole runs of the version check: messages, commands, outcomes. *)
From Verif Require Import Base StrLib Fs Values ValuesSpec ValuesProofs FormatParse Parser VersionCheck VersionSpec VersionProofs.

(** ** What a computation logs and returns *)

Definition emits {A} (P : event -> Prop) (Q : A -> Prop) (n : M vstate A) : Prop := forall st,
  exists l, vs_log (fst (n st)) = vs_log st ++ l /\ Forall P l /\ forall a, snd (n st) = Ret a -> Q a.

Lemma emits_ret {A} P (Q : A -> Prop) a : Q a -> emits P Q (ret a).
Proof. intros H st. exists []. cbn. rewrite app_nil_r. repeat split; auto. intros a' [= <-]. exact H. Qed.
Lemma emits_fail {A} P (Q : A -> Prop) r : is_ret r = false -> emits P Q (fail r).
Proof. intros H st. exists []. cbn. rewrite app_nil_r. repeat split; auto. intros a ->. discriminate. Qed.
Lemma emits_log (P : event -> Prop) x : P x -> emits P (fun _ => True) (log x).
Proof. intros H st. exists [x]. cbn. auto. Qed.
Lemma emits_fs {A} P (g : fs -> fs * A) : emits P (fun _ => True) (on_fs g).
Proof. intros st. rewrite on_fs_eq. exists []. cbn. rewrite app_nil_r. auto. Qed.
Lemma emits_bind {A B} P (Q : A -> Prop) (R : B -> Prop) n g : emits P Q n -> (forall a, Q a -> emits P R (g a)) -> emits P R (bind n g).
Proof.
  intros H1 H2 st. destruct (H1 st) as (l & L & F & HQ). unfold bind. destruct (n st) as [st1 r]. cbn [fst snd] in *.
  destruct r as [a| | | | |]; try (exists l; cbn [fst snd]; repeat split; auto; intros ? [=]; fail).
  destruct (H2 a (HQ a eq_refl) st1) as (l' & L' & F' & HR). exists (l ++ l'). rewrite L', L, app_assoc. repeat split; auto. now apply Forall_app.
Qed.
Lemma emits_if {A} P (Q : A -> Prop) (b : bool) x y : emits P Q x -> emits P Q y -> emits P Q (if b then x else y).
Proof. now destruct b. Qed.
Lemma emits_weaken {A} P (Q R : A -> Prop) n : (forall a, Q a -> R a) -> emits P Q n -> emits P R n.
Proof. intros H N st. destruct (N st) as (l & ? & ? & ?). exists l. auto. Qed.

(** ** Commands *)

Section with_env.
Variable e : venv.

Definition any_request (k : checker) (x : event) : Prop :=
  match x with Request c => exists p, In p programs /\ c = server_command e k p | _ => True end.

Lemma emits_program k : emits (any_request k) (fun p => is_empty p = true \/ In p programs) (get_program e).
Proof.
  unfold get_program. apply emits_bind with (Q := fun _ => True); [now apply emits_log|]. intros _ _. apply emits_if; [apply emits_ret; right; now left|].
  apply emits_bind with (Q := fun _ => True); [now apply emits_log|]. intros _ _. apply emits_if; [apply emits_ret; right; right; now left|].
  apply emits_ret. destruct (ve_os e); cbn; auto 6.
Qed.

Lemma emits_messages k : emits (any_request k) (fun _ => True) (show_messages e k).
Proof.
  unfold show_messages. apply emits_bind with (Q := fun _ => True).
  - intros st. destruct (read_file (vs_fs st) _) as [c|].
    2: { exists []. cbn. rewrite app_nil_r. auto. }
    destruct (getline (Some c) "") as [s line]. destruct (getline s line) as [s2 line2].
    revert st. apply emits_bind with (Q := fun _ => True); [|intros; now apply emits_ret]. apply emits_if; [|now apply emits_ret].
    apply emits_bind with (Q := fun _ => True); [|intros; now apply emits_ret]. apply emits_if; [now apply emits_ret|]. now apply emits_log.
  - intros [a s] _. apply emits_bind with (Q := fun _ => True); [apply emits_if; [now apply emits_log|now apply emits_ret]|]. intros _ _.
    repeat apply emits_if; try (now apply emits_ret); now apply emits_log.
Qed.

Lemma emits_check k : emits (any_request k) (fun _ => True) (check e k).
Proof.
  unfold check. apply emits_bind with (Q := fun _ => True); [apply emits_messages|]. intros _ _.
  apply emits_bind with (Q := fun p => is_empty p = true \/ In p programs); [apply emits_program|]. intros p Hp.
  destruct (is_empty p); [now apply emits_ret|]. apply emits_log. destruct Hp as [|Hp]; [discriminate|]. exists p. auto.
Qed.

Lemma emits_write P k msg : emits P (fun _ => True) (write_cookie e k msg).
Proof. unfold write_cookie. apply emits_bind with (Q := fun _ => True); [apply emits_fs|]. intros _ _. now apply emits_ret. Qed.

Lemma emits_ask k : emits (any_request k) (fun _ => True) (ask_or_default e k).
Proof.
  unfold ask_or_default. apply emits_bind with (Q := fun _ => True); [apply emits_write|]. intros _ _. apply emits_if; [|now apply emits_ret].
  unfold ask_user. apply emits_bind with (Q := fun _ => True); [now apply emits_log|]. intros _ _. cbv zeta.
  repeat apply emits_if; try (now apply emits_ret); (apply emits_bind with (Q := fun _ => True); [apply emits_write|]; intros _ _; now apply emits_ret).
Qed.

Lemma emits_decide k on user : emits (any_request k) (fun _ => True) (decide e k on user).
Proof.
  unfold decide. apply emits_if; [now apply emits_ret|]. apply emits_if; [now apply emits_ret|]. destruct user; [now apply emits_ret|].
  intros st. destruct (if exists_ (vs_fs st) _ then _ else _) as [c|]; [|apply emits_ask]. destruct (getline (Some c) "") as [s line].
  destruct (ve_recent e line (ve_now e)); [exists []; cbn; rewrite app_nil_r; auto|]. destruct (getline s line) as [s2 line2].
  destruct (String.eqb line2 "NEVER"); [exists []; cbn; rewrite app_nil_r; auto|].
  destruct (String.eqb line2 "ALWAYS"); [exists []; cbn; rewrite app_nil_r; auto|]. apply emits_ask.
Qed.

Lemma emits_path P : emits P (place e) (get_path e).
Proof.
  unfold get_path. destruct (ve_home e) as [home|] eqn:H; [|now apply emits_fail].
  apply emits_bind with (Q := fun _ => True); [apply emits_fs|]. intros err _.
  apply emits_bind with (Q := fun _ => True); [apply emits_if; [now apply emits_ret|apply emits_fs]|]. intros err2 _.
  apply emits_bind with (Q := place e).
  - destruct err2; [|apply emits_ret; right; right; exists home; auto]. intros st. unfold temp_directory_path. exists [].
    destruct (is_directory (vs_fs st) (ve_tmp e)); cbn; rewrite app_nil_r; repeat split; auto; intros a [= <-]. right. now left.
  - intros p Hp. cbv zeta. apply emits_bind with (Q := fun _ => True); [apply emits_fs|]. intros good _.
    apply emits_bind with (Q := fun _ => True); [apply emits_fs|]. intros _ _. apply emits_bind with (Q := fun _ => True); [apply emits_fs|]. intros r _.
    apply emits_if; [now apply emits_fail|]. apply emits_ret. destruct good; [exact Hp|now left].
Qed.

Definition built (m : meta) (k : checker) : Prop :=
  ck_name k = m_app_name m /\ ck_version k = version_of_app (m_version m) /\ place e (ck_path k).

Definition request_of (m : meta) (x : event) : Prop :=
  match x with Request _ => exists k, built m k /\ any_request k x | _ => True end.

Lemma emits_version_check m on user : emits (request_of m) (fun _ => True) (version_check e m on user).
Proof.
  unfold version_check. apply emits_bind with (Q := built m).
  - unfold version_checker. apply emits_bind with (Q := place e); [apply emits_path|]. intros p Hp. apply emits_if; [now apply emits_fail|]. apply emits_ret. now repeat split.
  - intros k Hk.
    assert (X : forall A (n : M vstate A), emits (any_request k) (fun _ => True) n -> emits (request_of m) (fun _ => True) n).
    { intros A n H st. destruct (H st) as (l & L & F & _). exists l. repeat split; auto. eapply Forall_impl; [|exact F]. intros [| |c]; cbn; auto. intros (p & Hp). exists k. split; [exact Hk|]. exists p. auto. }
    apply emits_bind with (Q := fun _ => True); [apply X, emits_decide|]. intros yes _. apply emits_if; [apply X, emits_check|now apply emits_ret].
Qed.

End with_env.

(** ** Characters of the request *)

Lemma sall_app f a b : sall f (a +s+ b) = sall f a && sall f b.
Proof. induction a as [|c a IH]; [reflexivity|]. cbn. now rewrite IH, andb_assoc. Qed.

Lemma sall_impl (f g : chr -> bool) s : (forall c, f c = true -> g c = true) -> sall f s = true -> sall g s = true.
Proof. intros H. induction s as [|c s IH]; [reflexivity|]. cbn. rewrite !andb_true_iff. intros [H1 H2]. auto. Qed.

Lemma digit_safe c : is_digit c = true -> shell_safe c = true.
Proof. intros H. unfold shell_safe, is_alnum. now rewrite H, orb_true_r. Qed.
Lemma name_safe c : name_char c = true -> shell_safe c = true.
Proof.
  unfold name_char, shell_safe, is_alnum, is_lower, is_upper, is_digit. cbn [existsb].
  intros H. repeat (apply orb_prop in H as [H|H]); rewrite H; rewrite ?orb_true_r; reflexivity.
Qed.

Lemma version_of_app_text s : exists v, version_text (version_of_app s) v /\ app_version s v.
Proof.
  unfold version_of_app. destruct (match_version s) as [[p r]|] eqn:E.
  - apply match_version_iff in E as (a & b & c & Ha & Hb & Hc & -> & -> & T). exists (weight a, weight b, weight c).
    assert (V : version_text (a +s+ "." +s+ b +s+ "." +s+ c) (weight a, weight b, weight c)) by (exists a, b, c; auto 8).
    split; [exact V|]. left. eexists. exists r. split; [reflexivity|]. auto.
  - exists (0, 0, 0)%Z. split; [exists "0", "0", "0"; repeat split; discriminate || reflexivity|]. right. split; [reflexivity|].
    intros w (p & r & -> & (a & b & c & Ha & Hb & Hc & -> & _) & T). rewrite (proj2 (match_version_iff _ (a +s+ "." +s+ b +s+ "." +s+ c) r)) in E by (exists a, b, c; auto 8). discriminate.
Qed.

Lemma version_safe s v : version_text s v -> sall shell_safe s = true.
Proof.
  intros (a & b & c & [_ Ha] & [_ Hb] & [_ Hc] & -> & _). rewrite !sall_app.
  rewrite (sall_impl _ _ a digit_safe Ha), (sall_impl _ _ b digit_safe Hb), (sall_impl _ _ c digit_safe Hc). reflexivity.
Qed.

Lemma command_lemma e m on user st c : name_matches (m_app_name m) = true -> In (Request c) (vs_log (fst (version_check e m on user st))) ->
  In (Request c) (vs_log st) \/
  exists program directory url version, In program programs /\ place e directory
    /\ (exists v, version_text version v /\ app_version (m_version m) v)
    /\ c = program +s+ " " +s+ path_join directory (m_app_name m +s+ ".version") +s+ " " +s+ url +s+ " > /dev/null 2>&1"
    /\ sall shell_safe url = true /\ is_empty url = false
    /\ url = "https://seqan-update.informatik.uni-tuebingen.de/check/SeqAn-Sharg_" +s+ os_name e +s+ (if ve_64 e then "_64_" else "_32_") +s+ m_app_name m +s+ "_" +s+ version.
Proof.
  intros HN H. destruct (emits_version_check e m on user st) as (l & L & F & _). rewrite L in H. apply in_app_iff in H as [H|H]; [now left|right].
  rewrite Forall_forall in F. specialize (F _ H). cbn in F. destruct F as (k & (B1 & B2 & B3) & p & Hp & ->).
  destruct (version_of_app_text (m_version m)) as (v & V & V2).
  exists p, (ck_path k). eexists. exists (version_of_app (m_version m)).
  split; [exact Hp|]. split; [exact B3|]. split; [eauto|]. split; [|split; [|split; [|reflexivity]]].
  - unfold server_command. rewrite B1, B2. repeat rewrite app_assoc_s. reflexivity.
  - rewrite !sall_app. unfold name_matches in HN. apply andb_prop in HN as [_ HN]. rewrite (sall_impl _ _ _ name_safe HN), (version_safe _ _ V). unfold os_name. destruct (ve_os e), (ve_64 e); reflexivity.
  - reflexivity.
Qed.

Lemma safe_path_join p q : sall shell_safe p = true -> sall shell_safe q = true -> sall shell_safe (path_join p q) = true.
Proof.
  intros H1 H2. unfold path_join. destruct (last_chr p) as [c|]; [|exact H2]. destruct (Ascii.eqb c slash); rewrite ?sall_app, H1, ?H2; reflexivity.
Qed.

Lemma safe_place e m directory : place e directory -> name_matches (m_app_name m) = true ->
  (forall home, ve_home e = Some home -> sall shell_safe home = true) -> sall shell_safe (ve_tmp e) = true ->
  sall shell_safe (path_join directory (m_app_name m +s+ ".version")) = true.
Proof.
  intros Hp HN Hh Ht. apply andb_prop in HN as [_ HN].
  apply safe_path_join; [|rewrite sall_app, (sall_impl _ _ _ name_safe HN); reflexivity].
  destruct Hp as [->|[->|(home & H & ->)]]; [reflexivity|exact Ht|]. unfold seqan_dir. apply safe_path_join; [|reflexivity]. apply safe_path_join; [|reflexivity]. auto.
Qed.

(** ** Messages *)

Definition said (b : bool) (s : string) : list event := if b then [Message s] else [].

Lemma log_if (b : bool) s f l : (if b then log (Message s) else ret tt) {| vs_fs := f; vs_log := l |} = ({| vs_fs := f; vs_log := l ++ said b s |}, Ret tt).
Proof. destruct b; cbn; [reflexivity|]. now rewrite app_nil_r. Qed.

Lemma show_eq e k f l c l1 o : read_file f (path_join (ck_path k) (ck_name k +s+ ".version")) = Some c -> cut_line c = (l1, o) ->
  let l2 := match o with None => l1 | Some r => fst (cut_line r) end in
  let unregistered := String.eqb l1 "UNREGISTERED_APP" in
  let app := if unregistered then (0, 0, 0)%Z else get_numbers l1 in
  let known := negb (version_eqb app (0, 0, 0)%Z) in
  show_messages e k {| vs_fs := f; vs_log := l |} =
  ({| vs_fs := f; vs_log := (((l ++ said (unregistered && negb (ve_ndebug e)) message_unregistered_app)
       ++ said (negb (ve_ndebug e) && negb (version_eqb (get_numbers l2) (0, 0, 0)%Z) && version_ltb sharg_version (get_numbers l2)) message_sharg_update)
       ++ said (known && ve_ndebug e && version_ltb (get_numbers (ck_version k)) app) (message_app_update (ck_url k)))
       ++ said (known && negb (ve_ndebug e) && version_ltb app (get_numbers (ck_version k))) message_registered_app_update |}, Ret tt).
Proof.
  intros R C. cbv zeta. unfold show_messages. unfold bind at 1. cbn [vs_fs]. rewrite R. unfold getline at 1. rewrite C.
  set (l2 := match o with None => l1 | Some r => fst (cut_line r) end).
  assert (G : getline o l1 = (match o with None => None | Some r => snd (cut_line r) end, l2)).
  { destruct o as [r|]; [|reflexivity]. unfold l2. cbn. now destruct (cut_line r). }
  rewrite G. unfold bind at 1. destruct (String.eqb l1 "UNREGISTERED_APP"), (ve_ndebug e); cbn [andb negb].
  - cbn. now rewrite !app_nil_r.
  - unfold bind at 1. cbn [log modify vs_fs vs_log ret]. unfold bind. rewrite log_if. cbn [version_eqb Z.eqb andb negb said ret]. now rewrite !app_nil_r.
  - cbn [ret]. unfold bind. cbn [ret]. destruct (version_eqb (get_numbers l1) (0, 0, 0)%Z); cbn [negb andb said ret]; rewrite ?app_nil_r; [reflexivity|].
    rewrite log_if. reflexivity.
  - cbn [ret]. unfold bind. cbn [said]. rewrite app_nil_r. rewrite log_if. destruct (version_eqb (get_numbers l1) (0, 0, 0)%Z); cbn [negb andb said ret]; rewrite ?app_nil_r; [reflexivity|].
    rewrite log_if. reflexivity.
Qed.

Lemma version_file_at home m : name_matches (m_app_name m) = true ->
  comps (path_join (seqan_dir home) (m_app_name m +s+ ".version")) = version_file home (m_app_name m).
Proof.
  intros H. rewrite comps_join. unfold seqan_dir. rewrite comps_cookie_dir. unfold version_file. f_equal. apply name_no_slash in H as [H1 H2]. apply comps_plain.
  - now rewrite scontains_app, H1.
  - destruct (m_app_name m); [discriminate|reflexivity].
  - destruct (m_app_name m) as [|c [|d n]]; [discriminate| |]; apply String.eqb_neq; discriminate.
Qed.

(** the events after the messages *)
Definition no_message (x : event) : bool := match x with Message _ => false | _ => true end.

Lemma program_logs e st : exists l p, get_program e st = ({| vs_fs := vs_fs st; vs_log := vs_log st ++ l |}, Ret p) /\ forallb no_message l = true.
Proof.
  unfold get_program. cbv zeta. unfold bind at 1. cbn [log modify]. destruct (ve_system e "/usr/bin/env -i wget --version > /dev/null 2>&1").
  - eexists. eexists. split; reflexivity.
  - unfold bind at 1. cbn [log modify vs_fs vs_log]. rewrite <- app_assoc. destruct (ve_system e _); eexists; eexists; (split; reflexivity).
Qed.

Lemma run_messages e home m f c mm l1 o : ve_home e = Some home -> ve_opt_out e = false -> name_matches (m_app_name m) = true ->
  usable (ve_ndebug e) home (m_app_name m) f -> f (version_file home (m_app_name m)) = Some (NFile c mm) -> f_readable mm = true -> cut_line c = (l1, o) ->
  let l2 := match o with None => l1 | Some r => fst (cut_line r) end in
  let unregistered := String.eqb l1 "UNREGISTERED_APP" in
  let app := if unregistered then (0, 0, 0)%Z else get_numbers l1 in
  let known := negb (version_eqb app (0, 0, 0)%Z) in
  exists st l, version_check e m true (Some true) {| vs_fs := f; vs_log := [] |} = (st, Ret tt) /\ forallb no_message l = true
   /\ vs_log st = said (unregistered && negb (ve_ndebug e)) message_unregistered_app
       ++ said (negb (ve_ndebug e) && negb (version_eqb (get_numbers l2) (0, 0, 0)%Z) && version_ltb sharg_version (get_numbers l2)) message_sharg_update
       ++ said (known && ve_ndebug e && version_ltb (get_numbers (version_of_app (m_version m))) app) (message_app_update (m_url m))
       ++ said (known && negb (ve_ndebug e) && version_ltb app (get_numbers (version_of_app (m_version m)))) message_registered_app_update ++ l.
Proof.
  intros H O HN U V R C. cbv zeta. destruct (version_checker_usable e home m f [] H U HN) as (g & E & G).
  unfold version_check. unfold bind at 1. rewrite E. unfold bind at 1. unfold decide. cbn [negb]. rewrite O. cbn [ret]. unfold check. unfold bind at 1.
  assert (RF : read_file g (path_join (ck_path (a_checker e home m)) (ck_name (a_checker e home m) +s+ ".version")) = Some c).
  { cbn [ck_path ck_name a_checker]. unfold read_file, open_read. rewrite lookup_at.
    - rewrite version_file_at by exact HN. now rewrite G, V, R.
    - apply join_nonempty. destruct (m_app_name m); [discriminate HN|reflexivity]. }
  rewrite (show_eq e (a_checker e home m) g [] c l1 o RF C). cbn [ck_version ck_url a_checker app].
  match goal with |- context [{| vs_fs := g; vs_log := ?x |}] => destruct (program_logs e {| vs_fs := g; vs_log := x |}) as (l & p & EP & NM) end.
  unfold bind. rewrite EP. cbn [vs_fs vs_log]. destruct (is_empty p).
  - eexists. exists l. split; [reflexivity|]. split; [exact NM|]. cbn [vs_log]. now rewrite <- !app_assoc.
  - eexists. exists (l ++ [Request (server_command e (a_checker e home m) p)]). split; [reflexivity|]. split; [now rewrite forallb_app, NM|].
    cbn [vs_log]. now rewrite <- !app_assoc.
Qed.

Lemma in_said b s x : In x (said b s) <-> b = true /\ x = Message s.
Proof. destruct b; cbn; split; [intros [<-|[]]; auto|intros [_ ->]; auto|intros []|intros [? _]; discriminate]. Qed.

Lemma no_message_in l s : forallb no_message l = true -> ~ In (Message s) l.
Proof. intros H I. rewrite forallb_forall in H. specialize (H _ I). discriminate. Qed.

Lemma unregistered_no_version v : ~ version_text "UNREGISTERED_APP" v.
Proof.
  intros (a & b & c & [Na Ha] & _ & _ & E & _). destruct a as [|x a]; [contradiction|]. injection E as <- _. cbn in Ha. discriminate.
Qed.

Lemma shown_version l1 : (if String.eqb l1 "UNREGISTERED_APP" then (0, 0, 0)%Z else get_numbers l1) = get_numbers l1.
Proof. destruct (String.eqb_spec l1 "UNREGISTERED_APP") as [->|]; [|reflexivity]. symmetry. apply get_numbers_other, unregistered_no_version. Qed.

Lemma release_lemma e home m f c mm l v : ve_home e = Some home -> ve_opt_out e = false -> name_matches (m_app_name m) = true -> ve_ndebug e = true ->
  usable true home (m_app_name m) f -> f (version_file home (m_app_name m)) = Some (NFile c mm) -> f_readable mm = true ->
  first_line c l -> app_version (m_version m) v -> fits_int v -> (forall w, version_text l w -> fits_int w) ->
  exists st, version_check e m true (Some true) {| vs_fs := f; vs_log := [] |} = (st, Ret tt)
    /\ (In (Message (message_app_update (m_url m))) (vs_log st) <-> exists w, version_text l w /\ newer w v)
    /\ forall s, In (Message s) (vs_log st) -> s = message_app_update (m_url m).
Proof.
  intros H O HN N U V R F HA FA FL. apply cut_first in F. destruct (cut_line c) as [l1 o] eqn:C. cbn [fst] in F. subst l1.
  rewrite <- N in U. destruct (run_messages e home m f c mm l o H O HN U V R C) as (st & l' & E & NM & L). exists st. split; [exact E|].
  rewrite shown_version, N in L. rewrite L. cbn [negb]. rewrite !andb_false_r. cbn [andb said app]. rewrite !andb_true_r.
  rewrite (version_of_app_numbers _ v HA FA). pose proof (numbers_newer l _ v FL eq_refl (app_version_pos _ _ HA)) as NW.
  split.
  - rewrite in_app_iff, in_said, <- NW, andb_true_iff, negb_true_iff. split; [intros [[[P1 P2] _]|X]; [auto|now apply no_message_in in X]|auto].
  - intros s. rewrite in_app_iff, in_said. intros [[_ [= ->]]|X]; [reflexivity|now apply no_message_in in X].
Qed.

Lemma debug_lemma e home m f c1 r mm l2 v : ve_home e = Some home -> ve_opt_out e = false -> name_matches (m_app_name m) = true -> ve_ndebug e = false ->
  usable false home (m_app_name m) f -> f (version_file home (m_app_name m)) = Some (NFile (c1 +s+ nl +s+ r) mm) -> f_readable mm = true ->
  scontains "010" c1 = false -> first_line r l2 -> app_version (m_version m) v -> fits_int v ->
  (forall w, version_text c1 w -> fits_int w) -> (forall w, version_text l2 w -> fits_int w) ->
  exists st, version_check e m true (Some true) {| vs_fs := f; vs_log := [] |} = (st, Ret tt)
    /\ (In (Message message_sharg_update) (vs_log st) <-> exists w, version_text l2 w /\ newer w (1, 1, 2)%Z)
    /\ (In (Message message_registered_app_update) (vs_log st) <-> exists w, version_text c1 w /\ w <> (0, 0, 0)%Z /\ newer v w)
    /\ (In (Message message_unregistered_app) (vs_log st) <-> c1 = "UNREGISTERED_APP")
    /\ ~ In (Message (message_app_update (m_url m))) (vs_log st).
Proof.
  intros H O HN N U V R NL F HA FA FL1 FL2. rewrite <- N in U.
  destruct (run_messages e home m f _ mm c1 (Some r) H O HN U V R (cut_line_nl c1 r NL)) as (st & l' & E & NM & L). exists st. split; [exact E|].
  rewrite shown_version, N, (cut_first _ _ F) in L. rewrite L. cbn [negb]. rewrite !andb_true_r, !andb_false_r. cbn [andb said app].
  rewrite (version_of_app_numbers _ v HA FA).
  assert (NW : forall w0 : Z * Z * Z, (0 <= fst (fst w0) /\ 0 <= snd (fst w0) /\ 0 <= snd w0)%Z ->
     version_eqb (get_numbers l2) (0, 0, 0)%Z = false /\ version_ltb w0 (get_numbers l2) = true <-> exists w, version_text l2 w /\ newer w w0)
   by (intros w0; now apply numbers_newer).
  split; [|split; [|split]].
  - rewrite !in_app_iff, !in_said. rewrite <- (NW (1, 1, 2)%Z) by (cbn; lia). rewrite andb_true_iff, negb_true_iff. change sharg_version with (1, 1, 2)%Z. split.
    + intros [[_ X]|[[X _]|[[_ X]|X]]]; [discriminate X|exact X|discriminate X|now apply no_message_in in X].
    + intros X. right. left. auto.
  - rewrite !in_app_iff, !in_said. rewrite !andb_true_iff, !negb_true_iff, !version_ltb_iff.
    assert (Q : version_eqb (get_numbers c1) (0, 0, 0)%Z = false /\ newer v (get_numbers c1) <-> exists w, version_text c1 w /\ w <> (0, 0, 0)%Z /\ newer v w).
    { destruct (version_text_dec c1) as [[w W]|NV].
      - rewrite (get_numbers_text c1 w W (FL1 w W)). split.
        + intros [Q1 Q2]. exists w. repeat split; auto. intros ->. discriminate Q1.
        + intros (w' & W' & NZ & Q). rewrite <- (version_text_fun _ _ _ W W') in NZ, Q. split; [|exact Q].
          destruct (version_eqb w (0, 0, 0)%Z) eqn:X; [apply version_eqb_iff in X; contradiction|reflexivity].
      - rewrite (get_numbers_other c1 NV). split; [intros [X _]; discriminate X|intros (w & W & _); now apply NV in W]. }
    rewrite <- Q. split.
    + intros [[_ X]|[[_ X]|[[X _]|X]]]; [discriminate X|discriminate X|exact X|now apply no_message_in in X].
    + intros X. right. right. left. auto.
  - rewrite !in_app_iff, !in_said, String.eqb_eq. split.
    + intros [[X _]|[[_ X]|[[_ X]|X]]]; [exact X|discriminate X|discriminate X|now apply no_message_in in X].
    + auto.
  - rewrite !in_app_iff, !in_said. intros [[_ X]|[[_ X]|[[_ X]|X]]]; [discriminate X|discriminate X|discriminate X|now apply no_message_in in X].
Qed.

(** ** Outcomes *)

Lemma cookie_ret e k on user st : exists st' b, decide e k on user st = (st', Ret b).
Proof.
  assert (W : forall msg st, exists st', write_cookie e k msg st = (st', Ret tt)).
  { intros msg st0. unfold write_cookie, bind. rewrite on_fs_eq. eexists. reflexivity. }
  assert (A : forall st, exists st' b, ask_or_default e k st = (st', Ret b)).
  { intros st0. unfold ask_or_default. unfold bind at 1. destruct (W "ASK" st0) as [st1 ->]. destruct (ve_tty e); [|eexists; eexists; reflexivity].
    unfold ask_user. unfold bind at 1. cbn [log modify]. cbv zeta. destruct (Ascii.eqb _ "y"); [eexists; eexists; reflexivity|].
    destruct (Ascii.eqb _ "a"). { unfold bind. match goal with |- context [write_cookie e k "ALWAYS" ?s] => destruct (W "ALWAYS" s) as [st2 ->] end. eexists; eexists; reflexivity. }
    destruct (Ascii.eqb _ "n"). { unfold bind. match goal with |- context [write_cookie e k "NEVER" ?s] => destruct (W "NEVER" s) as [st2 ->] end. eexists; eexists; reflexivity. }
    eexists; eexists; reflexivity. }
  unfold decide. destruct (negb on); [eexists; eexists; reflexivity|]. destruct (ve_opt_out e); [eexists; eexists; reflexivity|].
  destruct user; [eexists; eexists; reflexivity|]. destruct (if exists_ (vs_fs st) _ then _ else _) as [c|]; [|apply A].
  destruct (getline (Some c) "") as [s line]. destruct (ve_recent e line (ve_now e)); [eexists; eexists; reflexivity|]. destruct (getline s line) as [s2 line2].
  destruct (String.eqb line2 "NEVER"); [eexists; eexists; reflexivity|]. destruct (String.eqb line2 "ALWAYS"); [eexists; eexists; reflexivity|apply A].
Qed.

Lemma create_keeps_dir f p q m : lookup f q = Some (NDir m) -> lookup (fst (create_directory f p)) q = Some (NDir m).
Proof.
  unfold lookup. destruct (is_empty q); [discriminate|]. intros H. unfold create_directory. destruct (is_empty p); [exact H|].
  destruct (f (comps p)) as [[]|] eqn:E; try exact H. destruct (parent_writable f (comps p)); [|exact H]. cbn [fst].
  rewrite upd_other; [exact H|]. intros X. rewrite <- X, E in H. discriminate.
Qed.

Lemma create_keeps_none f p k : k <> comps p -> f k = None -> fst (create_directory f p) k = None.
Proof. intros H1 H2. now rewrite create_only. Qed.

Lemma last_ne {A} (a b : list A) x y : x <> y -> a ++ [x] <> b ++ [y].
Proof. intros H E. apply app_inj_tail in E as [_ E]. contradiction. Qed.

Lemma probe_ok f p : f (comps p ++ ["dummy.txt"]) = None ->
  let d := path_join p "dummy.txt" in let f1 := fst (open_write f d) in
  let f2 := fst (if is_directory f1 d then (f1, false) else remove f1 d) in snd (guard_destroy f2 d) = true.
Proof.
  intros H. cbv zeta. set (d := path_join p "dummy.txt"). assert (Hd : comps d = comps p ++ ["dummy.txt"]) by apply comps_dummy.
  assert (Nd : is_empty d = false) by (apply join_nonempty; reflexivity). rewrite <- Hd in H.
  assert (X : forall g, g (comps d) = None -> snd (guard_destroy g d) = true).
  { intros g Hg. unfold guard_destroy, remove_all. rewrite lookup_at by exact Nd. now rewrite Hg. }
  unfold open_write. rewrite Nd, H. destruct (parent_writable f (comps d)) eqn:PW; cbn [fst].
  - apply X. unfold is_directory, remove. rewrite lookup_at by exact Nd. rewrite upd_same.
    assert (PW' : parent_writable (upd f (comps d) (Some (NFile "" rw))) (comps d) = true).
    { unfold parent_writable, parent_key in *. rewrite Hd in *. rewrite removelast_last in *. rewrite upd_other by apply not_eq_sym, longer_key. exact PW. }
    rewrite PW'. cbn [fst]. apply upd_same.
  - apply X. unfold is_directory, remove. rewrite lookup_at by exact Nd. rewrite H. cbn [fst]. exact H.
Qed.

Lemma never_fails e home m on user st : ve_home e = Some home -> name_matches (m_app_name m) = true ->
  (exists mm, lookup (vs_fs st) (ve_tmp e) = Some (NDir mm)) ->
  ve_ndebug e = true \/ (vs_fs st (comps (ve_tmp e) ++ ["dummy.txt"]) = None /\ vs_fs st (cookie_dir home ++ ["dummy.txt"]) = None) ->
  exists st', version_check e m on user st = (st', Ret tt).
Proof.
  intros H HN [mm T] D.
  assert (P : exists st1 p, get_path e st = (st1, Ret p)).
  { unfold get_path. rewrite H. unfold bind at 1. rewrite on_fs_eq. set (f1 := fst (create_directory _ _)). set (e1 := snd (create_directory _ _)).
    assert (T1 : lookup f1 (ve_tmp e) = Some (NDir mm)) by now apply create_keeps_dir.
    assert (D1 : ve_ndebug e = true \/ (f1 (comps (ve_tmp e) ++ ["dummy.txt"]) = None /\ f1 (cookie_dir home ++ ["dummy.txt"]) = None)).
    { destruct D as [D|[D D']]; [now left|right]. split; (apply create_keeps_none; [|assumption]); rewrite comps_config; apply last_ne; discriminate. }
    clearbody f1 e1.
    assert (X : exists f2 e2, (if e1 then ret true else on_fs (fun f => create_directory f (path_join (path_join home ".config") "seqan")))
                {| vs_fs := f1; vs_log := vs_log st |} = ({| vs_fs := f2; vs_log := vs_log st |}, Ret e2) /\ lookup f2 (ve_tmp e) = Some (NDir mm)
                /\ (ve_ndebug e = true \/ (f2 (comps (ve_tmp e) ++ ["dummy.txt"]) = None /\ f2 (cookie_dir home ++ ["dummy.txt"]) = None))).
    { destruct e1; [exists f1, true; auto|]. rewrite on_fs_eq. eexists. eexists. split; [reflexivity|]. cbn [vs_fs]. split; [now apply create_keeps_dir|].
      destruct D1 as [D1|[D1 D1']]; [now left|right]. split; (apply create_keeps_none; [|assumption]); rewrite comps_cookie_dir; apply last_ne; discriminate. }
    destruct X as (f2 & e2 & E2 & T2 & D2). unfold bind at 1. cbn [vs_log]. rewrite E2. clear E2.
    assert (Y : forall p, ve_ndebug e = true \/ f2 (comps p ++ ["dummy.txt"]) = None ->
      exists st1 p', (do good <- on_fs (fun f => open_write f (path_join p "dummy.txt"));
              do _ <- on_fs (fun f => if is_directory f (path_join p "dummy.txt") then (f, false) else remove f (path_join p "dummy.txt"));
              do removed <- on_fs (fun f => guard_destroy f (path_join p "dummy.txt"));
              if negb removed && negb (ve_ndebug e) then fail AssertFail else ret (if good then p else "")) {| vs_fs := f2; vs_log := vs_log st |} = (st1, Ret p')).
    { intros p Hp. unfold bind. rewrite !on_fs_eq. cbn [vs_fs vs_log]. destruct Hp as [->|Hp].
      - rewrite andb_false_r. eexists. eexists. reflexivity.
      - rewrite (probe_ok f2 p Hp). cbn [negb andb]. eexists. eexists. reflexivity. }
    unfold bind at 1. destruct e2.
    - unfold temp_directory_path. cbn [vs_fs]. unfold is_directory at 1. rewrite T2. apply Y. destruct D2 as [|[]]; auto.
    - cbn [ret]. apply Y. fold (seqan_dir home). unfold seqan_dir. rewrite comps_cookie_dir. destruct D2 as [|[]]; auto. }
  destruct P as (st1 & p & P). unfold version_check, version_checker. unfold bind at 1 2. rewrite P, HN. cbn [negb andb ret]. unfold bind.
  match goal with |- context [decide e ?k on user st1] => destruct (cookie_ret e k on user st1) as (st2 & b & ->); destruct b; [destruct (logs_check e k st2) as (l & [] & -> & _)|] end;
    eexists; reflexivity.
Qed.

(** ** Answers *)

Lemma requests_app a b : requests (a ++ b) <-> requests a \/ requests b.
Proof. unfold requests. now rewrite existsb_app, orb_true_iff. Qed.

Lemma no_request_said b s : ~ requests (said b s).
Proof. destruct b; discriminate. Qed.

Lemma program_iff e st : exists l p, get_program e st = ({| vs_fs := vs_fs st; vs_log := vs_log st ++ l |}, Ret p) /\ ~ requests l /\ (is_empty p = false <-> has_program e).
Proof.
  unfold get_program, has_program. cbv zeta. unfold bind at 1. cbn [log modify]. destruct (ve_system e "/usr/bin/env -i wget --version > /dev/null 2>&1").
  - eexists. eexists. split; [reflexivity|]. split; [discriminate|]. cbn. intuition.
  - unfold bind at 1. cbn [log modify vs_fs vs_log]. rewrite <- app_assoc. destruct (ve_system e _).
    + eexists; eexists; split; [reflexivity|]. split; [discriminate|]. cbn. intuition.
    + eexists; eexists; split; [reflexivity|]. split; [discriminate|]. destruct (ve_os e); cbn; intuition discriminate.
Qed.

Definition silent_messages {A} (n : M vstate A) : Prop := forall st, exists l r, n st = ({| vs_fs := vs_fs st; vs_log := vs_log st ++ l |}, Ret r) /\ ~ requests l.

Lemma silent_bind {A B} (n : M vstate A) (g : A -> M vstate B) : silent_messages n -> (forall a, silent_messages (g a)) -> silent_messages (bind n g).
Proof.
  intros H1 H2 st. unfold bind. destruct (H1 st) as (l & a & -> & N). destruct (H2 a {| vs_fs := vs_fs st; vs_log := vs_log st ++ l |}) as (l' & b & -> & N').
  exists (l ++ l'), b. cbn. rewrite app_assoc. split; [reflexivity|]. rewrite requests_app. tauto.
Qed.
Lemma silent_ret {A} (a : A) : silent_messages (ret a).
Proof. intros [f l]. exists [], a. cbn. rewrite app_nil_r. split; [reflexivity|discriminate]. Qed.
Lemma silent_message s : silent_messages (log (Message s)).
Proof. intros st. exists [Message s], tt. split; [reflexivity|discriminate]. Qed.

Lemma silent_show e k : silent_messages (show_messages e k).
Proof.
  unfold show_messages. apply silent_bind.
  - intros st. destruct (read_file (vs_fs st) _) as [c|]; [|apply silent_ret]. destruct (getline (Some c) "") as [s line]. destruct (getline s line) as [s2 line2].
    apply silent_bind; [|intros; apply silent_ret]. destruct (String.eqb line "UNREGISTERED_APP"); [|apply silent_ret].
    apply silent_bind; [|intros; apply silent_ret]. destruct (ve_ndebug e); [apply silent_ret|apply silent_message].
  - intros [a s]. apply silent_bind.
    + destruct (_ && _); [apply silent_message|apply silent_ret].
    + intros _. destruct (version_eqb a _); [apply silent_ret|]. destruct (ve_ndebug e); (destruct (version_ltb _ _); [apply silent_message|apply silent_ret]).
Qed.

Lemma check_requests e k st : exists l, check e k st = ({| vs_fs := vs_fs st; vs_log := vs_log st ++ l |}, Ret tt) /\ (requests l <-> has_program e).
Proof.
  unfold check. destruct (silent_show e k st) as (l1 & [] & E1 & N1). unfold bind at 1. rewrite E1.
  destruct (program_iff e {| vs_fs := vs_fs st; vs_log := vs_log st ++ l1 |}) as (l2 & p & E2 & N2 & P). unfold bind. rewrite E2. cbn [vs_fs vs_log].
  destruct (is_empty p).
  - exists (l1 ++ l2). rewrite app_assoc. split; [reflexivity|]. rewrite requests_app. split; [tauto|]. intros X. apply P in X. discriminate.
  - exists ((l1 ++ l2) ++ [Request (server_command e k p)]). cbn. rewrite !app_assoc. split; [reflexivity|]. rewrite !requests_app. split; [intros _; now apply P|]. intros _. right. reflexivity.
Qed.

(** no decision stored, or the question is due again *)
Definition undecided (nd : bool) (home name : string) (recent : string -> Z -> bool) (now : Z) (f : fs) : Prop :=
  f (cookie nd home name) = None
  \/ exists t, stored nd home name f t "ASK" /\ recent (Z_to_string t) now = false.

Lemma answer_lemma e home m f : ve_home e = Some home -> cookie_name m -> usable (ve_ndebug e) home (m_app_name m) f -> ve_opt_out e = false ->
  undecided (ve_ndebug e) home (m_app_name m) (ve_recent e) (ve_now e) f ->
  exists st, version_check e m true None {| vs_fs := f; vs_log := [] |} = (st, Ret tt)
    /\ (ve_tty e = true -> asks (vs_log st)
        /\ stored (ve_ndebug e) home (m_app_name m) (vs_fs st) (ve_now e) (snd (verdict (ve_answer e)))
        /\ (requests (vs_log st) <-> fst (verdict (ve_answer e)) = true /\ has_program e))
    /\ (ve_tty e = false -> vs_log st = [] /\ stored (ve_ndebug e) home (m_app_name m) (vs_fs st) (ve_now e) "ASK").
Proof.
  intros H HN U O D. destruct (version_checker_usable e home m f [] H U HN) as (g & E & G). assert (U' := usable_ext _ _ _ f g G U).
  unfold version_check. unfold bind at 1. rewrite E. unfold bind at 1.
  assert (DE : decide e (a_checker e home m) true None {| vs_fs := g; vs_log := [] |} = ask_or_default e (a_checker e home m) {| vs_fs := g; vs_log := [] |}).
  { destruct D as [D|(t & (mm & D) & R)].
    - apply (decide_none e home m HN g [] U'); [now rewrite G|exact O].
    - rewrite (decide_stored e home m HN g [] t "ASK" U'); [now rewrite R|exists mm; now rewrite G|reflexivity|exact O]. }
  rewrite DE. destruct (ask_usable e home m HN g [] U') as (h & -> & S2 & U2 & _). cbn [app]. destruct (ve_tty e).
  - destruct (verdict (ve_answer e)) as [[] d']; cbn [fst snd] in *.
    + destruct (check_requests e (a_checker e home m) {| vs_fs := h; vs_log := [Message question] |}) as (l & -> & R). eexists. split; [reflexivity|].
      split; [|discriminate]. intros _. cbn [vs_fs vs_log]. split; [now left|]. split; [exact S2|]. cbn [app]. change (Message question :: l) with ([Message question] ++ l).
      rewrite requests_app, R. split; [intros [X|X]; [discriminate X|auto]|tauto].
    + eexists. split; [reflexivity|]. split; [|discriminate]. intros _. cbn [vs_fs vs_log]. split; [now left|]. split; [exact S2|]. split; [intros X; discriminate X|intros [X _]; discriminate X].
  - cbn [fst snd] in *. eexists. split; [reflexivity|]. split; [discriminate|]. auto.
Qed.

(** always: once the cookie is a day old *)
Lemma always_lemma e home m f t : ve_home e = Some home -> cookie_name m -> usable (ve_ndebug e) home (m_app_name m) f -> ve_opt_out e = false ->
  stored (ve_ndebug e) home (m_app_name m) f t "ALWAYS" ->
  exists st, version_check e m true None {| vs_fs := f; vs_log := [] |} = (st, Ret tt)
    /\ stored (ve_ndebug e) home (m_app_name m) (vs_fs st) t "ALWAYS" /\ ~ asks (vs_log st)
    /\ (requests (vs_log st) <-> ve_recent e (Z_to_string t) (ve_now e) = false /\ has_program e).
Proof.
  intros H HN U O (mm & S). destruct (version_checker_usable e home m f [] H U HN) as (g & E & G). assert (U' := usable_ext _ _ _ f g G U).
  assert (S' : stored (ve_ndebug e) home (m_app_name m) g t "ALWAYS") by (exists mm; now rewrite G).
  unfold version_check. unfold bind at 1. rewrite E. unfold bind at 1. rewrite (decide_stored e home m HN g [] t "ALWAYS" U' S' eq_refl O).
  destruct (ve_recent e (Z_to_string t) (ve_now e)).
  - eexists. split; [reflexivity|]. split; [exact S'|]. split; [intros []|]. cbn. split; [discriminate|intros [X _]; discriminate].
  - cbn [String.eqb]. change (String.eqb "ALWAYS" "NEVER") with false. change (String.eqb "ALWAYS" "ALWAYS") with true. cbn iota.
    destruct (logs_check e (a_checker e home m) {| vs_fs := g; vs_log := [] |}) as (l' & [] & E' & NA).
    destruct (check_requests e (a_checker e home m) {| vs_fs := g; vs_log := [] |}) as (l & E2 & R). rewrite E2 in *. injection E' as El. cbn [app vs_log] in El. subst l'.
    eexists. split; [reflexivity|]. cbn [vs_fs vs_log app]. split; [exact S'|]. split; [exact NA|]. tauto.
Qed.

(** an explicit --version-check 1 *)
Lemma explicit_lemma e home m f : ve_home e = Some home -> cookie_name m -> usable (ve_ndebug e) home (m_app_name m) f -> ve_opt_out e = false ->
  exists st, version_check e m true (Some true) {| vs_fs := f; vs_log := [] |} = (st, Ret tt)
    /\ (forall k, vs_fs st k = f k) /\ ~ asks (vs_log st) /\ (requests (vs_log st) <-> has_program e).
Proof.
  intros H HN U O. destruct (version_checker_usable e home m f [] H U HN) as (g & E & G).
  unfold version_check. unfold bind at 1. rewrite E. unfold bind at 1, decide. cbn [negb]. rewrite O. cbn [ret].
  destruct (logs_check e (a_checker e home m) {| vs_fs := g; vs_log := [] |}) as (l' & [] & E' & NA).
  destruct (check_requests e (a_checker e home m) {| vs_fs := g; vs_log := [] |}) as (l & E2 & R). rewrite E2 in *. injection E' as El. cbn [app vs_log] in El. subst l'.
  eexists. split; [reflexivity|]. cbn [vs_fs vs_log app]. auto.
Qed.

(** ** Computed histories *)

Fixpoint simulate (m : meta) (f : fs) (l : list (venv * option bool)) : list run * fs :=
  match l with
  | [] => ([], f)
  | (e, user) :: l' =>
      let st := fst (version_check e m true user {| vs_fs := f; vs_log := [] |}) in
      let '(runs, f2) := simulate m (vs_fs st) l' in
      ({| r_env := e; r_user := user; r_events := vs_log st |} :: runs, f2)
  end.

Lemma simulate_history m nd home : cookie_name m -> forall l f, usable nd home (m_app_name m) f ->
  (forall e user, In (e, user) l -> ve_ndebug e = nd /\ ve_home e = Some home /\ clock_ok (ve_recent e) /\ (0 <= ve_now e < 2 ^ 53)%Z) ->
  history m nd home f (fst (simulate m f l)) (snd (simulate m f l)).
Proof.
  intros HN. induction l as [|[e user] l IH]; intros f U A; cbn [simulate]; [constructor|].
  destruct (A e user (or_introl eq_refl)) as (A1 & A2 & A3 & A4). rewrite <- A1 in U.
  destruct (run_any e home m user f A2 HN U) as (st & E & U' & _). rewrite E. cbn [fst]. rewrite A1 in U, U'.
  specialize (IH (vs_fs st) U' (fun e' u' Hi => A e' u' (or_intror Hi))). destruct (simulate m (vs_fs st) l) as [runs f2]. cbn [fst snd] in *.
  apply (one_run m nd home f f); auto.
Qed.

Lemma no_file_lemma e home m f : ve_home e = Some home -> cookie_name m -> usable (ve_ndebug e) home (m_app_name m) f -> ve_opt_out e = false ->
  f (version_file home (m_app_name m)) = None ->
  exists st, version_check e m true (Some true) {| vs_fs := f; vs_log := [] |} = (st, Ret tt) /\ forall s, ~ In (Message s) (vs_log st).
Proof.
  intros H HN U O V. destruct (version_checker_usable e home m f [] H U HN) as (g & E & G).
  unfold version_check. unfold bind at 1. rewrite E. unfold bind at 1, decide. cbn [negb]. rewrite O. cbn [ret]. unfold check.
  assert (R : read_file g (path_join (ck_path (a_checker e home m)) (ck_name (a_checker e home m) +s+ ".version")) = None).
  { cbn [ck_path ck_name a_checker]. unfold read_file, open_read. rewrite lookup_at.
    - rewrite version_file_at by exact HN. now rewrite G, V.
    - apply join_nonempty. unfold cookie_name in HN. destruct (m_app_name m); [discriminate HN|reflexivity]. }
  assert (S : show_messages e (a_checker e home m) {| vs_fs := g; vs_log := [] |} = ({| vs_fs := g; vs_log := [] |}, Ret tt)).
  { unfold show_messages. unfold bind at 1. cbn [vs_fs]. rewrite R. unfold bind. cbn [version_eqb Z.eqb andb negb ret]. rewrite andb_false_r. reflexivity. }
  unfold bind at 1. rewrite S. destruct (program_logs e {| vs_fs := g; vs_log := [] |}) as (l & p & EP & NM). unfold bind. rewrite EP. cbn [vs_fs vs_log app].
  destruct (is_empty p); eexists; (split; [reflexivity|]); intros s X.
  - now apply no_message_in in X.
  - cbn in X. apply in_app_iff in X as [X|[X|[]]]; [now apply no_message_in in X|discriminate X].
Qed.

Lemma same_address m e1 e2 on1 on2 user1 user2 f1 f2 c1 c2 : cookie_name m -> ve_os e1 = ve_os e2 -> ve_64 e1 = ve_64 e2 ->
  In (Request c1) (vs_log (fst (version_check e1 m on1 user1 {| vs_fs := f1; vs_log := [] |}))) ->
  In (Request c2) (vs_log (fst (version_check e2 m on2 user2 {| vs_fs := f2; vs_log := [] |}))) ->
  exists p1 p2 d1 d2 url, In p1 programs /\ In p2 programs /\ sall shell_safe url = true
    /\ c1 = p1 +s+ " " +s+ path_join d1 (m_app_name m +s+ ".version") +s+ " " +s+ url +s+ " > /dev/null 2>&1"
    /\ c2 = p2 +s+ " " +s+ path_join d2 (m_app_name m +s+ ".version") +s+ " " +s+ url +s+ " > /dev/null 2>&1".
Proof.
  intros HN H1 H2 I1 I2.
  destruct (emits_version_check e1 m on1 user1 {| vs_fs := f1; vs_log := [] |}) as (l1 & L1 & F1 & _). rewrite L1 in I1. cbn in I1. rewrite Forall_forall in F1. apply F1 in I1.
  destruct (emits_version_check e2 m on2 user2 {| vs_fs := f2; vs_log := [] |}) as (l2 & L2 & F2 & _). rewrite L2 in I2. cbn in I2. rewrite Forall_forall in F2. apply F2 in I2.
  destruct I1 as (k1 & (A1 & A2 & _) & p1 & P1 & ->), I2 as (k2 & (B1 & B2 & _) & p2 & P2 & ->).
  exists p1, p2, (ck_path k1), (ck_path k2).
  exists ("https://seqan-update.informatik.uni-tuebingen.de/check/SeqAn-Sharg_" +s+ os_name e1 +s+ (if ve_64 e1 then "_64_" else "_32_") +s+ m_app_name m +s+ "_" +s+ version_of_app (m_version m)).
  split; [exact P1|]. split; [exact P2|]. split.
  - destruct (version_of_app_text (m_version m)) as (v & V & _). rewrite !sall_app. apply andb_prop in HN as [_ HN]. rewrite (sall_impl _ _ _ name_safe HN), (version_safe _ _ V).
    unfold os_name. destruct (ve_os e1), (ve_64 e1); reflexivity.
  - unfold server_command. rewrite A1, A2, B1, B2. unfold os_name. rewrite <- H1, <- H2. repeat rewrite app_assoc_s. split; reflexivity.
Qed.

(** [sub_in p s]: [p] occurs in [s] *)
Fixpoint sub_in (p s : string) : bool := String.prefix p s || match s with String _ s' => sub_in p s' | EmptyString => false end.
Lemma sub_in_app p a b : sub_in p (a +s+ p +s+ b) = true.
Proof.
  induction a as [|c a IH]; cbn [sconcat].
  - change ("" +s+ p +s+ b) with (p +s+ b). assert (X : String.prefix p (p +s+ b) = true) by (apply prefix_iff; now exists b). destruct (p +s+ b); cbn [sub_in]; now rewrite X.
  - change (String c a +s+ p +s+ b) with (String c (a +s+ p +s+ b)). cbn [sub_in]. now rewrite IH, orb_true_r.
Qed.
