(** The version check over any number of days is exactly the one of DaysSpec.v. *)
From Verif Require Import Base StrLib Fs Values ValuesSpec ValuesProofs FormatParse Parser VersionCheck VersionSpec VersionProofs VersionRuns DaysSpec.
Local Open Scope Z_scope.

Lemma remembered_same nd home name f g mem : g (cookie nd home name) = f (cookie nd home name) -> remembered nd home name f mem -> remembered nd home name g mem.
Proof. intros E. destruct mem as [[t d]|]; cbn; [intros (S & R); split; [now apply (stored_same _ _ _ f)|exact R]|congruence]. Qed.

Lemma nothing_asked : ~ asks [] /\ ~ requests [].
Proof. split; [intros []|discriminate]. Qed.

Lemma expected_run e home m user f mem : ve_home e = Some home -> cookie_name m -> usable (ve_ndebug e) home (m_app_name m) f -> clock_ok (ve_recent e) -> 0 <= ve_now e < 2 ^ 53 ->
  remembered (ve_ndebug e) home (m_app_name m) f mem ->
  exists st a c mem', version_check e m true user {| vs_fs := f; vs_log := [] |} = (st, Ret tt) /\ expected e user mem a c mem' /\
    (asks (vs_log st) <-> a = true) /\ (requests (vs_log st) <-> c = true /\ has_program e) /\ remembered (ve_ndebug e) home (m_app_name m) (vs_fs st) mem'.
Proof.
  intros H HN U Hc Hnow Mem. destruct (version_checker_usable e home m f [] H U HN) as (g & E & G). assert (U' := usable_ext _ _ _ f g G U).
  assert (Mg : remembered (ve_ndebug e) home (m_app_name m) g mem) by (apply (remembered_same _ _ _ f); auto). destruct nothing_asked as [NA NR].
  assert (Quiet : forall st, decide e (a_checker e home m) true user {| vs_fs := g; vs_log := [] |} = (st, Ret false) -> version_check e m true user {| vs_fs := f; vs_log := [] |} = (st, Ret tt)).
  { intros st D. unfold version_check. unfold bind at 1. rewrite E. unfold bind at 1. rewrite D. reflexivity. }
  destruct (ve_opt_out e) eqn:O.
  { exists {| vs_fs := g; vs_log := [] |}, false, false, mem. split; [apply Quiet; unfold decide; cbn [negb]; now rewrite O|]. split; [now apply ex_opted_out|]. cbn [vs_log vs_fs].
    split; [split; [contradiction|discriminate]|]. split; [split; [contradiction|intros [X _]; discriminate X]|exact Mg]. }
  destruct user as [[]|].
  - destruct (explicit_lemma e home m f H HN U O) as (st & R & F & A & Q). exists st, false, true, mem.
    split; [exact R|]. split; [now apply ex_told|]. split; [split; [contradiction|discriminate]|]. split; [tauto|]. apply (remembered_same _ _ _ f); auto.
  - exists {| vs_fs := g; vs_log := [] |}, false, false, mem. split; [apply Quiet; unfold decide; cbn [negb]; now rewrite O|]. split; [now apply ex_told|]. cbn [vs_log vs_fs].
    split; [split; [contradiction|discriminate]|]. split; [split; [contradiction|intros [X _]; discriminate X]|exact Mg].
  - assert (Ask : mem = None \/ (exists t, mem = Some (t, "ASK") /\ a_day <= ve_now e - t) -> undecided (ve_ndebug e) home (m_app_name m) (ve_recent e) (ve_now e) f).
    { intros [->|(t & -> & L)]; [left; exact Mem|right]. destruct Mem as (S & Ht & _). exists t. split; [exact S|]. rewrite (Hc t (ve_now e) Ht Hnow). apply Z.ltb_ge. exact L. }
    assert (Undecided : mem = None \/ (exists t, mem = Some (t, "ASK") /\ a_day <= ve_now e - t) -> exists st a c mem', version_check e m true None {| vs_fs := f; vs_log := [] |} = (st, Ret tt) /\ expected e None mem a c mem' /\
      (asks (vs_log st) <-> a = true) /\ (requests (vs_log st) <-> c = true /\ has_program e) /\ remembered (ve_ndebug e) home (m_app_name m) (vs_fs st) mem').
    { intros D. destruct (answer_lemma e home m f H HN U O (Ask D)) as (st & R & T1 & T2). destruct (ve_tty e) eqn:T.
      - destruct (T1 eq_refl) as (A & S & Q). exists st, true, (fst (verdict (ve_answer e))), (Some (ve_now e, snd (verdict (ve_answer e)))). split; [exact R|]. split; [now apply ex_asked|]. split; [tauto|]. split; [exact Q|].
        split; [exact S|]. split; [exact Hnow|]. destruct (verdict_cases (ve_answer e)) as [->|[->| ->]]; cbn; tauto.
      - destruct (T2 eq_refl) as (L & S). exists st, false, false, (Some (ve_now e, "ASK")). split; [exact R|]. split; [now apply ex_nobody|]. rewrite L. split; [split; [contradiction|discriminate]|].
        split; [split; [contradiction|intros [X _]; discriminate X]|]. split; [exact S|]. split; [exact Hnow|now left]. }
    destruct mem as [[t d]|]; [|apply Undecided; now left]. destruct Mem as (S & Ht & Hd). destruct Mg as (Sg & _ & _).
    assert (W : word d) by (destruct Hd as [<-|[<-|[<-|[]]]]; reflexivity).
    destruct (Z.lt_ge_cases (ve_now e - t) a_day) as [L|L].
    + assert (R : ve_recent e (Z_to_string t) (ve_now e) = true) by (rewrite (Hc t (ve_now e) Ht Hnow); apply Z.ltb_lt; exact L).
      exists {| vs_fs := g; vs_log := [] |}, false, false, (Some (t, d)). split; [apply Quiet; rewrite (decide_stored e home m HN g [] t d U' Sg W O), R; reflexivity|]. split; [now apply ex_recent|]. cbn [vs_log vs_fs].
      split; [split; [contradiction|discriminate]|]. split; [split; [contradiction|intros [X _]; discriminate X]|]. repeat split; auto; lia.
    + assert (R : ve_recent e (Z_to_string t) (ve_now e) = false) by (rewrite (Hc t (ve_now e) Ht Hnow); apply Z.ltb_ge; exact L).
      destruct Hd as [<-|[<-|[<-|[]]]].
      * apply Undecided. right. exists t. auto.
      * destruct (always_lemma e home m f t H HN U O S) as (st & Rn & S2 & A & Q). exists st, false, true, (Some (t, "ALWAYS")). split; [exact Rn|]. split; [now apply ex_always|]. split; [split; [contradiction|discriminate]|].
        split; [rewrite Q, R; tauto|]. split; [exact S2|]. split; [exact Ht|cbn; tauto].
      * exists {| vs_fs := g; vs_log := [] |}, false, false, (Some (t, "NEVER")). split; [apply Quiet; rewrite (decide_stored e home m HN g [] t "NEVER" U' Sg W O), R; reflexivity|]. split; [now apply ex_never|]. cbn [vs_log vs_fs].
        split; [split; [contradiction|discriminate]|]. split; [split; [contradiction|intros [X _]; discriminate X]|]. split; [exact Sg|]. split; [exact Ht|cbn; tauto].
Qed.

Lemma course_lemma m nd home f l f2 mem : cookie_name m -> history m nd home f l f2 -> remembered nd home (m_app_name m) f mem ->
  exists mem', course mem l mem' /\ remembered nd home (m_app_name m) f2 mem'.
Proof.
  intros HN Hh. revert mem. induction Hh as [f|f f1 e user st l f2 U1 C1 End Eh Hc Hnow Run Hh IH]; intros mem Mem; [exists mem; split; [constructor|exact Mem]|].
  subst nd. destruct (expected_run e home m user f1 mem Eh HN U1 Hc Hnow (remembered_same _ _ _ f _ _ C1 Mem)) as (st' & a & c & mem1 & Run' & X & A & Q & Mem1).
  rewrite Run in Run'. injection Run' as <-. destruct (IH mem1 Mem1) as (mem2 & C & Mem2). exists mem2. split; [|exact Mem2]. econstructor; eauto.
Qed.

(** what is expected is determined *)
Lemma expected_unique e user mem a c mem1 a' c' mem1' : expected e user mem a c mem1 -> expected e user mem a' c' mem1' -> a = a' /\ c = c' /\ mem1 = mem1'.
Proof.
  assert (K : forall mem t d, mem = Some (t, d) -> (mem = None \/ exists t, mem = Some (t, "ASK") /\ a_day <= ve_now e - t) -> d = "ASK" /\ a_day <= ve_now e - t).
  { intros mem0 t d -> [D|(t' & D & L)]; [discriminate D|]. injection D as -> ->. auto. }
  intros H H'. destruct H as [user mem O|b mem O|t d O L|t O L|t O L|mem O D T|mem O D T]; inversion H'; subst; try congruence; auto; try lia;
    try (exfalso; lazymatch goal with D : _ \/ _ |- _ => destruct (K _ _ _ eq_refl D) as [? ?]; try discriminate; lia end).
Qed.

Lemma always_course t l mem' : course (Some (t, "ALWAYS")) l mem' -> forall r, In r l -> ~ asks (r_events r) /\
  (r_user r = None -> ve_opt_out (r_env r) = false -> (requests (r_events r) <-> a_day <= ve_now (r_env r) - t /\ has_program (r_env r))).
Proof.
  intros H. remember (Some (t, "ALWAYS")) as mem eqn:E. induction H as [mem|mem a c mem1 r l mem2 X A Q C IH]; [intros r []|]. subst mem.
  assert (D : (Some (t, "ALWAYS") = None \/ exists t', Some (t, "ALWAYS") = Some (t', "ASK") /\ a_day <= ve_now (r_env r) - t') -> False).
  { intros [D|(t' & D & _)]; discriminate D. }
  assert (Y : mem1 = Some (t, "ALWAYS") /\ a = false /\ (r_user r = None -> ve_opt_out (r_env r) = false -> (c = true <-> a_day <= ve_now (r_env r) - t))).
  { inversion X; subst; try contradiction; repeat split; intros; try congruence; try discriminate; try lia; auto. }
  destruct Y as (-> & -> & Y). specialize (IH eq_refl). intros r' [<-|Hr]; [|auto]. split; [intros K; apply A in K; discriminate K|].
  intros Hu Ho. rewrite Q, (Y Hu Ho). reflexivity.
Qed.

(** ** Nothing can be kept *)

Lemma probe_fails e p (f : fs) l : is_empty (path_join p "dummy.txt") = false -> (exists m, f (comps p) = Some (NDir m) /\ f_writable m = false) -> f (comps p ++ ["dummy.txt"]) = None ->
  (let dummy := path_join p "dummy.txt" in
   do good <- on_fs (fun f => open_write f dummy);
   do _ <- on_fs (fun f => if is_directory f dummy then (f, false) else remove f dummy);
   do removed <- on_fs (fun f => guard_destroy f dummy);
   if negb removed && negb (ve_ndebug e) then fail AssertFail else ret (if good then p else "")) {| vs_fs := f; vs_log := l |} = ({| vs_fs := f; vs_log := l |}, Ret "").
Proof.
  intros Nd (m & F & W) D. cbv zeta. set (d := path_join p "dummy.txt") in *. assert (Hd : comps d = comps p ++ ["dummy.txt"]) by apply comps_dummy.
  assert (PW : parent_writable f (comps d) = false).
  { rewrite Hd. unfold parent_writable, parent_key. rewrite removelast_last, F. destruct (comps p ++ ["dummy.txt"]) eqn:E; [reflexivity|exact W]. }
  assert (L : lookup f d = None) by (rewrite lookup_at by exact Nd; now rewrite Hd).
  assert (E1 : open_write f d = (f, false)). { unfold open_write. rewrite Nd, PW, Hd, D. reflexivity. }
  assert (E2 : (if is_directory f d then (f, false) else remove f d) = (f, false)). { unfold is_directory, remove. now rewrite L. }
  assert (E3 : guard_destroy f d = (f, true)). { unfold guard_destroy, remove_all. now rewrite L. }
  unfold bind. rewrite on_fs_eq. cbn [vs_fs vs_log]. rewrite E1. cbn [fst snd]. rewrite on_fs_eq. cbn [vs_fs vs_log]. rewrite E2. cbn [fst snd].
  rewrite on_fs_eq. cbn [vs_fs vs_log]. rewrite E3. reflexivity.
Qed.

Lemma get_path_nowhere e home f l : ve_home e = Some home -> no_place e home f -> get_path e {| vs_fs := f; vs_log := l |} = ({| vs_fs := f; vs_log := l |}, Ret "").
Proof.
  intros H (c & m & F & W & D & [((m' & C) & ->)|(C & P & T & ->)]); unfold get_path; rewrite H; unfold bind at 1; rewrite on_fs_eq; cbn [vs_fs vs_log].
  - rewrite (create_existing f _ m') by (try (rewrite comps_config; exact C); apply join_nonempty; reflexivity). cbn [fst snd].
    unfold bind at 1. rewrite on_fs_eq. cbn [vs_fs vs_log]. rewrite (create_existing f _ m) by (try (rewrite comps_cookie_dir; exact F); apply join_nonempty; reflexivity). cbn [fst snd].
    unfold bind at 1. cbn [ret]. apply probe_fails; [apply join_nonempty; reflexivity| |]; rewrite comps_cookie_dir; [eauto|exact D].
  - assert (E : create_directory f (path_join home ".config") = (f, true)).
    { unfold create_directory. rewrite join_nonempty by reflexivity. rewrite comps_config, C.
      replace (parent_writable f (config_dir home)) with false; [reflexivity|]. unfold parent_writable, parent_key, config_dir. rewrite removelast_last.
      destruct (comps home ++ [".config"]) eqn:X; [reflexivity|]. destruct (f (comps home)) as [[]|] eqn:Y; auto. symmetry. apply P. reflexivity. }
    rewrite E. cbn [fst snd]. unfold bind at 1. cbn [ret]. unfold bind at 1. unfold temp_directory_path, is_directory. cbn [vs_fs].
    rewrite lookup_at by (destruct (ve_tmp e); [contradiction|reflexivity]). rewrite F. cbn iota.
    apply probe_fails; [apply join_nonempty; reflexivity|eauto|exact D].
Qed.

Definition a_stray (e : venv) (m : meta) : checker :=
  {| ck_name := m_app_name m; ck_version := version_of_app (m_version m); ck_url := m_url m; ck_path := "";
     ck_timestamp := path_join "" (stamp (ve_ndebug e) (m_app_name m)) |}.

(** writing makes no directory and removes none *)
Lemma write_file_dirs f p s k m : fst (write_file p s f) k = Some (NDir m) <-> f k = Some (NDir m).
Proof.
  unfold write_file, open_write. destruct (is_empty p); [reflexivity|]. destruct (list_eqb (comps p) k) eqn:K.
  2: { assert (U : forall g n, upd g (comps p) n k = g k) by (intros; unfold upd; now rewrite K).
       destruct (f (comps p)) as [[c mm| |m0]|] eqn:F; try reflexivity.
       - destruct (f_writable mm); [|reflexivity]. rewrite upd_same. cbn [fst]. rewrite !U. reflexivity.
       - destruct (f_writable m0); [rewrite F|]; reflexivity.
       - destruct (parent_writable f _); [|reflexivity]. rewrite upd_same. cbn [fst]. rewrite !U. reflexivity. }
  apply list_eqb_iff in K. subst k. destruct (f (comps p)) as [[c mm|mm|m0]|] eqn:F.
  - destruct (f_writable mm); [rewrite upd_same; cbn [fst]; rewrite upd_same; split; discriminate|cbn [fst]; rewrite F; split; discriminate].
  - cbn [fst]. rewrite F. reflexivity.
  - destruct (f_writable m0); [rewrite F|]; cbn [fst]; rewrite F; split; discriminate.
  - destruct (parent_writable f _); [rewrite upd_same; cbn [fst]; rewrite upd_same; split; discriminate|cbn [fst]; rewrite F; split; discriminate].
Qed.

Lemma last_inj (a b : key) x y : a ++ [x] = b ++ [y] -> x = y.
Proof. intros H. apply app_inj_tail in H. tauto. Qed.

Lemma stamp_not_config nd name : stamp nd name <> ".config".
Proof. destruct (stamp_ends nd name) as (p & ->). intros E. apply (f_equal last_chr) in E. rewrite last_app in E. discriminate E. Qed.

Lemma no_place_write e home f p s nd name : comps p = [stamp nd name] -> no_place e home f -> no_place e home (fst (write_file p s f)).
Proof.
  intros K (c & m & F & W & D & X). set (g := fst (write_file p s f)). exists c, m.
  assert (Keep : forall a x, x <> stamp nd name -> f (a ++ [x]) = None -> g (a ++ [x]) = None).
  { intros a x N E. rewrite <- E. apply write_file_only. rewrite K. intros Y. apply (last_inj a [] x) in Y. contradiction. }
  split; [now apply write_file_dirs|]. split; [exact W|]. split; [apply Keep; [apply not_eq_sym, stamp_not_dummy|exact D]|].
  destruct X as [((m' & C) & E)|(C & P & T & E)]; [left|right].
  - split; [exists m'; now apply write_file_dirs|exact E].
  - split; [apply Keep; [apply not_eq_sym, stamp_not_config|exact C]|]. split; [|auto]. intros m' G. apply write_file_dirs in G. now apply P.
Qed.

Lemma ask_stray e home m f l : cookie_name m -> no_place e home f ->
  let v := if ve_tty e then verdict (ve_answer e) else (false, "ASK") in
  exists g, ask_or_default e (a_stray e m) {| vs_fs := f; vs_log := l |} = ({| vs_fs := g; vs_log := l ++ if ve_tty e then [Message question] else [] |}, Ret (fst v))
    /\ no_place e home g /\ forall x, x <> stray_cookie (ve_ndebug e) (m_app_name m) -> g x = f x.
Proof.
  intros HN U. cbn zeta. set (k := a_stray e m).
  assert (Hk : comps (ck_timestamp k) = [stamp (ve_ndebug e) (m_app_name m)]). { cbn [k a_stray ck_timestamp]. rewrite comps_join, stamp_plain by exact HN. reflexivity. }
  assert (W : forall msg f l, no_place e home f -> exists g, write_cookie e k msg {| vs_fs := f; vs_log := l |} = ({| vs_fs := g; vs_log := l |}, Ret tt)
    /\ no_place e home g /\ forall x, x <> stray_cookie (ve_ndebug e) (m_app_name m) -> g x = f x).
  { intros msg f0 l0 U0. unfold write_cookie, bind. rewrite on_fs_eq. cbn [vs_fs vs_log ret]. eexists. split; [reflexivity|]. split; [now apply (no_place_write e home f0 _ _ _ _ Hk)|].
    intros x Hx. apply write_file_only. rewrite Hk. exact Hx. }
  unfold ask_or_default. unfold bind at 1. destruct (W "ASK" f l U) as (g & -> & U' & O).
  destruct (ve_tty e); [|exists g; rewrite app_nil_r; split; [reflexivity|auto]].
  unfold ask_user. unfold bind at 1. cbn [log modify vs_fs vs_log].
  destruct (ve_answer e) as [|c a]; [exists g; split; [reflexivity|auto]|].
  assert (V : verdict (String c a) = if Ascii.eqb c "y" then (true, "ASK") else if Ascii.eqb c "a" then (true, "ALWAYS")
                                     else if Ascii.eqb c "n" then (false, "NEVER") else (false, "ASK")).
  { unfold verdict. rewrite !prefix_one. destruct (Ascii.eqb_spec c "y") as [->|N1]; [reflexivity|]. destruct (Ascii.eqb_spec c "a"), (Ascii.eqb c "n"); reflexivity. }
  rewrite V. clear V. destruct (Ascii.eqb c "y"); [exists g; split; [reflexivity|auto]|].
  destruct (Ascii.eqb c "a"); [|destruct (Ascii.eqb c "n"); [|exists g; split; [reflexivity|auto]]].
  - unfold bind. destruct (W "ALWAYS" g (l ++ [Message question]) U') as (h & -> & U'' & O'). exists h. split; [reflexivity|]. split; [exact U''|]. intros x Hx. now rewrite O', O.
  - unfold bind. destruct (W "NEVER" g (l ++ [Message question]) U') as (h & -> & U'' & O'). exists h. split; [reflexivity|]. split; [exact U''|]. intros x Hx. now rewrite O', O.
Qed.

Lemma forgotten e home m user f : ve_home e = Some home -> cookie_name m -> no_place e home f ->
  exists st a c mem', version_check e m true user {| vs_fs := f; vs_log := [] |} = (st, Ret tt) /\ expected e user None a c mem' /\
    (asks (vs_log st) <-> a = true) /\ (requests (vs_log st) <-> c = true /\ has_program e) /\
    no_place e home (vs_fs st) /\ forall k, k <> stray_cookie (ve_ndebug e) (m_app_name m) -> vs_fs st k = f k.
Proof.
  intros H HN U. destruct nothing_asked as [NA NR].
  assert (E : version_checker e (m_app_name m) (m_version m) (m_url m) {| vs_fs := f; vs_log := [] |} = ({| vs_fs := f; vs_log := [] |}, Ret (a_stray e m))).
  { unfold version_checker, bind. rewrite (get_path_nowhere e home f [] H U). rewrite HN. reflexivity. }
  assert (Step : forall st l yes, decide e (a_stray e m) true user {| vs_fs := f; vs_log := [] |} = ({| vs_fs := st; vs_log := l |}, Ret yes) -> ~ requests l ->
    exists l', version_check e m true user {| vs_fs := f; vs_log := [] |} = ({| vs_fs := st; vs_log := l ++ l' |}, Ret tt) /\ ~ asks l' /\ (requests (l ++ l') <-> yes = true /\ has_program e)).
  { intros st l yes D N. unfold version_check. unfold bind at 1. rewrite E. unfold bind at 1. rewrite D. destruct yes.
    - destruct (check_requests e (a_stray e m) {| vs_fs := st; vs_log := l |}) as (l' & C & Q). destruct (logs_check e (a_stray e m) {| vs_fs := st; vs_log := l |}) as (l2 & r & C2 & A).
      rewrite C in C2. injection C2 as C2 _. apply app_inv_head in C2. subst l2. exists l'. rewrite C. split; [reflexivity|]. split; [exact A|].
      unfold requests in *. rewrite existsb_app, orb_true_iff. tauto.
    - exists []. rewrite app_nil_r. split; [reflexivity|]. split; [exact NA|]. split; [contradiction|intros [X _]; discriminate X]. }
  destruct (ve_opt_out e) eqn:O.
  { destruct (Step f [] false) as (l & R & A & Q); [unfold decide; cbn [negb]; now rewrite O|exact NR|]. exists {| vs_fs := f; vs_log := [] ++ l |}, false, false, None.
    split; [exact R|]. split; [now apply ex_opted_out|]. cbn [vs_log vs_fs app] in *. split; [split; [contradiction|discriminate]|]. auto. }
  destruct user as [b|].
  { destruct (Step f [] b) as (l & R & A & Q); [unfold decide; cbn [negb]; now rewrite O|exact NR|]. exists {| vs_fs := f; vs_log := [] ++ l |}, false, b, None.
    split; [exact R|]. split; [now apply ex_told|]. cbn [vs_log vs_fs app] in *. split; [split; [contradiction|discriminate]|]. auto. }
  destruct (ask_stray e home m f [] HN U) as (g & D & Ug & Og). cbn [app] in D. destruct (ve_tty e) eqn:T.
  - destruct (Step g [Message question] (fst (verdict (ve_answer e)))) as (l & R & A & Q).
    { unfold decide. cbn [negb]. rewrite O. cbn [vs_fs a_stray ck_path]. exact D. }
    { discriminate. }
    exists {| vs_fs := g; vs_log := [Message question] ++ l |}, true, (fst (verdict (ve_answer e))), (Some (ve_now e, snd (verdict (ve_answer e)))).
    split; [exact R|]. split; [apply ex_asked; auto|]. split; [split; [reflexivity|intros _; now left]|]. auto.
  - destruct (Step g [] false) as (l & R & A & Q).
    { unfold decide. cbn [negb]. rewrite O. cbn [vs_fs a_stray ck_path]. exact D. }
    { exact NR. }
    exists {| vs_fs := g; vs_log := [] ++ l |}, false, false, (Some (ve_now e, "ASK")).
    split; [exact R|]. split; [apply ex_nobody; auto|]. cbn [vs_log vs_fs app] in *. split; [split; [contradiction|discriminate]|]. auto.
Qed.

(** ** The directory for temporary files *)

Lemma config_refused home (f : fs) : f (config_dir home) = None -> (forall m, f (comps home) = Some (NDir m) -> f_writable m = false) ->
  create_directory f (path_join home ".config") = (f, true).
Proof.
  intros C P. unfold create_directory. rewrite join_nonempty by reflexivity. rewrite comps_config, C.
  replace (parent_writable f (config_dir home)) with false; [reflexivity|]. unfold parent_writable, parent_key, config_dir. rewrite removelast_last.
  destruct (comps home ++ [".config"]) eqn:X; [reflexivity|]. destruct (f (comps home)) as [[]|] eqn:Y; auto. symmetry. now apply P.
Qed.

Lemma get_path_tmp e home name (f : fs) l : ve_home e = Some home -> only_tmp e home name f ->
  exists g, get_path e {| vs_fs := f; vs_log := l |} = ({| vs_fs := g; vs_log := l |}, Ret (ve_tmp e)) /\ forall k, g k = f k.
Proof.
  intros H (C & P & T & (m & F & W) & D & _). unfold get_path. rewrite H. unfold bind. rewrite on_fs_eq. cbn [vs_fs vs_log]. rewrite (config_refused home f C P). cbn [fst snd ret].
  unfold temp_directory_path, is_directory at 1. cbn [vs_fs]. rewrite lookup_at by (destruct (ve_tmp e); [contradiction|reflexivity]). rewrite F. cbn iota.
  set (d := path_join (ve_tmp e) "dummy.txt"). assert (Hd : comps d = comps (ve_tmp e) ++ ["dummy.txt"]) by apply comps_dummy.
  assert (Nd : is_empty d = false) by (apply join_nonempty; reflexivity).
  assert (PW : forall g, g (comps (ve_tmp e)) = Some (NDir m) -> parent_writable g (comps d) = true).
  { intros g Hg. rewrite Hd. unfold parent_writable, parent_key. rewrite removelast_last, Hg. destruct (comps (ve_tmp e) ++ ["dummy.txt"]) eqn:E; [now destruct (comps (ve_tmp e))|exact W]. }
  assert (Other : forall g n, upd g (comps d) n (comps (ve_tmp e)) = g (comps (ve_tmp e))). { intros g n. apply upd_other. rewrite Hd. apply not_eq_sym, longer_key. }
  rewrite on_fs_eq. cbn [vs_fs vs_log]. set (f1 := upd f (comps d) (Some (NFile "" rw))).
  assert (E : open_write f d = (f1, true)). { unfold open_write. rewrite Nd, Hd, D, <- Hd, (PW f F). reflexivity. }
  rewrite E. cbn [fst snd]. rewrite on_fs_eq. cbn [vs_fs vs_log].
  assert (E2 : (if is_directory f1 d then (f1, false) else remove f1 d) = (upd f1 (comps d) None, false)).
  { unfold is_directory, remove. rewrite lookup_at by exact Nd. rewrite PW by (unfold f1; now rewrite Other).
    replace (f1 (comps d)) with (Some (NFile "" rw)) by (unfold f1; now rewrite upd_same). reflexivity. }
  rewrite E2. cbn [fst snd]. rewrite on_fs_eq. cbn [vs_fs vs_log].
  assert (E3 : guard_destroy (upd f1 (comps d) None) d = (upd f1 (comps d) None, true)). { unfold guard_destroy, remove_all. rewrite lookup_at by exact Nd. now rewrite upd_same. }
  rewrite E3. cbn [fst snd negb andb]. eexists. split; [reflexivity|]. intros k. destruct (list_eqb (comps d) k) eqn:K.
  - apply list_eqb_iff in K. subst k. rewrite upd_same, Hd. now rewrite D.
  - unfold f1, upd. now rewrite K.
Qed.

Lemma only_tmp_ext e home name f g : (forall k, g k = f k) -> only_tmp e home name f -> only_tmp e home name g.
Proof. intros E. unfold only_tmp. rewrite !E. intros (A & B & R). split; [exact A|]. split; [intros m; apply B|exact R]. Qed.

Section tmp.
Variables (e : venv) (home : string) (m : meta).
Hypothesis HN : cookie_name m.
Let K := tmp_cookie e (m_app_name m).
Let k := {| ck_name := m_app_name m; ck_version := version_of_app (m_version m); ck_url := m_url m; ck_path := ve_tmp e;
            ck_timestamp := path_join (ve_tmp e) (stamp (ve_ndebug e) (m_app_name m)) |}.

Lemma tmp_comps : comps (ck_timestamp k) = K.
Proof. cbn [k ck_timestamp]. rewrite comps_join, stamp_plain by exact HN. reflexivity. Qed.
Lemma tmp_nonempty : is_empty (ck_timestamp k) = false.
Proof. apply join_nonempty. unfold stamp. unfold cookie_name in HN. destruct (m_app_name m) as [|c r]; [discriminate HN|reflexivity]. Qed.

Lemma write_tmp f l msg : only_tmp e home (m_app_name m) f ->
  exists g mm, write_cookie e k msg {| vs_fs := f; vs_log := l |} = ({| vs_fs := g; vs_log := l |}, Ret tt)
    /\ g K = Some (NFile (Z_to_string (ve_now e) +s+ nl +s+ msg) mm) /\ only_tmp e home (m_app_name m) g.
Proof.
  intros U. unfold write_cookie, bind. rewrite on_fs_eq. cbn [vs_fs vs_log ret]. set (s := _ +s+ nl +s+ msg).
  assert (U0 := U). destruct U0 as (C & P & T & (m2 & U2 & W2) & D & U0).
  assert (X : exists mm, f_readable mm = true /\ f_writable mm = true /\ fst (write_file (ck_timestamp k) s f) K = Some (NFile s mm)).
  { unfold write_file, open_write. rewrite tmp_nonempty, tmp_comps. fold K in U0. destruct U0 as [U0|(c & mm & U0 & R & W)].
    - rewrite U0. assert (PW : parent_writable f K = true).
      { unfold parent_writable, parent_key, K, tmp_cookie, stray_cookie. rewrite removelast_last, U2. now destruct (comps (ve_tmp e)). }
      rewrite PW. exists rw. split; [reflexivity|]. split; [reflexivity|]. rewrite upd_same. cbn [fst]. now rewrite upd_same.
    - rewrite U0, W. exists mm. split; [exact R|]. split; [exact W|]. rewrite upd_same. cbn [fst]. now rewrite upd_same. }
  destruct X as (mm & R & W & X). set (g := fst (write_file _ _ _)) in *. exists g, mm. split; [reflexivity|]. split; [exact X|].
  assert (Keep : forall a x, x <> stamp (ve_ndebug e) (m_app_name m) -> f (a ++ [x]) = None -> g (a ++ [x]) = None).
  { intros a x N E. rewrite <- E. apply write_file_only. rewrite tmp_comps. intros Y. apply (last_inj a (comps (ve_tmp e)) x) in Y. contradiction. }
  split; [apply Keep; [apply not_eq_sym, stamp_not_config|exact C]|]. split; [intros m' G; apply write_file_dirs in G; now apply P|]. split; [exact T|].
  split; [exists m2; split; [now apply write_file_dirs|exact W2]|]. split; [apply Keep; [apply not_eq_sym, stamp_not_dummy|exact D]|]. right. exists s, mm. auto.
Qed.

Lemma ask_tmp f l : only_tmp e home (m_app_name m) f ->
  let v := if ve_tty e then verdict (ve_answer e) else (false, "ASK") in
  exists g mm, ask_or_default e k {| vs_fs := f; vs_log := l |} = ({| vs_fs := g; vs_log := l ++ if ve_tty e then [Message question] else [] |}, Ret (fst v))
    /\ g K = Some (NFile (Z_to_string (ve_now e) +s+ nl +s+ snd v) mm) /\ only_tmp e home (m_app_name m) g.
Proof.
  intros U. cbn zeta. unfold ask_or_default. unfold bind at 1. destruct (write_tmp f l "ASK" U) as (g & mm & -> & S & U').
  destruct (ve_tty e); [|exists g, mm; rewrite app_nil_r; split; [reflexivity|auto]].
  unfold ask_user. unfold bind at 1. cbn [log modify vs_fs vs_log].
  destruct (ve_answer e) as [|c a]; [exists g, mm; split; [reflexivity|auto]|].
  assert (V : verdict (String c a) = if Ascii.eqb c "y" then (true, "ASK") else if Ascii.eqb c "a" then (true, "ALWAYS")
                                     else if Ascii.eqb c "n" then (false, "NEVER") else (false, "ASK")).
  { unfold verdict. rewrite !prefix_one. destruct (Ascii.eqb_spec c "y") as [->|N1]; [reflexivity|]. destruct (Ascii.eqb_spec c "a"), (Ascii.eqb c "n"); reflexivity. }
  rewrite V. clear V. destruct (Ascii.eqb c "y"); [exists g, mm; split; [reflexivity|auto]|].
  destruct (Ascii.eqb c "a"); [|destruct (Ascii.eqb c "n"); [|exists g, mm; split; [reflexivity|auto]]].
  - unfold bind. destruct (write_tmp g (l ++ [Message question]) "ALWAYS" U') as (h & mh & -> & S' & U''). exists h, mh. auto.
  - unfold bind. destruct (write_tmp g (l ++ [Message question]) "NEVER" U') as (h & mh & -> & S' & U''). exists h, mh. auto.
Qed.

Lemma read_tmp (f : fs) : only_tmp e home (m_app_name m) f ->
  (if exists_ f (ck_path k) then read_file f (ck_timestamp k) else None) = match f K with Some (NFile s _) => Some s | _ => None end.
Proof.
  intros (_ & _ & T & (m2 & U2 & _) & _ & U). unfold exists_. cbn [ck_path k]. rewrite lookup_at by (destruct (ve_tmp e); [contradiction|reflexivity]). rewrite U2.
  unfold read_file, open_read. rewrite lookup_at by exact tmp_nonempty. rewrite tmp_comps. fold K in U. destruct U as [->|(s & mm & -> & R & _)]; [reflexivity|]. now rewrite R.
Qed.

Lemma tmp_run user f mem : ve_home e = Some home -> only_tmp e home (m_app_name m) f -> clock_ok (ve_recent e) -> 0 <= ve_now e < 2 ^ 53 -> remembered_tmp e (m_app_name m) f mem ->
  exists st a c mem', version_check e m true user {| vs_fs := f; vs_log := [] |} = (st, Ret tt) /\ expected e user mem a c mem' /\
    (asks (vs_log st) <-> a = true) /\ (requests (vs_log st) <-> c = true /\ has_program e) /\
    only_tmp e home (m_app_name m) (vs_fs st) /\ remembered_tmp e (m_app_name m) (vs_fs st) mem'.
Proof.
  intros H Uf Hc Hnow Mf. destruct nothing_asked as [NA NR]. destruct (get_path_tmp e home _ f [] H Uf) as (g & E0 & G).
  assert (E : version_checker e (m_app_name m) (m_version m) (m_url m) {| vs_fs := f; vs_log := [] |} = ({| vs_fs := g; vs_log := [] |}, Ret k)).
  { unfold version_checker, bind. rewrite E0. unfold cookie_name in HN. rewrite HN. reflexivity. }
  assert (U := only_tmp_ext _ _ _ f g G Uf).
  assert (Mg : remembered_tmp e (m_app_name m) g mem). { destruct mem as [[t d]|]; cbn in *; now rewrite G. }
  clear Uf Mf E0.
  assert (Step : forall h l yes, decide e k true user {| vs_fs := g; vs_log := [] |} = ({| vs_fs := h; vs_log := l |}, Ret yes) -> ~ requests l ->
    exists l', version_check e m true user {| vs_fs := f; vs_log := [] |} = ({| vs_fs := h; vs_log := l ++ l' |}, Ret tt) /\ ~ asks l' /\ (requests (l ++ l') <-> yes = true /\ has_program e)).
  { intros h l yes D N. unfold version_check. unfold bind at 1. rewrite E. unfold bind at 1. rewrite D. destruct yes.
    - destruct (check_requests e k {| vs_fs := h; vs_log := l |}) as (l' & C & Q). destruct (logs_check e k {| vs_fs := h; vs_log := l |}) as (l2 & r & C2 & A).
      rewrite C in C2. injection C2 as C2 _. apply app_inv_head in C2. subst l2. exists l'. rewrite C. split; [reflexivity|]. split; [exact A|].
      unfold requests in *. rewrite existsb_app, orb_true_iff. tauto.
    - exists []. rewrite app_nil_r. split; [reflexivity|]. split; [exact NA|]. split; [contradiction|intros [X _]; discriminate X]. }
  assert (Same : forall yes, decide e k true user {| vs_fs := g; vs_log := [] |} = ({| vs_fs := g; vs_log := [] |}, Ret yes) -> expected e user mem false yes mem ->
    exists st a c mem', version_check e m true user {| vs_fs := f; vs_log := [] |} = (st, Ret tt) /\ expected e user mem a c mem' /\
    (asks (vs_log st) <-> a = true) /\ (requests (vs_log st) <-> c = true /\ has_program e) /\
    only_tmp e home (m_app_name m) (vs_fs st) /\ remembered_tmp e (m_app_name m) (vs_fs st) mem').
  { intros yes D X. destruct (Step g [] yes D NR) as (l & R & A & Q). exists {| vs_fs := g; vs_log := [] ++ l |}, false, yes, mem. split; [exact R|]. split; [exact X|].
    cbn [vs_log vs_fs app] in *. split; [split; [contradiction|discriminate]|]. auto. }
  destruct (ve_opt_out e) eqn:O; [apply (Same false); [unfold decide; cbn [negb]; now rewrite O|now apply ex_opted_out]|].
  destruct user as [b|]; [apply (Same b); [unfold decide; cbn [negb]; now rewrite O|now apply ex_told]|].
  assert (Ask : decide e k true None {| vs_fs := g; vs_log := [] |} = ask_or_default e k {| vs_fs := g; vs_log := [] |} -> mem = None \/ (exists t, mem = Some (t, "ASK") /\ a_day <= ve_now e - t) ->
    exists st a c mem', version_check e m true None {| vs_fs := f; vs_log := [] |} = (st, Ret tt) /\ expected e None mem a c mem' /\
    (asks (vs_log st) <-> a = true) /\ (requests (vs_log st) <-> c = true /\ has_program e) /\
    only_tmp e home (m_app_name m) (vs_fs st) /\ remembered_tmp e (m_app_name m) (vs_fs st) mem').
  { intros D X. destruct (ask_tmp g [] U) as (h & mm & A & S & Uh). rewrite A in D. cbn [app] in D. fold K in S. destruct (ve_tty e) eqn:T.
    - destruct (Step h [Message question] _ D) as (l & R & N & Q); [discriminate|].
      exists {| vs_fs := h; vs_log := [Message question] ++ l |}, true, (fst (verdict (ve_answer e))), (Some (ve_now e, snd (verdict (ve_answer e)))).
      split; [exact R|]. split; [now apply ex_asked|]. split; [split; [reflexivity|intros _; now left]|]. split; [exact Q|]. split; [exact Uh|]. split; [exists mm; exact S|]. split; [exact Hnow|].
      destruct (verdict_cases (ve_answer e)) as [->|[->| ->]]; cbn; tauto.
    - destruct (Step h [] _ D NR) as (l & R & N & Q). exists {| vs_fs := h; vs_log := [] ++ l |}, false, false, (Some (ve_now e, "ASK")).
      split; [exact R|]. split; [now apply ex_nobody|]. cbn [vs_log vs_fs app fst snd] in *. split; [split; [contradiction|discriminate]|]. split; [exact Q|]. split; [exact Uh|].
      split; [exists mm; exact S|]. split; [exact Hnow|now left]. }
  assert (RD := read_tmp g U). fold K in RD.
  destruct mem as [[t d]|].
  2: { apply Ask; [|now left]. unfold decide. cbn [negb]. rewrite O. cbn [vs_fs]. cbn in Mg. fold K in Mg. rewrite RD, Mg. reflexivity. }
  destruct Mg as ((mm & S) & Ht & Hd). fold K in S. rewrite S in RD.
  assert (W : scontains "010" d = false) by (destruct Hd as [<-|[<-|[<-|[]]]]; reflexivity).
  assert (D : decide e k true None {| vs_fs := g; vs_log := [] |} =
    (if ve_recent e (Z_to_string t) (ve_now e) then ({| vs_fs := g; vs_log := [] |}, Ret false)
     else if String.eqb d "NEVER" then ({| vs_fs := g; vs_log := [] |}, Ret false)
     else if String.eqb d "ALWAYS" then ({| vs_fs := g; vs_log := [] |}, Ret true)
     else ask_or_default e k {| vs_fs := g; vs_log := [] |})).
  { unfold decide. cbn [negb]. rewrite O. cbn [vs_fs]. rewrite RD. unfold getline at 1. rewrite cut_line_nl by apply Z_string_no_nl. destruct (ve_recent e _ _); [reflexivity|].
    unfold getline. rewrite cut_line_end by exact W. reflexivity. }
  rewrite (Hc t (ve_now e) Ht Hnow) in D. fold a_day in D. destruct (Z.ltb_spec (ve_now e - t) a_day) as [L|L].
  - apply (Same false); [exact D|now apply ex_recent].
  - destruct Hd as [<-|[<-|[<-|[]]]].
    + apply Ask; [exact D|right; exists t; auto].
    + apply (Same true); [exact D|now apply ex_always].
    + apply (Same false); [exact D|now apply ex_never].
Qed.

End tmp.
