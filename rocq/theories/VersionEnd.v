(** Proofs: how the version check ends (C62), and which directories are one word for the shell (C64). *)
From Verif Require Import Base StrLib Fs FormatParse Parser VersionCheck VersionSpec VersionProofs VersionRuns VersionEndSpec.

Lemma pw_at f (d : key) x : parent_writable f (d ++ [x]) = match f d with Some (NDir m) => f_writable m | _ => false end.
Proof. unfold parent_writable, parent_key. rewrite removelast_last. now destruct d. Qed.

(** the probe with dummy.txt in the directory [p] *)
Lemma probe_exact f p : let d := path_join p "dummy.txt" in let f1 := fst (open_write f d) in
  let f2 := fst (if is_directory f1 d then (f1, false) else remove f1 d) in
  has_dir f (comps p) -> (snd (guard_destroy f2 d) = false <-> stuck f (comps p)).
Proof.
  cbv zeta. set (d := path_join p "dummy.txt"). assert (Hd : comps d = comps p ++ ["dummy.txt"]) by apply comps_dummy.
  assert (Nd : is_empty d = false) by (apply join_nonempty; reflexivity). intros [m Hm].
  assert (PW : forall g, g (comps p) = f (comps p) -> parent_writable g (comps d) = f_writable m).
  { intros g Hg. now rewrite Hd, pw_at, Hg, Hm. }
  assert (NE : comps d <> comps p) by (rewrite Hd; apply not_eq_sym, longer_key).
  set (f1 := fst (open_write f d)). assert (H1 : f1 (comps p) = f (comps p)) by (apply open_write_only; congruence).
  assert (E1 : f1 (comps d) = None <-> f (comps d) = None /\ f_writable m = false).
  { unfold f1, open_write. rewrite Nd, (PW f eq_refl). destruct (f (comps d)) as [[s n|n|n]|] eqn:E.
    - destruct (f_writable n); cbn [fst]; rewrite ?upd_same, ?E; split; try easy; intros [? _]; discriminate.
    - cbn [fst]. rewrite E. split; [easy|intros [? _]; discriminate].
    - cbn [fst]. rewrite E. split; [easy|intros [? _]; discriminate].
    - destruct (f_writable m); cbn [fst]; rewrite ?upd_same, ?E; split; try easy. }
  set (f2 := fst (if is_directory f1 d then (f1, false) else remove f1 d)).
  assert (H2 : f2 (comps p) = f (comps p)).
  { unfold f2. destruct (is_directory f1 d); [exact H1|]. rewrite remove_only by congruence. exact H1. }
  assert (G : snd (guard_destroy f2 d) = match f2 (comps d) with None => true | Some _ => f_writable m end).
  { unfold guard_destroy, remove_all. rewrite lookup_at by exact Nd. rewrite (PW f2 H2). destruct (f2 (comps d)); [destruct (f_writable m)|]; reflexivity. }
  assert (E2 : f_writable m = false -> f2 (comps d) = f1 (comps d)).
  { intros w. unfold f2. destruct (is_directory f1 d); [reflexivity|]. unfold remove. rewrite lookup_at by exact Nd. rewrite (PW f1 H1), w. destruct (f1 (comps d)) eqn:X; exact X. }
  rewrite G. unfold stuck, closed_dir. rewrite <- Hd. split.
  - intros h. destruct (f2 (comps d)) as [n|]; [|discriminate]. pose proof (E2 h) as X. split; [eauto|]. intros N.
    assert (Q : f1 (comps d) = None) by (apply E1; auto). rewrite Q in X. discriminate X.
  - intros [(m' & Hm' & w) N]. rewrite Hm in Hm'. injection Hm' as <-. rewrite (E2 w).
    destruct (f1 (comps d)); [exact w|]. destruct (proj1 E1 eq_refl) as [X _]. now destruct N.
Qed.

Lemma create_dir f p (d : key) x : is_empty p = false -> comps p = d ++ [x] ->
  (snd (create_directory f p) = false <-> has_dir f (d ++ [x]) \/ f (d ++ [x]) = None /\ open_dir f d) /\
  (snd (create_directory f p) = true -> fst (create_directory f p) = f) /\
  (has_dir f (d ++ [x]) -> fst (create_directory f p) = f) /\
  (snd (create_directory f p) = false -> f (d ++ [x]) = None -> fst (create_directory f p) = upd f (d ++ [x]) (Some (NDir rw))).
Proof.
  intros Ne Hp. unfold create_directory, has_dir, open_dir. rewrite Ne, Hp, pw_at. destruct (f (d ++ [x])) as [[s n|n|n]|] eqn:E.
  - cbn. repeat split; try easy; [intros [[m H]|[H _]]; discriminate].
  - cbn. repeat split; eauto; try easy.
  - cbn. repeat split; try easy; [intros [[m H]|[H _]]; discriminate].
  - destruct (f d) as [[s n|n|n]|] eqn:D; [| |..]; try destruct (f_writable n) eqn:W; cbn; (split; [split; [intros h; try discriminate h; eauto 6|]|split; [|split]]); try easy;
      try (intros [m h]; discriminate); intros [[m h]|[_ [m [h h']]]]; try discriminate; congruence.
Qed.

(** what the first two steps of get_path leave *)
Lemma obtain f home : rooted home f ->
  let c := path_join home ".config" in let d := path_join c "seqan" in
  let f1 := fst (create_directory f c) in let e1 := snd (create_directory f c) in
  let e2 := if e1 then true else snd (create_directory f1 d) in
  let f2 := if e1 then f1 else fst (create_directory f1 d) in
  (e2 = false <-> obtainable home f) /\ (e2 = true -> f2 = f) /\
  (e2 = false -> has_dir f2 (cookie_dir home) /\ (stuck f2 (cookie_dir home) <-> stuck f (cookie_dir home))).
Proof.
  intros R. cbv zeta. set (c := path_join home ".config"). set (d := path_join c "seqan").
  assert (Nc : is_empty c = false) by (apply join_nonempty; reflexivity). assert (Nd : is_empty d = false) by (apply join_nonempty; reflexivity).
  destruct (create_dir f c (comps home) ".config" Nc (comps_config home)) as (C1 & C2 & C3 & C4). fold (config_dir home) in *.
  set (f1 := fst (create_directory f c)) in *. set (e1 := snd (create_directory f c)) in *.
  destruct (create_dir f1 d (config_dir home) "seqan" Nd (comps_cookie_dir home)) as (D1 & D2 & D3 & D4). fold (cookie_dir home) in *.
  assert (NE : config_dir home <> cookie_dir home) by apply longer_key.
  assert (ND : cookie_dir home <> cookie_dir home ++ ["dummy.txt"]) by apply longer_key.
  destruct e1.
  - split; [|split; [intros _; now apply C2|easy]]. split; [easy|]. intros [[H _]|[H H']]; [|]; exfalso; assert (X : true = false) by (apply C1; auto); discriminate.
  - assert (X : has_dir f (config_dir home) \/ f (config_dir home) = None /\ open_dir f (comps home)) by now apply C1.
    destruct X as [X|[X X']].
    + assert (F1 : f1 = f) by now apply C3. rewrite F1 in *. clear C3 C4. set (g := fst (create_directory f d)) in *. set (e2 := snd (create_directory f d)) in *.
      split; [|split].
      * rewrite D1. unfold obtainable. split; [intros H; left; auto|]. intros [[_ H]|[H _]]; [exact H|]. destruct X as [m X]. congruence.
      * exact D2.
      * intros E. assert (Y := proj1 D1 E). destruct Y as [Y|[Y Y']]; [rewrite (D3 Y); easy|]. rewrite (D4 E Y). split; [exists rw; apply upd_same|].
        unfold stuck, closed_dir. rewrite upd_same. split; [intros [(m & H & W) _]; injection H as <-; discriminate|intros [(m & H & _) _]; congruence].
    + assert (F1 : f1 = upd f (config_dir home) (Some (NDir rw))) by now apply C4. assert (K : f (cookie_dir home) = None) by now apply R.
      assert (K1 : f1 (cookie_dir home) = None) by (rewrite F1, upd_other; assumption).
      assert (O1 : open_dir f1 (config_dir home)) by (exists rw; rewrite F1, upd_same; auto).
      assert (E2 : snd (create_directory f1 d) = false) by (apply D1; auto). rewrite E2. split; [|split; [easy|]].
      * split; [intros _; right; auto|easy].
      * intros _. rewrite (D4 E2 K1). split; [exists rw; apply upd_same|].
        unfold stuck, closed_dir. rewrite upd_same. split; [intros [(m & H & W) _]; injection H as <-; discriminate|intros [(m & H & _) _]; congruence].
Qed.

Lemma get_path_ends e st : (forall home, ve_home e = Some home -> rooted home (vs_fs st)) ->
  exists x, ends e (vs_fs st) x /\ match x with
  | Goes_on => exists st' p, get_path e st = (st', Ret p)
  | Undefined => snd (get_path e st) = UB
  | No_temporary => snd (get_path e st) = Throw (Exn KStdOther "filesystem error: temp_directory_path")
  | Assertion => snd (get_path e st) = AssertFail
  end.
Proof.
  intros R. remember (get_path e st) as r eqn:Hr. unfold get_path in Hr. destruct (ve_home e) as [home|] eqn:H; [|exists Undefined; split; [now constructor|now subst]].
  specialize (R home eq_refl). destruct (obtain (vs_fs st) home R) as (A & B & C). set (f := vs_fs st) in *.
  unfold bind at 1 in Hr. rewrite on_fs_eq in Hr. cbn [vs_fs vs_log] in Hr. fold f in Hr.
  set (c := path_join home ".config") in *. set (d := path_join c "seqan") in *.
  set (f1 := fst (create_directory f c)) in *. set (e1 := snd (create_directory f c)) in *.
  set (e2 := if e1 then true else snd (create_directory f1 d)) in *. set (f2 := if e1 then f1 else fst (create_directory f1 d)) in *.
  assert (S2 : (if e1 then ret true else on_fs (fun g => create_directory g d)) {| vs_fs := f1; vs_log := vs_log st |} = ({| vs_fs := f2; vs_log := vs_log st |}, Ret e2)).
  { unfold e2, f2. destruct e1; [reflexivity|]. now rewrite on_fs_eq. }
  unfold bind at 1 in Hr. rewrite S2 in Hr. clear S2. clearbody f1 e1 e2 f2.
  assert (Y : forall p, let r0 := (do good <- on_fs (fun f => open_write f (path_join p "dummy.txt"));
              do _ <- on_fs (fun f => if is_directory f (path_join p "dummy.txt") then (f, false) else remove f (path_join p "dummy.txt"));
              do removed <- on_fs (fun f => guard_destroy f (path_join p "dummy.txt"));
              if negb removed && negb (ve_ndebug e) then fail AssertFail else ret (if good then p else "")) {| vs_fs := f2; vs_log := vs_log st |} in
      has_dir f2 (comps p) ->
      (stuck f2 (comps p) /\ ve_ndebug e = false /\ snd r0 = AssertFail) \/ ((ve_ndebug e = true \/ ~ stuck f2 (comps p)) /\ exists st' q, r0 = (st', Ret q))).
  { intros p. cbv zeta. unfold bind. rewrite !on_fs_eq. cbn [vs_fs vs_log]. intros hd. pose proof (probe_exact f2 p hd) as P. cbv zeta in P.
    destruct (snd (guard_destroy _ _)); cbn [negb andb].
    - right. split; [right; intros X; apply P in X; discriminate|eexists; eexists; reflexivity].
    - destruct (ve_ndebug e); cbn [negb]; [right; split; [now left|eexists; eexists; reflexivity]|left]. split; [now apply P|auto]. }
  unfold bind at 1 in Hr. destruct e2.
  - assert (F2 : f2 = f) by now apply B. rewrite F2 in *. assert (NO : ~ obtainable home f) by (intros X; apply A in X; discriminate).
    unfold temp_directory_path in Hr. cbn [vs_fs] in Hr. destruct (is_directory f (ve_tmp e)) eqn:T.
    + assert (TT : temporary e f).
      { unfold is_directory, lookup in T. split; [intros X; rewrite X in T; discriminate|]. destruct (is_empty (ve_tmp e)); [discriminate|].
        destruct (f (comps (ve_tmp e))) as [[]|] eqn:E; try discriminate. eexists; exact E. }
      destruct (Y (ve_tmp e) (proj2 TT)) as [(Y1 & Y2 & Y3)|(Y1 & Y2)].
      * exists Assertion. split; [now apply (en_stuck_tmp e f home)|now rewrite Hr].
      * exists Goes_on. split; [now apply (en_temporary e f home)|rewrite Hr; exact Y2].
    + exists No_temporary. split; [|now rewrite Hr]. apply (en_tmp e f home); auto. intros [T1 [m T2]].
      unfold is_directory, lookup in T. rewrite T2 in T. destruct (ve_tmp e); [now apply T1|discriminate].
  - destruct (C eq_refl) as [C1 C2]. assert (OB : obtainable home f) by now apply A. cbn [ret] in Hr.
    assert (HD : has_dir f2 (comps d)) by (unfold d, c; rewrite comps_cookie_dir; exact C1).
    destruct (Y d HD) as [(Y1 & Y2 & Y3)|(Y1 & Y2)]; unfold d, c in Y1; rewrite comps_cookie_dir in Y1; rewrite C2 in Y1.
    + exists Assertion. split; [now apply (en_stuck e f home)|now rewrite Hr].
    + exists Goes_on. split; [now apply (en_config e f home)|rewrite Hr; exact Y2].
Qed.

Lemma ends_fun e f x y : ends e f x -> ends e f y -> x = y.
Proof. intros h h'. inversion h; inversion h'; subst; try reflexivity; exfalso; repeat match goal with A : ve_home e = Some _, B : ve_home e = _ |- _ => rewrite A in B; try discriminate B; injection B as ->  end; intuition congruence. Qed.

Lemma check_ends e m on user st x : name_matches (m_app_name m) = true -> (forall home, ve_home e = Some home -> rooted home (vs_fs st)) ->
  (snd (version_check e m on user st) = result_of x <-> ends e (vs_fs st) x).
Proof.
  intros HN R. destruct (get_path_ends e st R) as (y & Hy & G).
  assert (E : snd (version_check e m on user st) = result_of y).
  { unfold version_check, version_checker. unfold bind at 1 2. destruct (get_path e st) as [st1 r]. destruct y; cbn [snd] in G.
    - destruct G as (st' & p & G). injection G as -> ->. rewrite HN. cbn [negb andb ret]. unfold bind.
      match goal with |- context [decide e ?k on user st'] => destruct (cookie_ret e k on user st') as (st2 & b & ->); destruct b; [destruct (logs_check e k st2) as (l & [] & -> & _)|] end; reflexivity.
    - subst r. reflexivity.
    - subst r. reflexivity.
    - subst r. reflexivity. }
  rewrite E. split.
  - intros X. assert (y = x) by (destruct y, x; cbn in X; congruence). now subst.
  - intros X. now rewrite (ends_fun e _ _ _ Hy X).
Qed.
Lemma ends_total e f : (forall home, ve_home e = Some home -> rooted home f) -> exists x, ends e f x.
Proof. intros R. destruct (get_path_ends e {| vs_fs := f; vs_log := [] |} R) as (y & Hy & _). eauto. Qed.
