(** Overlapping runs of the version check while a decision is in force. *)
From Verif Require Import Base StrLib Fs Values ValuesSpec FormatParse Parser VersionCheck VersionSpec ValuesProofs VersionProofs VersionRuns VersionSteps OverlapSpec VersionStepsProofs VersionOverlap.

Section quiet.
Variables (nd : bool) (home name : string) (content : string) (mm : fmeta).
Hypothesis mm_readable : f_readable mm = true.
Let K := cookie nd home name.
Let Inv (f : fs) : Prop := ready home f /\ f K = Some (NFile content mm).
Let dummy := cookie_dir home ++ ["dummy.txt"].

Lemma K_others : K <> config_dir home /\ K <> cookie_dir home /\ K <> dummy.
Proof. apply cookie_others. Qed.

(** writing files elsewhere *)
Lemma inv_upd f k n : k <> config_dir home -> k <> cookie_dir home -> k <> dummy -> k <> K -> Inv f -> Inv (upd f k n).
Proof.
  intros N1 N2 N3 N4 ((R1 & R2 & R3) & R4). fold dummy in R3. unfold Inv, ready. fold dummy. rewrite !upd_other by assumption. auto.
Qed.

Lemma dummy_comps : comps (path_join (seqan_dir home) "dummy.txt") = dummy.
Proof. rewrite comps_dummy. unfold seqan_dir. now rewrite comps_cookie_dir. Qed.
Lemma dummy_nonempty : is_empty (path_join (seqan_dir home) "dummy.txt") = false.
Proof. apply join_nonempty. reflexivity. Qed.
Lemma dummy_others : dummy <> config_dir home /\ dummy <> cookie_dir home.
Proof.
  unfold dummy. split; intros H.
  - unfold cookie_dir in H. rewrite <- app_assoc in H. apply (f_equal (@List.length string)) in H. rewrite app_length in H. cbn in H. lia.
  - exact (longer_key _ _ (eq_sym H)).
Qed.
Lemma in_dir_writable f x : Inv f -> parent_writable f (cookie_dir home ++ [x]) = true.
Proof.
  intros ((_ & (m & R1 & R2) & _) & _). unfold parent_writable, parent_key. rewrite removelast_last, R1. destruct (cookie_dir home ++ [x]) eqn:E; [now destruct (cookie_dir home)|exact R2].
Qed.

Lemma probe_open f : Inv f -> Inv (fst (open_write f (path_join (seqan_dir home) "dummy.txt"))) /\ snd (open_write f (path_join (seqan_dir home) "dummy.txt")) = true.
Proof.
  intros HI. pose proof (in_dir_writable f "dummy.txt" HI) as PW. fold dummy in PW. pose proof HI as ((R1 & R2 & R3) & R4). fold dummy in R3.
  unfold open_write. rewrite dummy_nonempty, dummy_comps.
  assert (X : forall n, (n = None \/ exists c m, n = Some (NFile c m) /\ f_writable m = true) -> Inv (upd f dummy n)).
  { intros n Hn. destruct dummy_others as [N1 N2]. destruct K_others as (_ & _ & N3). unfold Inv, ready. fold dummy. rewrite upd_same, !upd_other by auto. auto. }
  destruct R3 as [->|(c & m & -> & W)].
  - rewrite PW. cbn. split; [apply X|reflexivity]. right. now exists "", rw.
  - rewrite W. cbn. split; [apply X|reflexivity]. right. now exists "", m.
Qed.

Lemma prefix_longer (a : key) x k : list_prefixb (a ++ [x]) k = true -> List.length a < List.length k.
Proof.
  revert k. induction a as [|y a IH]; intros [|z k]; cbn; try discriminate; try lia. rewrite andb_true_iff. intros [_ H]. specialize (IH k H). lia.
Qed.
Lemma prefix_same (a : key) x y : list_prefixb (a ++ [x]) (a ++ [y]) = true -> x = y.
Proof.
  induction a as [|z a IH]; cbn; rewrite andb_true_iff; intros [H1 H2]; [now apply String.eqb_eq|auto].
Qed.

Lemma probe_remove f : Inv f -> let '(g, _) := if is_directory f (path_join (seqan_dir home) "dummy.txt") then (f, false) else remove f (path_join (seqan_dir home) "dummy.txt") in Inv g.
Proof.
  intros HI. destruct (is_directory f _); [exact HI|]. unfold remove. destruct (lookup f _); [|exact HI]. rewrite dummy_comps. unfold dummy.
  rewrite (in_dir_writable f _ HI). destruct dummy_others as [N1 N2]. destruct K_others as (_ & _ & N3). destruct HI as ((R1 & R2 & R3) & R4).
  unfold Inv, ready. fold dummy. rewrite upd_same, !upd_other by auto. auto.
Qed.
Lemma probe_guard f : Inv f -> Inv (fst (guard_destroy f (path_join (seqan_dir home) "dummy.txt"))) /\ snd (guard_destroy f (path_join (seqan_dir home) "dummy.txt")) = true.
Proof.
  intros HI. unfold guard_destroy, remove_all. destruct (lookup f _); [|now split]. rewrite dummy_comps. unfold dummy at 1 3. rewrite (in_dir_writable f _ HI). cbn [fst snd negb]. split; [|reflexivity].
  destruct HI as ((R1 & R2 & R3) & R4). unfold Inv, ready. fold dummy. rewrite prefixb_refl.
  assert (E1 : list_prefixb dummy (config_dir home) = false).
  { destruct (list_prefixb dummy (config_dir home)) eqn:E; [|reflexivity]. apply prefix_longer in E. unfold cookie_dir in E. rewrite app_length in E. lia. }
  assert (E2 : list_prefixb dummy (cookie_dir home) = false).
  { destruct (list_prefixb dummy (cookie_dir home)) eqn:E; [|reflexivity]. apply prefix_longer in E. lia. }
  assert (E3 : list_prefixb dummy K = false).
  { destruct (list_prefixb dummy K) eqn:E; [|reflexivity]. apply prefix_same in E. exfalso. exact (stamp_not_dummy nd name (eq_sym E)). }
  rewrite E1, E2, E3. auto.
Qed.

Lemma config_there f : Inv f -> create_directory f (path_join home ".config") = (f, false).
Proof. intros (((m & R) & _) & _). apply (create_existing _ _ m); [apply join_nonempty; reflexivity|]. now rewrite comps_config. Qed.
Lemma seqan_there f : Inv f -> create_directory f (path_join (path_join home ".config") "seqan") = (f, false).
Proof. intros ((_ & (m & R & _) & _) & _). apply (create_existing _ _ m); [apply join_nonempty; reflexivity|]. now rewrite comps_cookie_dir. Qed.

Section run.
Variables (l : launch) (Ok : event -> Prop).
Let e := l_env l.
Hypothesis same_home : ve_home e = Some home.
Hypothesis good_name : name_matches (m_app_name (l_meta l)) = true.
(** what the cookie says keeps runs of this build of this application from doing anything *)
Hypothesis says_no : run_of nd name l -> ve_opt_out e = false ->
  let '(stream, line) := getline (Some content) "" in
  ve_recent e line (ve_now e) = true \/ snd (getline stream line) = "NEVER".
Hypothesis ok : (run_of nd name l -> l_user l = Some true) -> forall x, Ok x.

Let S {A} := @sat A Inv (fun _ _ => True) Ok.

Lemma returns_path : S (returns (fun p => p = seqan_dir home)) (path_steps e).
Proof.
  unfold path_steps. rewrite same_home. apply (sat_bind _ _ _ (fun b => b = false)).
  { apply sat_access. intros f Hf. rewrite (config_there f Hf). split; [exact Hf|now split]. }
  intros b ->. apply (sat_bind _ _ _ (fun b => b = false)).
  { apply sat_access. intros f Hf. rewrite (seqan_there f Hf). split; [exact Hf|now split]. }
  intros b ->. apply (sat_bind _ _ _ (fun p => p = seqan_dir home)); [reflexivity|]. intros p ->.
  apply (sat_bind _ _ _ (fun b => b = true)). { apply sat_access. intros f Hf. destruct (probe_open f Hf) as [P1 P2]. split; [exact P1|now split]. }
  intros good ->. apply (sat_bind _ _ _ (fun _ => True)). { apply sat_access. intros f Hf. pose proof (probe_remove f Hf) as P1. destruct (if is_directory f _ then _ else _). split; [exact P1|now split]. }
  intros u _. apply (sat_bind _ _ _ (fun b => b = true)). { apply sat_access. intros f Hf. destruct (probe_guard f Hf) as [P1 P2]. split; [exact P1|now split]. }
  intros removed ->. reflexivity.
Qed.

Lemma returns_checker : S (returns (fun k => k = a_checker e home (l_meta l))) (checker_steps e (m_app_name (l_meta l)) (m_version (l_meta l)) (m_url (l_meta l))).
Proof. unfold checker_steps. apply (sat_bind _ _ _ (fun p => p = seqan_dir home)); [apply returns_path|]. intros p ->. rewrite good_name. reflexivity. Qed.

Let k := a_checker e home (l_meta l).
Let K' := cookie (ve_ndebug e) home (m_app_name (l_meta l)).
Lemma k_comps : comps (ck_timestamp k) = K'.
Proof. apply comps_stamp, good_name. Qed.
Lemma k_nonempty : is_empty (ck_timestamp k) = false.
Proof. cbn [ck_timestamp k a_checker]. apply join_nonempty. unfold stamp. destruct (m_app_name (l_meta l)); [discriminate good_name|reflexivity]. Qed.

Lemma other_cookie : ~ run_of nd name l -> K' <> K.
Proof. intros N E. apply N. unfold K', K, cookie in E. apply last_inv in E. destruct (cookie_file_inj (ve_ndebug e) (m_app_name (l_meta l)) nd name E) as [E1 E2]. now split. Qed.

Lemma returns_write s : ~ run_of nd name l -> S (returns (fun _ => True)) (write_steps (ck_timestamp k) s).
Proof.
  intros N. apply other_cookie in N. destruct (cookie_others (ve_ndebug e) home (m_app_name (l_meta l))) as (N1 & N2 & N3). fold dummy in N3. fold K' in N1, N2, N3.
  unfold write_steps. apply (sat_bind _ _ _ (fun _ => True)).
  - apply sat_access. intros f Hf. split; [|now split]. unfold open_write. rewrite k_nonempty, k_comps.
    destruct (f K') as [[c m|m|m]|]; try exact Hf; [destruct (f_writable m)|destruct (parent_writable f K')]; try exact Hf; now apply inv_upd.
  - intros [|] _; [|exact Logic.I]. apply sat_access. intros f Hf. split; [|now split]. cbn [fst]. unfold write_at. rewrite k_comps.
    destruct (f K') as [[c m|m|m]|]; try exact Hf. now apply inv_upd.
Qed.

Lemma returns_ask : ~ run_of nd name l -> S (returns (fun _ => True)) (ask_steps e k).
Proof.
  intros N. unfold ask_steps, cookie_steps. apply (sat_bind _ _ _ (fun _ => True)); [now apply returns_write|]. intros _ _. destruct (ve_tty e); [|exact Logic.I].
  apply (sat_bind _ _ _ (fun _ => True)); [split; [apply ok; contradiction|exact Logic.I]|]. intros _ _. cbv zeta.
  destruct (Ascii.eqb _ "y"); [exact Logic.I|]. destruct (Ascii.eqb _ "a"); [|destruct (Ascii.eqb _ "n"); [|exact Logic.I]];
    (apply (sat_bind _ _ _ (fun _ => True)); [now apply returns_write|intros; exact Logic.I]).
Qed.

Lemma returns_decide : S (returns (fun b => b = true -> run_of nd name l -> l_user l = Some true)) (decide_steps e k (l_on l) (l_user l)).
Proof.
  pose proof returns_ask as RA. unfold decide_steps. destruct (negb (l_on l)); [cbn; discriminate|]. destruct (ve_opt_out e); [cbn; discriminate|].
  destruct (l_user l) as [b|] eqn:U; [cbn; now intros ->|].
  destruct (run_of_dec nd name l) as [R|R].
  - assert (EK : comps (ck_timestamp k) = K) by (rewrite k_comps; unfold K', K; destruct R as [R1 R2]; fold e in R1; now rewrite R1, R2).
    assert (L : forall f, Inv f -> lookup f (ck_timestamp k) = Some (NFile content mm)) by (intros f (_ & Hf); rewrite lookup_at, EK by exact k_nonempty; exact Hf).
    apply (sat_bind _ _ _ (fun b => b = true)).
    { apply sat_access. intros f Hf. split; [exact Hf|]. split; [trivial|]. cbn [snd fst]. unfold exists_. cbn [ck_path k a_checker].
      rewrite lookup_at by (apply join_nonempty; reflexivity). unfold seqan_dir. rewrite comps_cookie_dir. destruct Hf as ((_ & (m & -> & _) & _) & _). reflexivity. }
    intros b ->. apply (sat_bind _ _ _ (fun c => c = Some content)).
    { unfold read_steps. apply (sat_bind _ _ _ (fun b => b = true)).
      - apply sat_access. intros f Hf. split; [exact Hf|]. split; [trivial|]. cbn [snd fst]. unfold open_read. rewrite (L f Hf). exact mm_readable.
      - intros b ->. apply (sat_bind _ _ _ (fun s => s = content)); [|intros s ->; reflexivity].
        apply sat_access. intros f Hf. split; [exact Hf|]. split; [trivial|]. cbn [snd fst]. unfold content_of. now rewrite (L f Hf). }
    intros c ->. specialize (says_no R eq_refl). destruct (getline (Some content) "") as [s line]. destruct (ve_recent e line (ve_now e)); [cbn; discriminate|].
    destruct says_no as [X|X]; [discriminate|]. destruct (getline s line) as [s2 line2]. cbn [snd] in X. subst line2. cbn. discriminate.
  - apply (sat_weaken _ _ _ (returns (fun _ => True))); [intros []; cbn; try tauto|].
    apply (sat_bind _ _ _ (fun _ => True)); [apply sat_access; intros f Hf; split; [exact Hf|now split]|]. intros there _.
    apply (sat_bind _ _ _ (fun _ => True)). { destruct there; [|exact Logic.I]. now apply sat_read. }
    intros [c|] _; [|now apply RA]. destruct (getline (Some c) "") as [s line]. destruct (ve_recent e line _); [exact Logic.I|].
    destruct (getline s line) as [s2 line2]. destruct (String.eqb line2 "NEVER"); [exact Logic.I|]. destruct (String.eqb line2 "ALWAYS"); [exact Logic.I|]. now apply RA.
Qed.

Lemma returns_run : S (fun r => r = Ret tt) (p_prog (start l)).
Proof.
  apply (sat_weaken _ _ _ (returns (fun _ => True))); [now intros [[]| | | | |]|]. cbn [start p_prog]. unfold version_steps.
  apply (sat_bind _ _ _ (fun k => k = a_checker e home (l_meta l))); [apply returns_checker|]. intros k' ->.
  apply (sat_bind _ _ _ (fun b => b = true -> run_of nd name l -> l_user l = Some true)); [apply returns_decide|].
  intros [|] Y; [|exact Logic.I]. apply sat_check; [trivial|]. now apply ok, Y.
Qed.
End run.
End quiet.

Lemma quiet_lemma nd home name ls s f t d :
  (forall l, In l ls -> ve_home (l_env l) = Some home /\ name_matches (m_app_name (l_meta l)) = true) ->
  (forall g h, In (World g) s -> ready home h -> ready home (g h) /\ g h (cookie nd home name) = h (cookie nd home name)) ->
  ready home f -> stored nd home name f t d -> scontains "010" d = false ->
  (forall l, In l ls -> run_of nd name l -> d = "NEVER" \/ ve_recent (l_env l) (Z_to_string t) (ve_now (l_env l)) = true) ->
  let '(f', ps') := exec s f (map start ls) in
  ready home f' /\ f' (cookie nd home name) = f (cookie nd home name) /\
  (forall i p r, nth_error ps' i = Some p -> p_prog p = Done r -> r = Ret tt) /\
  (forall i l p, nth_error ls i = Some l -> nth_error ps' i = Some p -> run_of nd name l -> l_user l <> Some true -> p_log p = []).
Proof.
  intros HL W R0 (mm & S0 & S1 & S2) D Q.
  set (content := Z_to_string t +s+ nl +s+ d) in *.
  pose (Ok := fun j (x : event) => forall l, nth_error ls j = Some l -> run_of nd name l -> l_user l = Some true).
  pose proof (exec_sound (fun f => ready home f /\ f (cookie nd home name) = Some (NFile content mm)) (fun _ _ _ => True) Ok (fun _ r => r = Ret tt) (fun _ _ => Logic.I) s f (map start ls)) as X.
  destruct (exec s f (map start ls)) as [f' ps']. destruct X as [[X1 X2] X3].
  - intros g h Hg [H1 H2]. destruct (W g h Hg H1) as [W1 W2]. split; [exact W1|]. congruence.
  - now split.
  - intros j q Hq. apply map_nth in Hq as (l & Hl & ->). pose proof (in_ext _ _ _ Hl) as Hin. destruct (HL l Hin) as [L1 L2]. split; [constructor|].
    apply (returns_run nd home name content mm S1 l (Ok j) L1 L2).
    + intros R _. cbn [getline]. unfold content. rewrite cut_line_nl by apply Z_string_no_nl. cbn [getline]. rewrite cut_line_end by exact D. cbn [snd].
      destruct (Q l Hin R); auto.
    + intros Y x l' Hl' R. rewrite Hl in Hl'. injection Hl' as <-. auto.
  - split; [exact X1|]. split; [congruence|]. split.
    + intros i p r Hp Hr. destruct (X3 i p Hp) as [_ X4]. rewrite Hr in X4. exact X4.
    + intros i l p Hl Hp R U. destruct (X3 i p Hp) as [X4 _]. destruct (p_log p) as [|x r]; [reflexivity|]. inversion X4 as [|? ? F1]; subst. now destruct (U (F1 l Hl R)).
Qed.
