(** Proofs: exactly which words behind "--" reach the positional options as they are (C13). *)
From Verif Require Import Base StrLib Fs Values Validators FormatParse Invocation InvocationProofs InvocationEffects ScanSpec ScanProofs ScanFlags
  ReadingSpec ReadingProofs TailSpec.

Section tail.
Variable ndebug : bool.

Lemma scan_spared c ws : c <> "-"%char -> ((exists l, flag_scan c ws = Some l) <-> exists w, In w ws /\ looks_like_cluster_of c w = true).
Proof.
  intros Hc. induction ws as [|w ws IH]; [split; [intros [l H]; discriminate|intros (w & [] & _)]|]. cbn [flag_scan].
  assert (E : looks_like_cluster_of c w = match (if is_cluster w then sfind c w else None) with Some _ => true | None => false end).
  { rewrite cluster_iff by exact Hc. destruct (is_cluster w); [|reflexivity]. cbn [andb]. destruct (sfind c w) eqn:S.
    - destruct (scontains c w) eqn:K; [reflexivity|]. apply sfind_None in K. congruence.
    - now apply sfind_None. }
  destruct (if is_cluster w then sfind c w else None) as [n|].
  - split; [intros _; exists w; split; [now left|exact E]|intros _; eauto].
  - split.
    + intros [l H]. destruct (flag_scan c ws) as [l1|] eqn:F; [|discriminate]. destruct (proj1 IH (ex_intro _ l1 eq_refl)) as (x & Hx & Kx). exists x. auto using in_cons.
    + intros (x & [<-|Hx] & Kx); [congruence|]. destruct (proj2 IH (ex_intro _ x (conj Hx Kx))) as [l1 ->]. eexists. reflexivity.
Qed.

Lemma scan_amount c : forall ws l, flag_scan c ws = Some l -> robbed ws l.
Proof.
  induction ws as [|w ws IH]; intros l H; [discriminate|]. cbn [flag_scan] in H.
  destruct (if is_cluster w then sfind c w else None) as [n|] eqn:E.
  - injection H as <-. split; [reflexivity|]. cbn [amount fold_right]. destruct (is_cluster w); [|discriminate].
    apply sfind_Some in E as (p & q & -> & -> & _ & _).
    assert (L : String.length (erase_at (String.length p) (p +s+ String c q)) < String.length (p +s+ String c q)).
    { clear. induction p as [|d p IH]; cbn; lia. }
    destruct (String.eqb _ "-"); [|lia]. cbn [String.length] in *. lia.
  - destruct (flag_scan c ws) as [l1|]; [|discriminate]. injection H as <-. destruct (IH l1 eq_refl) as [A B]. split; cbn [List.length amount fold_right]; [congruence|].
    fold (amount ws) (amount l1). lia.
Qed.

Lemma scan_end c ws : flag_scan c ("--" :: ws) = option_map (cons "--") (flag_scan c ws).
Proof. reflexivity. Qed.

(** letters of flags that are not found in front of "--" *)
Fixpoint missing (ds : list decl) (st : pst) : list chr :=
  match ds with
  | [] => []
  | DFlag x c :: ds' => match flag_scan (c_short c) (pre st) with None => [c_short c] | Some _ => [] end ++ missing ds' (fst (get_flag x c st))
  | _ :: ds' => missing ds' st
  end.

Lemma missing_in ds : forall st c, In c (missing ds st) -> exists x k, In (DFlag x k) ds /\ c_short k = c.
Proof.
  induction ds as [|d ds IH]; intros st c H; [destruct H|]. destruct d as [x t k|x k|x t k]; cbn [missing] in H.
  - destruct (IH _ _ H) as (y & k' & A & B). exists y, k'. auto using in_cons.
  - apply in_app_or in H as [H|H].
    + destruct (flag_scan _ _); [destruct H|]. destruct H as [H|[]]. exists x, k. split; [now left|exact H].
    + destruct (IH _ _ H) as (y & k' & A & B). exists y, k'. auto using in_cons.
  - destruct (IH _ _ H) as (y & k' & A & B). exists y, k'. auto using in_cons.
Qed.

Lemma get_flag_ret x c st : snd (get_flag x c st) = Ret tt.
Proof.
  unfold get_flag, bind, flag_is_set_short, flag_is_set_long. destruct (flag_scan (c_short c) (pre st)); [reflexivity|].
  destruct (flag_scan (c_short c) (post st)); [reflexivity|]. destruct (split_first _ (pre st)) as [[[? ?] ?]|]; reflexivity.
Qed.

Lemma flag_calls_ret ds : forall st, snd (mapM_ flag_call ds st) = Ret tt.
Proof.
  induction ds as [|d ds IH]; intros st; [reflexivity|]. cbn [mapM_]. unfold bind.
  destruct d as [x t k|x k|x t k]; cbn [flag_call]; try apply IH. pose proof (get_flag_ret x k st) as R.
  destruct (get_flag x k st) as [st1 r]. cbn [snd] in R. subst r. apply IH.
Qed.

(** one flag that finds nothing behind "--" *)
Lemma get_flag_elsewhere x c q st : post st = ["--"] -> flag_scan (c_short c) (pre st) <> None \/ flag_scan (c_short c) q = None ->
  get_flag x c (set_args (pre st) q st) = (set_args (pre (fst (get_flag x c st))) q (fst (get_flag x c st)), Ret tt) /\ post (fst (get_flag x c st)) = ["--"].
Proof.
  intros P H. unfold get_flag, bind, flag_is_set_short. cbn [pre post set_args]. rewrite P.
  destruct (flag_scan (c_short c) (pre st)) as [l|] eqn:E.
  - split; [reflexivity|exact P].
  - destruct H as [H|H]; [congruence|]. rewrite H. rewrite scan_end. cbn [flag_scan option_map]. unfold flag_is_set_long. cbn [pre set_args].
    destruct (split_first _ (pre st)) as [[[? ?] ?]|]; split; try reflexivity; exact P.
Qed.

Lemma flags_elsewhere ds q : forall st, post st = ["--"] -> (forall c, In c (missing ds st) -> flag_scan c q = None) ->
  fst (mapM_ flag_call ds (set_args (pre st) q st)) = set_args (pre (fst (mapM_ flag_call ds st))) q (fst (mapM_ flag_call ds st)).
Proof.
  induction ds as [|d ds IH]; intros st P H; [reflexivity|]. cbn [mapM_]. unfold bind.
  destruct d as [x t k|x k|x t k]; cbn [flag_call ret missing] in *; try (now apply IH).
  destruct (get_flag_elsewhere x k q st P) as [E1 E2].
  { destruct (flag_scan (c_short k) (pre st)) eqn:F; [left; discriminate|right]. apply H. now left. }
  rewrite E1. pose proof (get_flag_ret x k st) as R. destruct (get_flag x k st) as [st1 r]. cbn [fst snd] in *. subst r.
  apply IH; [exact E2|]. intros c Hc. apply H. apply in_or_app. now right.
Qed.

(** words behind "--" only lose letters *)
Lemma get_flag_post x c st ws : post st = "--" :: ws -> exists ws', post (fst (get_flag x c st)) = "--" :: ws' /\ (ws' = ws \/ robbed ws ws').
Proof.
  intros P. unfold get_flag, bind, flag_is_set_short, flag_is_set_long. destruct (flag_scan (c_short c) (pre st)); [exists ws; split; [exact P|now left]|].
  rewrite P, scan_end. destruct (flag_scan (c_short c) ws) as [l|] eqn:E.
  - exists l. split; [reflexivity|right; eapply scan_amount; eassumption].
  - cbn [option_map]. destruct (split_first _ (pre st)) as [[[? ?] ?]|]; exists ws; (split; [exact P|now left]).
Qed.

Lemma robbed_or a b c : robbed a b -> c = b \/ robbed b c -> robbed a c.
Proof. intros [A1 A2] [->|[B1 B2]]; [split; assumption|]. split; [congruence|lia]. Qed.

Lemma flags_post ds : forall st ws, post st = "--" :: ws -> exists ws', post (fst (mapM_ flag_call ds st)) = "--" :: ws' /\ (ws' = ws \/ robbed ws ws').
Proof.
  induction ds as [|d ds IH]; intros st ws P; [exists ws; split; [exact P|now left]|]. cbn [mapM_]. unfold bind.
  destruct d as [x t k|x k|x t k]; cbn [flag_call ret]; try (now apply IH).
  destruct (get_flag_post x k st ws P) as (w1 & P1 & R1). pose proof (get_flag_ret x k st) as R. destruct (get_flag x k st) as [st1 r]. cbn [fst snd] in *. subst r.
  destruct (IH st1 w1 P1) as (w2 & P2 & R2). exists w2. split; [exact P2|]. destruct R1 as [->|R1]; [exact R2|]. right. eapply robbed_or; eassumption.
Qed.

Lemma flags_robbed ds : forall st ws c, post st = ["--"] -> In c (missing ds st) -> (exists l, flag_scan c ws = Some l) ->
  exists ws', post (fst (mapM_ flag_call ds (set_args (pre st) ("--" :: ws) st))) = "--" :: ws' /\ robbed ws ws'.
Proof.
  induction ds as [|d ds IH]; intros st ws c P H [l L]; [destruct H|]. cbn [mapM_]. unfold bind.
  destruct d as [x t k|x k|x t k]; cbn [flag_call ret missing] in *; try (apply (IH st ws c P H); eauto).
  destruct (flag_scan (c_short k) (pre st)) as [l1|] eqn:F.
  - destruct (get_flag_elsewhere x k ("--" :: ws) st P) as [E1 E2]; [left; congruence|]. rewrite E1.
    destruct (get_flag x k st) as [st1 r]. cbn [fst] in *. apply (IH st1 ws c E2 H). eauto.
  - destruct (flag_scan (c_short k) ws) as [l2|] eqn:G.
    + assert (E : exists st1, get_flag x k (set_args (pre st) ("--" :: ws) st) = (st1, Ret tt) /\ post st1 = "--" :: l2).
      { unfold get_flag, bind, flag_is_set_short. cbn [pre post set_args]. rewrite F, scan_end, G. eexists. split; reflexivity. }
      destruct E as (st1 & E & P1). rewrite E. destruct (flags_post ds st1 l2 P1) as (w2 & P2 & R2). exists w2. split; [exact P2|].
      eapply robbed_or; [eapply scan_amount; eassumption|exact R2].
    + destruct (get_flag_elsewhere x k ("--" :: ws) st P) as [E1 E2]; [right; now rewrite scan_end, G|]. rewrite E1.
      destruct H as [<-|H]; [congruence|]. destruct (get_flag x k st) as [st1 r]. cbn [fst app] in *. apply (IH st1 ws c E2 H). eauto.
Qed.

Lemma unknown_outcome l : check_unknown_in l = Ret tt \/ exists m, check_unknown_in l = Throw (Exn KUnknownOption m).
Proof.
  induction l as [|a l IH]; [now left|]. cbn [check_unknown_in]. destruct a as [|c s]; [exact IH|]. destruct (Ascii.eqb c "-") eqn:C; [|exact IH].
  destruct (String.eqb (String c s) "-"); [exact IH|]. destruct (_ && _) eqn:B; [|right; eauto].
  apply andb_prop in B as [_ B]. apply Nat.ltb_lt in B. destruct s as [|d [|e s]]; cbn in B; try lia. right.
  destruct (expand_ok c d (String e s) C) as (m & [E|E]); [rewrite E; cbn; eauto|discriminate E].
Qed.

Lemma tail_exact decls b vs f : wf_decls decls = true -> ~ In "--" b ->
  let run ws := parse_args ndebug decls (b ++ "--" :: ws) vs f in
  exists letters, (forall c, In c letters -> exists x k, In (DFlag x k) decls /\ c_short k = c) /\
  ((exists vs1 f1 q, q <> Ret tt /\ forall ws, spared letters ws -> vars (fst (run ws)) = vs1 /\ fsys (fst (run ws)) = f1 /\ snd (run ws) = q) \/
   (exists vs1 f1 ws0, forall ws, spared letters ws -> agrees (run ws) (s_positionals ndebug decls (ws0 ++ filter nonempty ws) {| s_vars := vs1; s_fs := f1 |}))) /\
  (forall ws, ~ spared letters ws -> exists ws', robbed ws ws' /\
     ((exists m, snd (run ws) = Throw (Exn KUnknownOption m)) \/
      exists st ws0, agrees (run ws) (s_positionals ndebug decls (ws0 ++ filter nonempty ws') st))).
Proof.
  intros Hwf Hb run. set (st0 := {| pre := b; post := ["--"]; vars := vs; count := 0; fsys := f |}).
  assert (Hl : list_last (pos_types decls) = true) by (unfold wf_decls in Hwf; now apply andb_true_iff in Hwf as [_ Hwf]).
  assert (C : forall ws, cut (b ++ "--" :: ws) b ("--" :: ws)) by (intros ws; repeat split; eauto).
  assert (S0 : forall ws, {| pre := b; post := "--" :: ws; vars := vs; count := 0; fsys := f |} = set_args (pre st0) ("--" :: ws) st0) by reflexivity.
  pose proof (option_calls_rel ndebug decls st0) as (_ & Hpost & _).
  destruct (mapM_ (option_call ndebug) decls st0) as [st1 r] eqn:E. cbn [fst] in Hpost.
  assert (F0 : forall ws, mapM_ (option_call ndebug) decls (set_args (pre st0) ("--" :: ws) st0) = (set_args (pre st1) ("--" :: ws) st1, r)).
  { intros ws. rewrite option_calls_blind, E. reflexivity. }
  destruct (match r with Ret tt => true | _ => false end) eqn:Hr.
  2:{ (* an option fails *)
    exists []. split; [intros c []|]. split; [|intros ws N; exfalso; apply N; intros c w []].
    left. exists (vars st1), (fsys st1), r. split; [intros ->; discriminate|]. intros ws _. unfold run.
    assert (Fr : front ndebug decls {| pre := b; post := "--" :: ws; vars := vs; count := 0; fsys := f |} = (set_args (pre st1) ("--" :: ws) st1, r)).
    { rewrite S0. unfold front. unfold bind at 1. rewrite F0. destruct r as [[]|e|o| | |]; try discriminate Hr; reflexivity. }
    destruct (parse_split ndebug decls _ b _ vs f Hl (C ws)) as [(st2 & q & E1 & E2 & E3)|(st2 & E1 & E2)]; rewrite Fr in E1.
    - rewrite E3. injection E1 as <- <-. auto.
    - injection E1 as _ ->. discriminate. }
  destruct r as [[]|e|o| | |]; try discriminate Hr. clear Hr.
  set (letters := missing decls st1). exists letters.
  assert (D : forall c, In c letters -> c <> "-"%char).
  { intros c Hc. destruct (missing_in _ _ _ Hc) as (x & k & Hin & <-).
    destruct (Ascii.eqb_spec (c_short k) nul) as [->|N]; [discriminate|].
    apply (good_flags_nodash decls Hwf). apply in_flat_map. exists (DFlag x k). split; [exact Hin|]. apply config_idents_In. auto. }
  assert (P1 : post st1 = ["--"]) by exact Hpost.
  set (st2 := fst (mapM_ flag_call decls st1)).
  split; [intros c Hc; exact (missing_in _ _ _ Hc)|]. 
  assert (Fr : forall ws, front ndebug decls {| pre := b; post := "--" :: ws; vars := vs; count := 0; fsys := f |} =
     let s := fst (mapM_ flag_call decls (set_args (pre st1) ("--" :: ws) st1)) in (s, check_unknown_in (pre s))).
  { intros ws. rewrite S0. unfold front. unfold bind at 1. rewrite F0. unfold bind. pose proof (flag_calls_ret decls (set_args (pre st1) ("--" :: ws) st1)) as R.
    destruct (mapM_ flag_call decls (set_args (pre st1) ("--" :: ws) st1)) as [s q]. cbn [snd] in R. subst q. reflexivity. }
  split.
  - assert (FS : forall ws, spared letters ws -> front ndebug decls {| pre := b; post := "--" :: ws; vars := vs; count := 0; fsys := f |} =
       (set_args (pre st2) ("--" :: ws) st2, check_unknown_in (pre st2))).
    { intros ws Hs. rewrite Fr. cbn zeta. rewrite flags_elsewhere; [reflexivity|exact P1|]. intros c Hc. rewrite scan_end.
      destruct (flag_scan c ws) as [l|] eqn:G; [|reflexivity]. destruct (proj1 (scan_spared c ws (D c Hc)) (ex_intro _ l G)) as (w & Hw & K).
      rewrite (Hs c w Hc Hw) in K. discriminate. }
    destruct (unknown_outcome (pre st2)) as [U|[m U]]; [right|left].
    + exists (vars st2), (fsys st2), (filter nonempty (pre st2)). intros ws Hs. unfold run.
      destruct (parse_split ndebug decls _ b _ vs f Hl (C ws)) as [(st3 & q & E1 & E2 & E3)|(st3 & E1 & E2)]; rewrite (FS ws Hs), U in E1.
      * injection E1 as _ <-. contradiction.
      * injection E1 as <-. cbn [pre post set_args List.tl] in E2. rewrite filter_app in E2. exact E2.
    + exists (vars st2), (fsys st2), (Throw (Exn KUnknownOption m)). split; [discriminate|]. intros ws Hs. unfold run.
      destruct (parse_split ndebug decls _ b _ vs f Hl (C ws)) as [(st3 & q & E1 & E2 & E3)|(st3 & E1 & E2)]; rewrite (FS ws Hs), U in E1; [|discriminate].
      rewrite E3. injection E1 as <- <-. auto.
  - intros ws N.
    assert (X : exists c, In c letters /\ exists l, flag_scan c ws = Some l).
    { destruct (existsb (fun c => match flag_scan c ws with Some _ => true | None => false end) letters) eqn:B.
      - apply existsb_exists in B as (c & Hc & B). exists c. split; [exact Hc|]. destruct (flag_scan c ws); [eauto|discriminate].
      - exfalso. apply N. intros c w Hc Hw. destruct (looks_like_cluster_of c w) eqn:K; [|reflexivity].
        destruct (proj2 (scan_spared c ws (D c Hc)) (ex_intro _ w (conj Hw K))) as [l G].
        rewrite <- not_true_iff_false in B. exfalso. apply B. apply existsb_exists. exists c. rewrite G. auto. }
    destruct X as (c & Hc & G). destruct (flags_robbed decls st1 ws c P1 Hc G) as (ws' & P2 & Rb). exists ws'. split; [exact Rb|].
    specialize (Fr ws). cbn zeta in Fr. set (s := fst (mapM_ flag_call decls (set_args (pre st1) ("--" :: ws) st1))) in *. unfold run.
    destruct (parse_split ndebug decls _ b _ vs f Hl (C ws)) as [(st3 & q & E1 & E2 & E3)|(st3 & E1 & E2)]; rewrite Fr in E1.
    + left. rewrite E3. injection E1 as <- <-. destruct (unknown_outcome (pre s)) as [U|[m U]]; [contradiction|]. cbn [snd]. eauto.
    + right. injection E1 as <- _. rewrite P2, filter_app in E2. cbn [List.tl] in E2. eauto.
Qed.

End tail.
