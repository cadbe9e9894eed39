(** Flags, unknown arguments and what is left for the positional options, on arbitrary argument vectors. *)
From Verif Require Import Base StrLib Fs Values Validators FormatParse Invocation InvocationProofs InvocationEffects ScanSpec ScanProofs.

Section flags.
Variable ndebug : bool.

Lemma worn_trans bf ids a b c : worn bf ids a b -> worn bf ids b c -> worn bf ids a c.
Proof. induction 1; intros; auto. econstructor; eauto. Qed.
Lemma flag_step_mono bf ids ids' a b : incl ids ids' -> flag_step bf ids a b -> flag_step bf ids' a b.
Proof.
  intros Hi H. destruct H as [s Hb Hs|c p q Hc|c p q Hc]; [apply fs_long|apply fs_char|eapply fs_last]; eauto;
    match goal with H : _ \/ _ |- _ => destruct H; auto end.
Qed.
Lemma worn_mono bf ids ids' a b : incl ids ids' -> worn bf ids a b -> worn bf ids' a b.
Proof. intros Hi. induction 1; [constructor|]. econstructor; eauto using flag_step_mono. Qed.

Lemma Forall2_refl {A} (R : A -> A -> Prop) l : (forall a, R a a) -> Forall2 R l l.
Proof. intros H. induction l; auto. Qed.
Lemma Forall2_trans {A} (R : A -> A -> Prop) l1 : (forall a b c, R a b -> R b c -> R a c) ->
  forall l2 l3, Forall2 R l1 l2 -> Forall2 R l2 l3 -> Forall2 R l1 l3.
Proof.
  intros Ht. induction l1 as [|a l1 IH]; intros l2 l3 H G; inversion H; subst; inversion G; subst; [constructor|]. constructor; eauto.
Qed.
Lemma Forall2_mono {A} (R S : A -> A -> Prop) l l' : (forall a b, R a b -> S a b) -> Forall2 R l l' -> Forall2 S l l'.
Proof. intros H. induction 1; auto. Qed.

(** the vector after some flags; only one variable per flag changes *)
Definition flag_rel (ids : list ident) (st st' : pst) : Prop :=
  Forall2 (worn true ids) (pre st) (pre st') /\ Forall2 (worn false ids) (post st) (post st') /\ count st' = count st /\ fsys st' = fsys st.
Lemma flag_rel_refl ids st : flag_rel ids st st.
Proof. repeat split; apply Forall2_refl; constructor. Qed.
Lemma flag_rel_trans ids a b c : flag_rel ids a b -> flag_rel ids b c -> flag_rel ids a c.
Proof.
  intros (H1 & H2 & H3 & H4) (G1 & G2 & G3 & G4). repeat split; try congruence; eapply Forall2_trans; eauto using worn_trans.
Qed.
Lemma flag_rel_mono ids ids' a b : incl ids ids' -> flag_rel ids a b -> flag_rel ids' a b.
Proof. intros Hi (H1 & H2 & H3 & H4). split; [|split; [|auto]]; (eapply Forall2_mono; [|eassumption]); intros u v; now apply worn_mono. Qed.

Lemma is_cluster_spec a : is_cluster a = true -> begins "-" a = true /\ starts_with "--" a = false.
Proof.
  destruct a as [|c [|d a]]; cbn; try discriminate. intros H. apply andb_true_iff in H as [H1 H2].
  apply Ascii.eqb_eq in H1. subst c. rewrite Ascii.eqb_refl. split; [reflexivity|].
  unfold starts_with. rewrite !prefix_cons, Ascii.eqb_refl. cbn. apply andb_false_iff. left.
  apply negb_true_iff in H2. now rewrite Ascii.eqb_sym.
Qed.

Lemma flag_scan_worn bf c ids l l' : In (IdShort c) ids \/ c = nul -> flag_scan c l = Some l' -> Forall2 (worn bf ids) l l'.
Proof.
  intros Hc. revert l'; induction l as [|a l IH]; intros l' H; cbn in H; [discriminate|].
  destruct (is_cluster a) eqn:Ea; [destruct (sfind c a) as [n|] eqn:Es|].
  - destruct (is_cluster_spec a Ea) as [B1 B2]. destruct (sfind_Some _ _ _ Es) as (p & q & -> & -> & _ & He). rewrite He in H.
    injection H as <-. constructor; [|apply Forall2_refl; constructor].
    destruct (String.eqb_spec (p +s+ q) "-") as [E|E].
    + eapply worn_step; [eapply fs_last; eauto|constructor].
    + eapply worn_step; [eapply fs_char; eauto|constructor].
  - destruct (flag_scan c l); [|discriminate]. injection H as <-. constructor; [constructor|auto].
  - destruct (flag_scan c l); [|discriminate]. injection H as <-. constructor; [constructor|auto].
Qed.

Lemma flag_short_rel c ids : In (IdShort c) ids \/ c = nul -> always (flag_rel ids) (flag_is_set_short c).
Proof.
  intros Hc st. unfold flag_is_set_short. destruct (flag_scan c (pre st)) as [l|] eqn:E; cbn [fst].
  - repeat split; cbn; [eapply flag_scan_worn; eauto|apply Forall2_refl; constructor].
  - destruct (flag_scan c (post st)) as [l|] eqn:E2; cbn [fst]; [|apply flag_rel_refl].
    repeat split; cbn; [apply Forall2_refl; constructor|eapply flag_scan_worn; eauto].
Qed.

Lemma flag_long_rel s ids : In (IdLong s) ids \/ s = "" -> always (flag_rel ids) (flag_is_set_long s).
Proof.
  intros Hc st. unfold flag_is_set_long. destruct (split_first _ (pre st)) as [[[b a] r]|] eqn:E; cbn [fst]; [|apply flag_rel_refl].
  apply split_first_some in E as (Hp & Ha & _). apply String.eqb_eq in Ha. cbn [prepend_dash] in Ha.
  repeat split; cbn [pre post set_pre]; [|apply Forall2_refl; constructor]. rewrite Hp, <- Ha.
  apply Forall2_app; [apply Forall2_refl; constructor|]. constructor; [|apply Forall2_refl; constructor].
  eapply worn_step; [now apply fs_long|constructor].
Qed.

Lemma get_flag_rel x c : always (flag_rel (config_idents c)) (get_flag x c).
Proof.
  unfold get_flag. apply always_bind; [apply flag_rel_trans|apply flag_short_rel|intros s].
  { destruct (Ascii.eqb_spec (c_short c) nul) as [E|E]; [now right|left]. apply config_idents_In. auto. }
  apply always_bind; [apply flag_rel_trans| |intros l st].
  - destruct s; [intros st; apply flag_rel_refl|]. apply flag_long_rel.
    destruct (is_empty (c_long c)) eqn:E; [right; now apply is_empty_iff|left]. apply config_idents_In. right. split; [reflexivity|now apply is_empty_false].
  - repeat split; cbn; apply Forall2_refl; constructor.
Qed.

Lemma flag_calls_rel ds : always (flag_rel (flat_map flag_idents ds)) (mapM_ flag_call ds).
Proof.
  induction ds as [|d ds IH]; cbn [mapM_ flat_map]; [intros st; apply flag_rel_refl|].
  apply always_bind; [apply flag_rel_trans| |intros _].
  - destruct d; try (intros st; apply flag_rel_refl). eapply always_mono; [|apply get_flag_rel]. intros a b. apply flag_rel_mono, incl_appl, incl_refl.
  - eapply always_mono; [|apply IH]. intros a b. apply flag_rel_mono, incl_appr, incl_refl.
Qed.

Lemma get_flag_ret x c st : snd (get_flag x c st) = Ret tt.
Proof.
  unfold get_flag, bind, flag_is_set_short. destruct (flag_scan _ (pre st)); [reflexivity|].
  destruct (flag_scan _ (post st)); [reflexivity|]. unfold flag_is_set_long. now destruct (split_first _ _) as [[[? ?] ?]|].
Qed.
Lemma flag_calls_ret ds st : snd (mapM_ flag_call ds st) = Ret tt.
Proof.
  revert st; induction ds as [|d ds IH]; intros st; [reflexivity|]. cbn [mapM_]. unfold bind.
  assert (H : snd (flag_call d st) = Ret tt) by (destruct d; try reflexivity; apply get_flag_ret).
  destruct (flag_call d st) as [st1 r]. cbn in H. subst r. apply IH.
Qed.

(** ** Arguments that no flag uses up *)

Lemma begins_app_cons p c q : begins "-" (p +s+ String c q) = true -> c <> "-"%char -> exists p', p = String "-" p'.
Proof.
  destruct p as [|d p]; cbn; intros H Hc.
  - apply Ascii.eqb_eq in H. congruence.
  - apply Ascii.eqb_eq in H. subst d. eauto.
Qed.

Lemma worn_long ids s a' : ~ In (IdLong s) ids -> s <> "" -> worn true ids ("--" +s+ s) a' -> a' = "--" +s+ s.
Proof.
  intros Hs Hne H. inversion H as [|? b ? Hstep _ E]; subst; [reflexivity|]. exfalso.
  inversion Hstep as [s0 Hbf Hs0 E0|c p q Hc Hb Hd Hpq E0|c p q Hc Hb Hd Hpq E0].
  - subst s0. destruct Hs0; auto.
  - rewrite E0 in Hd. assert (K : String.prefix "--" ("--" +s+ s) = true) by (apply prefix_iff; eauto). unfold starts_with in Hd. cbn in K, Hd. congruence.
  - rewrite E0 in Hd. assert (K : String.prefix "--" ("--" +s+ s) = true) by (apply prefix_iff; eauto). unfold starts_with in Hd. cbn in K, Hd. congruence.
Qed.

Definition hangs (u : chr) (a : string) : Prop := exists cs, a = String "-" cs /\ In u (chars cs) /\ ~ In "-"%char (chars cs).

Lemma worn_cluster ids u a a' : (forall c, In (IdShort c) ids -> c <> "-"%char) -> ~ In (IdShort u) ids -> u <> nul ->
  hangs u a -> worn true ids a a' -> hangs u a'.
Proof.
  intros Hids Hu Hn H Hw. induction Hw as [|a b c Hstep Hw IH]; [exact H|]. apply IH. clear IH Hw c.
  destruct H as (cs & -> & Hin & Hd).
  assert (K : forall c p q, In (IdShort c) ids \/ c = nul -> begins "-" (p +s+ String c q) = true ->
      p +s+ String c q = String "-" cs -> hangs u (p +s+ q)).
  { intros c p q Hc Hb E.
    assert (Hcd : c <> "-"%char) by (destruct Hc as [Hc|Hc]; [now apply Hids|intros ->; discriminate Hc]).
    destruct (begins_app_cons p c q Hb Hcd) as [p' ->]. cbn in E. injection E as E. subst cs.
    exists (p' +s+ q). split; [reflexivity|]. rewrite !chars_app in *. cbn [chars list_ascii_of_string] in *. fold (chars q) in *.
    rewrite !in_app_iff in *. cbn [In] in *. split.
    - destruct Hin as [Hin|[->|Hin]]; auto. destruct Hc; contradiction.
    - tauto. }
  inversion Hstep as [s0 Hbf Hs0 E0|c p q Hc Hb Hd0 Hpq E0|c p q Hc Hb Hd0 Hpq E0]; subst.
  - exfalso. apply Hd. now left.
  - eapply K; eauto.
  - exfalso. destruct (K c p q Hc Hb) as (cs' & E & Hi & _); [exact E0|]. rewrite Hpq in E. injection E as <-. destruct Hi.
Qed.

Lemma check_unknown_ret l : check_unknown_in l = Ret tt -> forall a, In a l -> a = "" \/ plain_word a.
Proof.
  induction l as [|x l IH]; [intros _ a []|]. cbn [check_unknown_in]. destruct x as [|c s].
  - intros H a [<-|Ha]; auto.
  - destruct (Ascii.eqb_spec c "-") as [->|Hc].
    + destruct (String.eqb_spec (String "-" s) "-") as [E|E].
      * intros H a [<-|Ha]; [right; split; [discriminate|now left]|auto].
      * destruct (_ && _); [|discriminate]. destruct (expand_multiple_flags _); discriminate.
    + intros H a [<-|Ha]; [right|auto]. split; [discriminate|right]. cbn. apply Ascii.eqb_neq. congruence.
Qed.

Lemma Forall2_at {A} (R : A -> A -> Prop) l1 a l2 l' : Forall2 R (l1 ++ a :: l2) l' -> exists a', In a' l' /\ R a a'.
Proof.
  revert l'; induction l1 as [|x l1 IH]; intros l' H; cbn in H; inversion H; subst.
  - eexists. split; [now left|eassumption].
  - destruct (IH _ H4) as (a' & H5 & H6). exists a'. split; [now right|exact H6].
Qed.

(** ** The stages before the positional options *)

Definition front (decls : list decl) : M pst unit :=
  mapM_ (option_call ndebug) decls ;; mapM_ flag_call decls ;; check_for_unknown_ids.

Lemma bind_assoc {A B C} (m : M pst A) (k : A -> M pst B) (h : B -> M pst C) st :
  bind (bind m k) h st = bind m (fun a => bind (k a) h) st.
Proof. unfold bind. destruct (m st) as [s []]; reflexivity. Qed.

Lemma parse_front decls st : parse_calls ndebug decls st =
  (front decls ;; drop_end_of_options ;; mapM_ (positional_call ndebug (List.length (filter is_positional decls))) decls ;; check_for_left_over_args) st.
Proof.
  unfold parse_calls, front. rewrite bind_assoc. apply bind_congr; [reflexivity|]. intros _ st1. rewrite bind_assoc. reflexivity.
Qed.

Lemma front_ret decls st st' : front decls st = (st', Ret tt) ->
  exists b1, eaten (flat_map option_idents decls) "" (pre st) b1 /\ Forall2 (worn true (flat_map flag_idents decls)) b1 (pre st') /\
    Forall2 (worn false (flat_map flag_idents decls)) (post st) (post st') /\ count st' = count st /\
    (forall a, In a (pre st') -> a = "" \/ plain_word a).
Proof.
  unfold front. intros H. apply bind_inv_p in H as (st1 & [] & H1 & H). apply bind_inv_p in H as (st2 & [] & H2 & H).
  unfold check_for_unknown_ids in H. injection H as <- H.
  pose proof (option_calls_rel ndebug decls st) as (A1 & A2 & A3 & _). rewrite H1 in A1, A2, A3. cbn [fst] in *.
  pose proof (flag_calls_rel decls st1) as (B1 & B2 & B3 & _). rewrite H2 in B1, B2, B3. cbn [fst] in *.
  exists (pre st1). repeat split; auto.
  - rewrite <- A2. exact B2.
  - congruence.
  - now apply check_unknown_ret.
Qed.

(** ** C11: unknown arguments *)

Lemma good_flags_nodash decls : wf_decls decls = true -> forall c, In (IdShort c) (flat_map flag_idents decls) -> c <> "-"%char.
Proof.
  intros H c Hc. apply good_short_nodash. unfold wf_decls in H. apply andb_true_iff in H as [H _]. apply andb_true_iff in H as [H _].
  eapply forallb_forall in H; [exact H|]. apply flat_map_decl_idents. now right.
Qed.

Lemma unknown_rejected decls args b r vs f l1 a l2 :
  wf_decls decls = true -> cut args b r -> b = l1 ++ a :: l2 ->
  (forall i, In i (flat_map option_idents decls) -> looks_like i a = false) -> ~ may_be_value (flat_map option_idents decls) l1 ->
  (exists s, a = "--" +s+ s /\ ~ In (IdLong s) (flat_map flag_idents decls)) \/
  (exists u, hangs u a /\ u <> nul /\ ~ In (IdShort u) (flat_map flag_idents decls)) ->
  snd (parse_args ndebug decls args vs f) <> Ret tt.
Proof.
  intros Hwf Hc Hb Hl Hv Hu Hr. unfold parse_args, init_pst in Hr. rewrite (cut_split _ _ _ Hc), parse_front in Hr. cbn [fst snd] in Hr.
  match type of Hr with snd (?m ?st) = _ => destruct (m st) as [st' q] eqn:E end. cbn [snd] in Hr. subst q.
  apply bind_inv_p in E as (st1 & [] & E & _). apply front_ret in E as (b1 & E1 & E2 & _ & _ & E3). cbn [pre] in E1. subst b.
  edestruct eaten_stays with (1 := E1) as (l1' & l2' & -> & _); auto.
  { intros _ i _ H. symmetry in H. now apply dashed_nonempty in H. }
  destruct (Forall2_at _ _ _ _ _ E2) as (a' & Ha' & Hw).
  destruct Hu as [(s & -> & Hs)|(u & Hh & Hn & Hu)].
  - assert (s <> "").
    { intros ->. destruct Hc as (_ & Hc & _). apply Hc. apply in_or_app. right. now left. }
    apply worn_long in Hw; auto. subst a'. destruct (E3 _ Ha') as [|[_ [?|?]]]; try discriminate.
  - eapply worn_cluster in Hw; eauto using good_flags_nodash. destruct Hw as (cs & -> & Hin & _).
    destruct (E3 _ Ha') as [|[_ [Hx|Hx]]]; try discriminate. injection Hx as ->. destruct Hin.
Qed.

(** ** Counting words *)

Lemma s_positionals_count ds : forall ws s, snd (s_positionals ndebug ds ws s) = Ret tt ->
  List.length (pos_types ds) <= List.length ws /\
  (forallb (fun t => negb (is_container t)) (pos_types ds) = true -> List.length ws = List.length (pos_types ds)).
Proof.
  induction ds as [|d ds IH]; intros ws s H.
  - destruct ws; [auto|discriminate].
  - destruct d as [x t c|x c|x t c]; try (apply (IH ws s H)). cbn [s_positionals] in H.
    destruct ws as [|w more]; [discriminate|]. cbn [pos_types flat_map app List.length forallb]. fold (pos_types ds).
    destruct (is_container t) eqn:Et; cbn [negb andb].
    + split; [|discriminate].
      match type of H with snd (?m s) = _ => destruct (m s) as [s' q] eqn:E end. cbn [snd] in H. subst q.
      apply bind_inv in E as (s1 & [] & _ & E). apply bind_inv in E as (s2 & [] & _ & E). apply bind_inv in E as (s3 & [] & _ & E).
      assert (H : snd (s_positionals ndebug ds [] s3) = Ret tt) by now rewrite E. apply IH in H as [H _]. cbn in H. lia.
    + match type of H with snd (?m s) = _ => destruct (m s) as [s' q] eqn:E end. cbn [snd] in H. subst q.
      apply bind_inv in E as (s1 & [] & _ & E). apply bind_inv in E as (s2 & [] & _ & E).
      assert (H : snd (s_positionals ndebug ds more s2) = Ret tt) by now rewrite E. apply IH in H as [H1 H2].
      split; [lia|]. intros Hf. now rewrite H2.
Qed.

(** the vector handed to the positional options, and the state they start from *)
Lemma parse_split decls args b r vs f : list_last (pos_types decls) = true -> cut args b r ->
  (exists st1 q, front decls {| pre := b; post := r; vars := vs; count := 0; fsys := f |} = (st1, q) /\ q <> Ret tt /\
     parse_args ndebug decls args vs f = (st1, q)) \/
  (exists st1, front decls {| pre := b; post := r; vars := vs; count := 0; fsys := f |} = (st1, Ret tt) /\
     agrees (parse_args ndebug decls args vs f) (s_positionals ndebug decls (filter nonempty (pre st1 ++ List.tl (post st1))) (abs st1))).
Proof.
  intros Hl Hc. unfold parse_args, init_pst. rewrite (cut_split _ _ _ Hc), parse_front. cbn [fst snd].
  set (st := {| pre := b; post := r; vars := vs; count := 0; fsys := f |}).
  destruct (front decls st) as [st1 q] eqn:E. destruct q as [[]|e|o| | |];
    try (left; eexists st1, _; split; [reflexivity|split; [discriminate|]]; unfold bind at 1; rewrite E; reflexivity).
  right. exists st1. split; [reflexivity|].
  assert (Hcount : count st1 = 0) by (apply front_ret in E as (_ & _ & _ & _ & E & _); exact E).
  set (st2 := set_args (pre st1 ++ match post st1 with [] => [] | _ :: p => EmptyString :: p end) [] st1).
  destruct (positional_stage ndebug decls (List.length (filter is_positional decls)) st2 (filter nonempty (pre st1 ++ List.tl (post st1)))) as (A & B & _).
  - exact Hl.
  - unfold st2. cbn [count set_args]. rewrite Hcount, is_positional_types. reflexivity.
  - unfold st2. cbn [pre set_args]. rewrite !filter_app. f_equal. now destruct (post st1).
  - reflexivity.
  - change (abs st2) with (abs st1) in A, B.
    unfold bind at 1. rewrite E.
    match goal with |- agrees ?p _ => change p with ((mapM_ (positional_call ndebug (List.length (filter is_positional decls))) decls ;; check_for_left_over_args) st2) end.
    unfold agrees. rewrite B. split; [|split; [|reflexivity]]; rewrite <- A; reflexivity.
Qed.

Lemma nonempty_eqb a : nonempty a = negb (String.eqb a "").
Proof. now destruct a. Qed.

Lemma accounted_lemma decls args vs f : list_last (pos_types decls) = true -> snd (parse_args ndebug decls args vs f) = Ret tt ->
  exists ws, accounted decls args ws /\ List.length (pos_types decls) <= List.length ws /\
    (forallb (fun t => negb (is_container t)) (pos_types decls) = true -> List.length ws = List.length (pos_types decls)).
Proof.
  intros Hl Hr. destruct (cut_exists args) as (b & r & Hc).
  destruct (parse_split decls args b r vs f Hl Hc) as [(st1 & q & _ & Hq & E)|(st1 & E & (_ & _ & A))].
  - rewrite E in Hr. cbn in Hr. contradiction.
  - rewrite Hr in A. cbn in A.
    match type of A with _ = okind_of (snd ?e) => destruct e as [s' q] eqn:Es end. destruct q as [[]|e|o| | |]; try discriminate.
    assert (H : snd (s_positionals ndebug decls (filter nonempty (pre st1 ++ List.tl (post st1))) (abs st1)) = Ret tt) by now rewrite Es.
    apply s_positionals_count in H as [H1 H2].
    exists (filter nonempty (pre st1 ++ List.tl (post st1))). split; [|auto].
    apply front_ret in E as (b1 & E1 & E2 & E3 & _ & E4). cbn [pre post] in *.
    exists b, r, b1, (pre st1), (post st1). repeat split; auto; try apply Hc. apply filter_ext. apply nonempty_eqb.
Qed.

(** ** C13: the arguments behind "--" *)

Definition blind (m : M pst unit) : Prop :=
  forall st q, m (set_args (pre st) q st) = (set_args (pre (fst (m st))) q (fst (m st)), snd (m st)).

Lemma blind_bind (m k : M pst unit) : blind m -> blind k -> blind (m ;; k).
Proof.
  intros Hm Hk st q. unfold bind. rewrite Hm. destruct (m st) as [st1 r]. cbn [fst snd].
  destruct r; try reflexivity. apply Hk.
Qed.

Lemma store_value_blind x t n w st q : store_value ndebug x t n w (set_args (pre st) q st) =
  (set_args (pre (fst (store_value ndebug x t n w st))) q (fst (store_value ndebug x t n w st)), snd (store_value ndebug x t n w st)).
Proof. unfold store_value. cbn. now destruct (parse_option_value t (vars st x) w). Qed.

Definition blindA {A} (m : M pst A) : Prop :=
  forall st q, m (set_args (pre st) q st) = (set_args (pre (fst (m st))) q (fst (m st)), snd (m st)).
Lemma blindA_bind {A B} (m : M pst A) (k : A -> M pst B) : blindA m -> (forall a, blindA (k a)) -> blindA (bind m k).
Proof.
  intros Hm Hk st q. unfold bind. rewrite Hm. destruct (m st) as [st1 r]. cbn [fst snd].
  destruct r; try reflexivity. apply Hk.
Qed.
Lemma blindA_ret {A} (a : A) : blindA (ret a).
Proof. intros st q. reflexivity. Qed.
Lemma blindA_throw {A} k m : blindA (@throw pst A k m).
Proof. intros st q. reflexivity. Qed.
Lemma retrieve_blind i x t b a r : blindA (retrieve ndebug i x t b a r).
Proof.
  unfold retrieve.
  assert (K : forall name w (p : list string * list string), blindA (store_value ndebug x t name w ;; ret p)).
  { intros. apply blindA_bind; [intros st q; apply store_value_blind|intros _; apply blindA_ret]. }
  destruct (_ <? _)%nat; [destruct (match snth _ _ with Some _ => _ | None => _ end); [destruct (_ =? _)%nat|]|destruct r as [|v r]];
    try apply K; apply blindA_throw.
Qed.
Lemma blindA_set_pre l : blindA (modify (set_pre l)).
Proof. intros st q. reflexivity. Qed.
Lemma get_all_blind i x t : forall fuel done rest, blindA (get_all ndebug fuel i x t done rest).
Proof.
  induction fuel as [|fuel IH]; intros done rest; cbn [get_all]; destruct (find_option_id i rest) as [[[b a] r]|]; try apply blindA_set_pre.
  - intros st q. reflexivity.
  - apply blindA_bind; [apply retrieve_blind|]. intros [b' r']. apply IH.
Qed.
Lemma get_by_id_blind i x t : blindA (get_by_id ndebug i x t).
Proof.
  unfold get_by_id. destruct (is_container t); intros st q.
  - unfold get_by_id_list. cbn [pre set_args]. destruct (find_option_id i (pre st)); [|reflexivity].
    revert st q. enough (H : forall l, blindA (modify (fun s => set_vars (set_var (vars s) x (VList [])) s) ;; get_all ndebug (S (List.length l)) i x t [] l ;; ret true)) by (intros st q; apply H).
    intros l. apply blindA_bind; [intros st q; reflexivity|intros _]. apply blindA_bind; [apply get_all_blind|intros _; apply blindA_ret].
  - unfold get_by_id_scalar. cbn [pre set_args]. destruct (find_option_id i (pre st)) as [[[b a] r]|]; [|reflexivity].
    apply blindA_bind; [apply retrieve_blind|]. intros [b' r']. apply blindA_bind; [apply blindA_set_pre|intros _].
    destruct (find_option_id i (snd (b', r'))); [apply blindA_throw|apply blindA_ret].
Qed.
Lemma get_option_blind x t c : blindA (get_option ndebug x t c).
Proof.
  unfold get_option. apply blindA_bind; [apply get_by_id_blind|intros s]. apply blindA_bind; [apply get_by_id_blind|intros l].
  destruct (_ && _ && _); [apply blindA_throw|]. destruct (_ || _); [|destruct (c_required c); [apply blindA_throw|apply blindA_ret]].
  intros st q. unfold run_validator. cbn [fsys vars set_args]. destruct (c_validator c (fsys st) (vars st x)) as [f' r]. reflexivity.
Qed.
Lemma option_calls_blind ds : blindA (mapM_ (option_call ndebug) ds).
Proof.
  induction ds as [|d ds IH]; cbn [mapM_]; [apply blindA_ret|]. apply blindA_bind; [|intros _; exact IH].
  destruct d; [apply get_option_blind|apply blindA_ret|apply blindA_ret].
Qed.

(** flags do not touch quiet words *)
Definition calm (ids : list ident) (q : list string) : Prop := forall c, In (IdShort c) ids \/ c = nul -> flag_scan c q = None.

Lemma get_flag_blind x c q st : calm (config_idents c) q -> calm (config_idents c) (post st) ->
  get_flag x c (set_args (pre st) q st) = (set_args (pre (fst (get_flag x c st))) q (fst (get_flag x c st)), snd (get_flag x c st)) /\
  post (fst (get_flag x c st)) = post st.
Proof.
  intros Hq Hp. assert (Hs : In (IdShort (c_short c)) (config_idents c) \/ c_short c = nul).
  { destruct (Ascii.eqb_spec (c_short c) nul) as [E|E]; [now right|left]. apply config_idents_In. auto. }
  specialize (Hq _ Hs). specialize (Hp _ Hs). unfold get_flag, bind, flag_is_set_short. cbn [pre post set_args].
  destruct (flag_scan (c_short c) (pre st)); [split; reflexivity|]. rewrite Hq, Hp. unfold flag_is_set_long. cbn [pre set_args].
  destruct (split_first _ (pre st)) as [[[? ?] ?]|]; split; reflexivity.
Qed.

Lemma flag_calls_blind ds q : calm (flat_map flag_idents ds) q -> forall st, calm (flat_map flag_idents ds) (post st) ->
  mapM_ flag_call ds (set_args (pre st) q st) = (set_args (pre (fst (mapM_ flag_call ds st))) q (fst (mapM_ flag_call ds st)), snd (mapM_ flag_call ds st)).
Proof.
  induction ds as [|d ds IH]; intros Hq st Hp; [reflexivity|]. cbn [mapM_ flat_map] in *.
  assert (Hq2 : calm (flat_map flag_idents ds) q) by (intros c [Hc|Hc]; apply Hq; auto; left; apply in_or_app; auto).
  assert (Hp2 : calm (flat_map flag_idents ds) (post st)) by (intros c [Hc|Hc]; apply Hp; auto; left; apply in_or_app; auto).
  unfold bind. destruct d as [x t c|x c|x t c]; try (now apply IH). cbn [flag_call flag_idents] in *.
  destruct (get_flag_blind x c q st) as [E1 E2].
  { intros c0 [Hc|Hc]; apply Hq; auto; left; apply in_or_app; auto. }
  { intros c0 [Hc|Hc]; apply Hp; auto; left; apply in_or_app; auto. }
  rewrite E1. destruct (get_flag x c st) as [st1 r]. cbn [fst snd] in *. destruct r; try reflexivity.
  apply IH; [exact Hq2|]. now rewrite E2.
Qed.

Lemma front_blind decls q : calm (flat_map flag_idents decls) q -> forall st, calm (flat_map flag_idents decls) (post st) ->
  front decls (set_args (pre st) q st) = (set_args (pre (fst (front decls st))) q (fst (front decls st)), snd (front decls st)).
Proof.
  intros Hq st Hp. unfold front. unfold bind at 1 3 5. rewrite option_calls_blind.
  pose proof (option_calls_rel ndebug decls st) as (_ & Hpost & _).
  destruct (mapM_ (option_call ndebug) decls st) as [st1 r] eqn:E. unfold bind at 2 4. rewrite !E. cbn [fst snd] in *.
  destruct r; try reflexivity. unfold bind. rewrite flag_calls_blind; [|exact Hq|now rewrite Hpost].
  destruct (mapM_ flag_call decls st1) as [st2 r2]. cbn [fst snd]. destruct r2; reflexivity.
Qed.

Lemma quiet_calm decls ws : wf_decls decls = true -> quiet decls ws -> calm (flat_map flag_idents decls) ("--" :: ws).
Proof.
  intros Hwf Hq c Hc. apply (tail_scan (flat_map flag_idents decls) c (Some ws)); auto.
  - destruct Hc as [Hc| ->]; [eapply good_flags_nodash; eauto|discriminate].
  - destruct Hc; auto.
Qed.

Lemma quiet_nonempty decls ws : quiet decls ws -> filter nonempty ws = ws.
Proof.
  unfold quiet, wf_tail. induction ws as [|w ws IH]; [reflexivity|]. cbn [forallb filter]. intros H. apply andb_true_iff in H as [H1 H2].
  apply andb_true_iff in H1 as [H1 _]. apply andb_true_iff in H1 as [H1 _]. unfold nonempty at 1. rewrite H1. now rewrite IH.
Qed.

Lemma tail_lemma decls b vs f : wf_decls decls = true -> ~ In "--" b ->
  (exists vs1 f1 q, q <> Ret tt /\ forall ws, quiet decls ws ->
     vars (fst (parse_args ndebug decls (b ++ "--" :: ws) vs f)) = vs1 /\ fsys (fst (parse_args ndebug decls (b ++ "--" :: ws) vs f)) = f1 /\
     snd (parse_args ndebug decls (b ++ "--" :: ws) vs f) = q) \/
  (exists vs1 f1 ws0, forall ws, quiet decls ws ->
     agrees (parse_args ndebug decls (b ++ "--" :: ws) vs f) (s_positionals ndebug decls (ws0 ++ ws) {| s_vars := vs1; s_fs := f1 |})).
Proof.
  intros Hwf Hb. set (st0 := {| pre := b; post := ["--"]; vars := vs; count := 0; fsys := f |}).
  assert (Hl : list_last (pos_types decls) = true) by (unfold wf_decls in Hwf; now apply andb_true_iff in Hwf as [_ Hwf]).
  assert (F : forall ws, quiet decls ws -> front decls {| pre := b; post := "--" :: ws; vars := vs; count := 0; fsys := f |} =
     (set_args (pre (fst (front decls st0))) ("--" :: ws) (fst (front decls st0)), snd (front decls st0))).
  { intros ws Hq. change {| pre := b; post := "--" :: ws; vars := vs; count := 0; fsys := f |} with (set_args (pre st0) ("--" :: ws) st0).
    apply front_blind; [now apply quiet_calm|]. cbn [post st0]. now apply quiet_calm. }
  assert (C : forall ws, cut (b ++ "--" :: ws) b ("--" :: ws)) by (intros ws; repeat split; eauto).
  destruct (snd (front decls st0)) as [[]|e|o| | |] eqn:E.
  1:{ right. exists (vars (fst (front decls st0))), (fsys (fst (front decls st0))), (filter nonempty (pre (fst (front decls st0)))).
      intros ws Hq. destruct (parse_split decls _ b _ vs f Hl (C ws)) as [(st1 & q & E1 & E2 & E3)|(st1 & E1 & E2)].
      - rewrite (F ws Hq) in E1. injection E1 as _ <-. contradiction.
      - rewrite (F ws Hq) in E1. injection E1 as <-. cbn [pre post set_args List.tl] in E2. rewrite filter_app, (quiet_nonempty decls ws Hq) in E2. exact E2. }
  all: left; exists (vars (fst (front decls st0))), (fsys (fst (front decls st0))), (snd (front decls st0)); split; [rewrite E; discriminate|];
      intros ws Hq; destruct (parse_split decls _ b _ vs f Hl (C ws)) as [(st1 & q & E1 & E2 & E3)|(st1 & E1 & E2)];
      rewrite (F ws Hq), ?E in E1; [injection E1 as <- <-|discriminate]; rewrite E3, E; cbn; repeat split.
Qed.

(** ** C17: with positional options only, empty arguments do not exist *)

Lemma positional_only_front decls st : forallb is_positional decls = true -> front decls st = (st, check_unknown_in (pre st)).
Proof.
  intros H. unfold front.
  assert (N : forall f : decl -> M pst unit, (forall d s, is_positional d = true -> f d s = (s, Ret tt)) -> forall s, mapM_ f decls s = (s, Ret tt)).
  { intros f Hf. revert H. induction decls as [|d ds IH]; intros H s; [reflexivity|]. cbn [forallb] in H. apply andb_true_iff in H as [H1 H2].
    cbn [mapM_]. unfold bind. rewrite Hf by exact H1. now apply IH. }
  unfold bind. rewrite N by (intros [] s Hs; try discriminate; reflexivity). rewrite N by (intros [] s Hs; try discriminate; reflexivity). reflexivity.
Qed.

Lemma check_unknown_filter l : check_unknown_in (filter nonempty l) = check_unknown_in l.
Proof.
  induction l as [|a l IH]; [reflexivity|]. destruct a as [|c s]; [exact IH|]. cbn [filter nonempty is_empty negb check_unknown_in]. now rewrite IH.
Qed.

Lemma cut_filter args b r : cut args b r -> cut (filter nonempty args) (filter nonempty b) (filter nonempty r).
Proof.
  intros (-> & Hb & Hr). repeat split.
  - apply filter_app.
  - intros H. apply filter_In in H as [H _]. contradiction.
  - destruct Hr as [->|[r' ->]]; [now left|right]. cbn. eauto.
Qed.

Lemma empty_ignored decls args vs f : forallb is_positional decls = true -> list_last (pos_types decls) = true ->
  same_run (parse_args ndebug decls args vs f) (parse_args ndebug decls (filter nonempty args) vs f).
Proof.
  intros Hp Hl. destruct (cut_exists args) as (b & r & Hc). pose proof (cut_filter _ _ _ Hc) as Hc'.
  assert (Et : filter nonempty (List.tl (filter nonempty r)) = filter nonempty (List.tl r)).
  { destruct Hc as (_ & _ & [->|[r' ->]]); [reflexivity|]. cbn [filter nonempty is_empty negb List.tl].
    clear. induction r' as [|a r' IH]; [reflexivity|]. cbn [filter]. destruct (nonempty a) eqn:E; [|exact IH]. cbn [filter]. now rewrite E, IH. }
  assert (Eb : filter nonempty (filter nonempty b) = filter nonempty b).
  { clear. induction b as [|a r' IH]; [reflexivity|]. cbn [filter]. destruct (nonempty a) eqn:E; [|exact IH]. cbn [filter]. now rewrite E, IH. }
  destruct (parse_split decls _ _ _ vs f Hl Hc) as [(st1 & q & E1 & E2 & E3)|(st1 & E1 & E2)];
  destruct (parse_split decls _ _ _ vs f Hl Hc') as [(st1' & q' & E1' & E2' & E3')|(st1' & E1' & E2')];
  rewrite positional_only_front in E1, E1' by exact Hp; cbn [pre] in *; rewrite check_unknown_filter in E1';
  injection E1 as <- Eq; injection E1' as <- Eq'.
  - rewrite E3, E3'. subst q q'. repeat split.
  - rewrite Eq' in Eq. congruence.
  - rewrite Eq in Eq'. congruence.
  - cbn [pre post] in *. rewrite filter_app, Et, Eb, <- filter_app in E2'.
    destruct E2 as (A1 & A2 & A3), E2' as (B1 & B2 & B3). unfold abs in *. cbn [vars fsys] in *. repeat split; congruence.
Qed.

End flags.
