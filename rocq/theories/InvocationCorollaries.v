(** Consequences of the refinement theorem. *)
From Verif Require Import Base StrLib Fs Values Validators FormatParse Invocation InvocationProofs.
From Coq Require Import Permutation.

Section corollaries.
Variable ndebug : bool.

(** ** Invocations with the same meaning *)

Lemma s_values_nil x t s : s_values ndebug x t [] s = (s, Ret tt).
Proof. unfold s_values. now destruct (is_container t). Qed.

Lemma bind_ret_l {St A B} (a : A) (k : A -> M St B) s : bind (ret a) k s = k a s.
Proof. reflexivity. Qed.

Lemma short_long_values its c :
  (given (short_values its c) = false -> option_values its c = long_values its c) /\
  (given (long_values its c) = false -> option_values its c = short_values its c).
Proof.
  assert (Hmem : forall i, mem_ident i (config_idents c) =
     (negb (Ascii.eqb (c_short c) nul) && ident_eqb (IdShort (c_short c)) i) ||
     (negb (is_empty (c_long c)) && ident_eqb (IdLong (c_long c)) i)).
  { intros i. apply eq_true_iff_eq. rewrite mem_ident_In, config_idents_In.
    rewrite orb_true_iff, !andb_true_iff, !negb_true_iff, !ident_eqb_eq, Ascii.eqb_neq, is_empty_false.
    intuition congruence. }
  unfold option_values, short_values, long_values, values_of.
  set (F := fun it => match it with
              | IOpt i _ v => if mem_ident i (config_idents c) then [Some v] else []
              | IMissing i | IDangling i => if mem_ident i (config_idents c) then [None] else []
              | _ => [] end).
  assert (HF : forall it, Permutation (F it)
     ((if Ascii.eqb (c_short c) nul then [] else item_values (IdShort (c_short c)) it) ++
      (if is_empty (c_long c) then [] else item_values (IdLong (c_long c)) it))).
  { intros [i sp v|i|i|cs|s|w]; unfold F; cbn [item_values]; rewrite ?Hmem;
    destruct (Ascii.eqb (c_short c) nul), (is_empty (c_long c)); cbn [negb andb orb]; try reflexivity;
    destruct i as [d|t]; cbn [ident_eqb]; rewrite ?orb_false_r; cbn [orb app]; try reflexivity;
    repeat (match goal with |- context [if ?b then _ else _] => destruct b end); reflexivity. }
  split; intros H; induction its as [|it its IH].
  - now destruct (is_empty (c_long c)).
  - cbn [flat_map]. destruct (Ascii.eqb (c_short c) nul) eqn:E.
    + cbn [app] in HF. rewrite IH by reflexivity.
      destruct (is_empty (c_long c)).
      * specialize (HF it). apply Permutation_sym, Permutation_nil in HF. now rewrite HF.
      * f_equal. specialize (HF it). destruct it as [i sp v|i|i|cs|s|w]; cbn in *; auto;
          destruct i as [d|t]; cbn in *;
          repeat (match goal with |- context [if ?b then _ else _] => destruct b end); auto;
          try (apply Permutation_nil in HF; discriminate);
          try (apply Permutation_sym, Permutation_nil in HF; discriminate).
    + cbn [flat_map] in H. destruct (item_values (IdShort (c_short c)) it) as [|a l] eqn:Es; [|discriminate].
      cbn [app] in H. specialize (IH H). rewrite IH. specialize (HF it). rewrite Es in HF. cbn [app] in HF.
      destruct (is_empty (c_long c)).
      * apply Permutation_sym, Permutation_nil in HF. now rewrite HF.
      * f_equal. destruct it as [i sp v|i|i|cs|s|w]; cbn in *; auto;
          destruct i as [d|t]; cbn in *;
          repeat (match goal with |- context [if ?b then _ else _] => destruct b end); auto;
          try (apply Permutation_nil in HF; discriminate);
          try (apply Permutation_sym, Permutation_nil in HF; discriminate).
  - now destruct (Ascii.eqb (c_short c) nul).
  - cbn [flat_map]. destruct (is_empty (c_long c)) eqn:E.
    + rewrite IH by reflexivity. specialize (HF it). rewrite app_nil_r in HF.
      destruct (Ascii.eqb (c_short c) nul).
      * apply Permutation_sym, Permutation_nil in HF. now rewrite HF.
      * f_equal. destruct it as [i sp v|i|i|cs|s|w]; cbn in *; auto;
          destruct i as [d|t]; cbn in *;
          repeat (match goal with |- context [if ?b then _ else _] => destruct b end); auto;
          try (apply Permutation_nil in HF; discriminate);
          try (apply Permutation_sym, Permutation_nil in HF; discriminate).
    + cbn [flat_map] in H. destruct (item_values (IdLong (c_long c)) it) as [|a l] eqn:Es; [|discriminate].
      cbn [app] in H. specialize (IH H). rewrite IH. specialize (HF it). rewrite Es, app_nil_r in HF.
      destruct (Ascii.eqb (c_short c) nul).
      * apply Permutation_sym, Permutation_nil in HF. now rewrite HF.
      * f_equal. destruct it as [i sp v|i|i|cs|s|w]; cbn in *; auto;
          destruct i as [d|t]; cbn in *;
          repeat (match goal with |- context [if ?b then _ else _] => destruct b end); auto;
          try (apply Permutation_nil in HF; discriminate);
          try (apply Permutation_sym, Permutation_nil in HF; discriminate).
Qed.

(** an option given through at most one name *)
Definition s_option_values (vals : list (option string)) (x : addr) (t : vty) (c : config) : M sst unit :=
  s_values ndebug x t vals ;;
  (if given vals then s_validate (c_validator c) x else if c_required c then fail KRequiredMissing else ret tt).

Lemma s_option_one_name its x t c s : one_name its c = true ->
  s_option ndebug its (DOption x t c) s = s_option_values (option_values its c) x t c s.
Proof.
  unfold one_name. intros H. apply negb_true_iff in H. destruct (short_long_values its c) as [H1 H2].
  cbn [s_option]. unfold s_option_values.
  destruct (given (short_values its c)) eqn:Es; destruct (given (long_values its c)) eqn:El; try discriminate.
  - rewrite H2 by reflexivity. rewrite Es. unfold bind.
    destruct (s_values ndebug x t (short_values its c) s) as [s1 [[]|e|o| | |]]; try reflexivity.
    destruct (long_values its c); [|discriminate]. rewrite s_values_nil. reflexivity.
  - rewrite H1 by reflexivity. rewrite El. unfold bind.
    destruct (short_values its c); [|discriminate]. rewrite s_values_nil.
    destruct (s_values ndebug x t (long_values its c) s) as [s1 [[]|e|o| | |]]; reflexivity.
  - rewrite H1 by reflexivity. rewrite El. unfold bind.
    destruct (short_values its c); [|discriminate]. rewrite s_values_nil.
    destruct (s_values ndebug x t (long_values its c) s) as [s1 [[]|e|o| | |]]; reflexivity.
Qed.

Lemma mapM_ext {St A} (f g : A -> M St unit) l s : (forall a s, In a l -> f a s = g a s) -> mapM_ f l s = mapM_ g l s.
Proof.
  revert s; induction l as [|a l IH]; intros s H; [reflexivity|]. cbn [mapM_]. unfold bind.
  rewrite H by now left. destruct (g a s) as [s' [[]|e|o| | |]]; try reflexivity. apply IH. intros b s0 Hb. apply H. now right.
Qed.

Lemma bind_ext {St A B} (m m' : M St A) (k k' : A -> M St B) s :
  m s = m' s -> (forall a s', k a s' = k' a s') -> bind m k s = bind m' k' s.
Proof. unfold bind. intros -> H. destruct (m' s) as [s' [a|e|o| | |]]; auto. Qed.

Lemma existsb_perm {A} (f : A -> bool) l l' : Permutation l l' -> existsb f l = existsb f l'.
Proof.
  intros H. apply eq_true_iff_eq. rewrite !existsb_exists. split; intros (a & Ha & Hf); exists a; split; auto.
  - eapply Permutation_in; eassumption.
  - eapply Permutation_in; [symmetry|]; eassumption.
Qed.

Lemma eval_same decls inv inv' s :
  one_names decls (items inv) = true -> one_names decls (items inv') = true ->
  (forall x t c, In (DOption x t c) decls -> option_values (items inv) c = option_values (items inv') c) ->
  Permutation (mentions (items inv)) (mentions (items inv')) ->
  words inv = words inv' ->
  eval ndebug decls inv s = eval ndebug decls inv' s.
Proof.
  intros H1 H2 Hv Hm Hw. unfold eval. apply bind_ext.
  { apply mapM_ext. intros [x t c|x c|x t c] s' Hin; try reflexivity.
    assert (O1 : one_name (items inv) c = true) by exact (proj1 (forallb_forall _ _) H1 _ Hin).
    assert (O2 : one_name (items inv') c = true) by exact (proj1 (forallb_forall _ _) H2 _ Hin).
    rewrite !s_option_one_name by assumption. now rewrite (Hv x t c Hin). }
  intros _ s1. apply bind_ext.
  { apply mapM_ext. intros [x t c|x c|x t c] s' Hin; try reflexivity. cbn [s_flag].
    now rewrite (existsb_perm _ _ _ Hm). }
  intros _ s2. apply bind_ext.
  { unfold unknown. rewrite (existsb_perm _ _ _ Hm).
    assert (E : existsb (fun d => (2 <=? count_in (flag_idents d) (mentions (items inv)))%nat) decls =
                existsb (fun d => (2 <=? count_in (flag_idents d) (mentions (items inv')))%nat) decls).
    { clear -Hm. induction decls as [|d ds IH]; [reflexivity|]. cbn [existsb]. now rewrite IH, (count_in_perm _ _ _ Hm). }
    now rewrite E. }
  intros _ s3. now rewrite Hw.
Qed.

Lemma same_meaning decls inv inv' vs f :
  wf_decls decls = true -> wf_invocation decls inv = true -> wf_invocation decls inv' = true ->
  one_names decls (items inv) = true -> one_names decls (items inv') = true ->
  (forall x t c, In (DOption x t c) decls -> option_values (items inv) c = option_values (items inv') c) ->
  Permutation (mentions (items inv)) (mentions (items inv')) ->
  words inv = words inv' ->
  same_run (parse_args ndebug decls (render inv) vs f) (parse_args ndebug decls (render inv') vs f).
Proof.
  intros Hd W1 W2 O1 O2 Hv Hm Hw.
  destruct (parse_args_refines ndebug decls inv vs f Hd W1) as (A1 & A2 & A3).
  destruct (parse_args_refines ndebug decls inv' vs f Hd W2) as (B1 & B2 & B3).
  rewrite (eval_same decls inv inv') in A1, A2, A3 by assumption.
  unfold same_run. repeat split; congruence.
Qed.

(** ** Spellings *)

Lemma NoDup_flat_map_same {A B} (f : A -> list B) l a b i :
  NoDup (flat_map f l) -> In a l -> In b l -> In i (f a) -> In i (f b) -> a = b.
Proof.
  induction l as [|x l IH]; [intros _ []|]. cbn. intros Hnd Ha Hb Hia Hib.
  destruct (NoDup_app_parts _ _ Hnd) as [_ Hnd'].
  destruct Ha as [->|Ha], Hb as [->|Hb]; auto.
  - exfalso. apply (NoDup_app_disj _ _ i Hnd Hia). apply in_flat_map. eauto.
  - exfalso. apply (NoDup_app_disj _ _ i Hnd Hib). apply in_flat_map. eauto.
Qed.

Lemma wf_decls_options decls : wf_decls decls = true -> NoDup (flat_map option_idents decls).
Proof.
  intros H. unfold wf_decls in H. apply andb_prop in H as [H _]. apply andb_prop in H as [_ H].
  apply nodup_idents_NoDup, nodup_decls in H. tauto.
Qed.

Lemma respelled_values decls its its' x t c : wf_decls decls = true -> In (DOption x t c) decls ->
  Forall2 (respelled decls) its its' -> option_values its c = option_values its' c.
Proof.
  intros Hwf Hin H. apply wf_decls_options in Hwf. unfold option_values.
  assert (Hsame : forall x2 t2 c2 i j, In (DOption x2 t2 c2) decls -> In i (config_idents c2) -> In j (config_idents c2) ->
    mem_ident i (config_idents c) = mem_ident j (config_idents c)).
  { intros x2 t2 c2 i j H2 Hi Hj. apply eq_true_iff_eq. rewrite !mem_ident_In. split; intros Hm.
    - pose proof (NoDup_flat_map_same _ _ _ _ i Hwf H2 Hin Hi Hm) as E. injection E as _ _ <-. exact Hj.
    - pose proof (NoDup_flat_map_same _ _ _ _ j Hwf H2 Hin Hj Hm) as E. injection E as _ _ <-. exact Hi. }
  induction H as [|it it' its its' Hr _ IH]; [reflexivity|]. cbn [flat_map]. rewrite IH. f_equal.
  inversion Hr as [|x2 t2 c2 i j sp sp' v H2 Hi Hj|x2 t2 c2 i j ? ? H2 Hi Hj E1 E2]; subst.
  - reflexivity.
  - now rewrite (Hsame _ _ _ _ _ H2 Hi Hj).
  - destruct E1 as [->| ->], E2 as [->| ->]; now rewrite (Hsame _ _ _ _ _ H2 Hi Hj).
Qed.

Lemma respelled_rest decls its its' : Forall2 (respelled decls) its its' ->
  mentions its = mentions its' /\ flat_map (fun it => match it with IWord w => [w] | _ => [] end) its =
  flat_map (fun it => match it with IWord w => [w] | _ => [] end) its'.
Proof.
  induction 1 as [|it it' its its' Hr _ [IH1 IH2]]; [auto|]. unfold mentions in *. cbn [flat_map]. rewrite IH1, IH2.
  inversion Hr as [|x2 t2 c2 i j sp sp' v H2 Hi Hj|x2 t2 c2 i j ? ? H2 Hi Hj E1 E2]; subst; auto.
  destruct E1 as [->| ->], E2 as [->| ->]; auto.
Qed.

Lemma spellings_equivalent_lemma decls inv inv' vs f :
  wf_decls decls = true -> wf_invocation decls inv = true -> wf_invocation decls inv' = true ->
  one_names decls (items inv) = true -> one_names decls (items inv') = true ->
  Forall2 (respelled decls) (items inv) (items inv') -> tail inv = tail inv' ->
  same_run (parse_args ndebug decls (render inv) vs f) (parse_args ndebug decls (render inv') vs f).
Proof.
  intros Hd W1 W2 O1 O2 HF Ht. destruct (respelled_rest decls _ _ HF) as [Hm Hw].
  apply same_meaning; auto.
  - intros x t c Hin. eapply respelled_values; eauto.
  - now rewrite Hm.
  - unfold words. now rewrite Hw, Ht.
Qed.

(** ** Clusters *)

Lemma split_values its i : values_of (flat_map split_cluster its) i = values_of its i.
Proof.
  unfold values_of. induction its as [|it its IH]; [reflexivity|]. cbn [flat_map]. rewrite flat_map_app, IH. f_equal.
  destruct it; cbn; rewrite ?app_nil_r; try reflexivity. now induction (chars cs).
Qed.

Lemma split_mentions its : mentions (flat_map split_cluster its) = mentions its.
Proof.
  unfold mentions. induction its as [|it its IH]; [reflexivity|]. cbn [flat_map]. rewrite flat_map_app, IH. f_equal.
  destruct it; cbn; try reflexivity. induction (chars cs) as [|d l IHl]; [reflexivity|]. cbn [map flat_map item_flags str1 chars list_ascii_of_string app].
  now rewrite IHl.
Qed.

Lemma split_words its : flat_map (fun it => match it with IWord w => [w] | _ => [] end) (flat_map split_cluster its) =
  flat_map (fun it => match it with IWord w => [w] | _ => [] end) its.
Proof.
  induction its as [|it its IH]; [reflexivity|]. cbn [flat_map]. rewrite flat_map_app, IH. f_equal.
  destruct it; cbn; try reflexivity. now induction (chars cs).
Qed.

Lemma split_options its c : short_values (flat_map split_cluster its) c = short_values its c /\
  long_values (flat_map split_cluster its) c = long_values its c.
Proof. unfold short_values, long_values. now rewrite !split_values. Qed.

Lemma eval_split decls inv s :
  eval ndebug decls {| items := flat_map split_cluster (items inv); tail := tail inv |} s = eval ndebug decls inv s.
Proof.
  unfold eval. cbn [items]. apply bind_ext.
  { apply mapM_ext. intros [x t c|x c|x t c] s' Hin; try reflexivity. cbn [s_option].
    destruct (split_options (items inv) c) as [-> ->]. reflexivity. }
  intros _ s1. apply bind_ext.
  { apply mapM_ext. intros [x t c|x c|x t c] s' Hin; try reflexivity. cbn [s_flag]. now rewrite split_mentions. }
  intros _ s2. apply bind_ext.
  { unfold unknown. now rewrite split_mentions. }
  intros _ s3. unfold words. cbn [items tail]. now rewrite split_words.
Qed.

Lemma dangling_last_app a b : dangling_last (a ++ b) = true <->
  dangling_last b = true /\ (dangling_last a = true /\ (b = [] \/ forallb (fun it => match it with IDangling _ => false | _ => true end) a = true)).
Proof.
  induction a as [|it a IH]; [cbn; tauto|]. cbn [app].
  destruct it as [i sp v|i|i|cs|s|w]; cbn [dangling_last forallb andb]; try exact IH.
  destruct a as [|it' a]; cbn [app].
  - destruct b; cbn; intuition congruence.
  - cbn. intuition congruence.
Qed.

Lemma split_dangling its : dangling_last its = true -> dangling_last (flat_map split_cluster its) = true.
Proof.
  induction its as [|it its IH]; [reflexivity|]. cbn [flat_map]. intros H.
  destruct it as [i sp v|i|i|cs|s|w]; cbn [split_cluster app]; cbn [dangling_last] in *; auto.
  - destruct its; [reflexivity|discriminate].
  - specialize (IH H). induction (chars cs) as [|d l IHl]; cbn; auto.
Qed.

Lemma split_wf decls inv : wf_decls decls = true -> wf_invocation decls inv = true ->
  forallb (fun i => mem_ident i (flat_map flag_idents decls)) (mentions (items inv)) = true ->
  wf_invocation decls {| items := flat_map split_cluster (items inv); tail := tail inv |} = true.
Proof.
  intros Hd Hw Hfl. unfold wf_invocation in *. cbn [items tail]. apply andb_prop in Hw as [Hw Ht].
  apply andb_prop in Hw as [Hw Hdl]. rewrite Ht, split_dangling by exact Hdl. rewrite andb_true_r. rewrite andb_true_r.
  unfold wf_decls in Hd. apply andb_prop in Hd as [Hd _]. apply andb_prop in Hd as [Hg Hnd].
  apply nodup_idents_NoDup, nodup_decls in Hnd as (_ & _ & Hdis). rewrite forallb_forall in Hg.
  apply forallb_forall. intros it Hit. apply in_flat_map in Hit as (it0 & Hin & Hit).
  pose proof (proj1 (forallb_forall _ _) Hw it0 Hin) as Hwf0.
  destruct it0 as [i sp v|i|i|cs|s|w]; cbn [split_cluster] in Hit; try (destruct Hit as [<-|[]]; exact Hwf0).
  apply in_map_iff in Hit as (c & <- & Hc).
  assert (Hflag : In (IdShort c) (flat_map flag_idents decls)).
  { apply mem_ident_In. apply (proj1 (forallb_forall _ _) Hfl). unfold mentions. apply in_flat_map.
    exists (ICluster cs). split; [exact Hin|]. now apply in_map. }
  cbn [wf_item] in Hwf0 |- *. apply andb_prop in Hwf0 as [Hwf0 _]. apply andb_prop in Hwf0 as [_ Hch].
  rewrite sall_forallb in Hch. pose proof (proj1 (forallb_forall _ _) Hch c Hc) as Hcc.
  cbn [is_empty negb str1 sall]. rewrite Hcc. cbn [andb].
  apply negb_true_iff, not_true_iff_false. intros He. apply existsb_exists in He as (i & Hi & Hl).
  apply andb_prop in Hcc as [Hcd _]. apply negb_true_iff, Ascii.eqb_neq in Hcd.
  destruct i as [d|t]; cbn -[String.prefix String.eqb] in Hl.
  - apply prefix_iff in Hl as [r Hl]. cbn in Hl. injection Hl as <- _. now apply (Hdis (IdShort c)).
  - apply orb_true_iff in Hl as [Hl|Hl].
    + apply String.eqb_eq in Hl. injection Hl as Hl _. congruence.
    + apply prefix_iff in Hl as [r Hl]. cbn in Hl. injection Hl as Hl _. congruence.
Qed.

Lemma clusters_equivalent_lemma decls inv vs f :
  wf_decls decls = true -> wf_invocation decls inv = true ->
  forallb (fun i => mem_ident i (flat_map flag_idents decls)) (mentions (items inv)) = true ->
  same_run (parse_args ndebug decls (render inv) vs f)
           (parse_args ndebug decls (render {| items := flat_map split_cluster (items inv); tail := tail inv |}) vs f).
Proof.
  intros Hd Hw Hfl. pose proof (split_wf decls inv Hd Hw Hfl) as Hw'.
  destruct (parse_args_refines ndebug decls inv vs f Hd Hw) as (A1 & A2 & A3).
  destruct (parse_args_refines ndebug decls _ vs f Hd Hw') as (B1 & B2 & B3).
  rewrite eval_split in B1, B2, B3. unfold same_run. repeat split; congruence.
Qed.

End corollaries.
