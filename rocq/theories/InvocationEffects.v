(** What accepted command lines leave in the variables; order of declarations. *)
From Verif Require Import Base StrLib Fs Values Validators FormatParse Invocation InvocationProofs InvocationCorollaries.
From Coq Require Import Permutation.

Section effects.
Variable ndebug : bool.

(** ** Actions that concern one variable *)

Definition local (x : addr) (m : M sst unit) : Prop :=
  (forall s s', s_vars s x = s_vars s' x -> s_fs s = s_fs s' ->
     s_vars (fst (m s)) x = s_vars (fst (m s')) x /\ s_fs (fst (m s)) = s_fs (fst (m s')) /\ snd (m s) = snd (m s')) /\
  (forall s y, y <> x -> s_vars (fst (m s)) y = s_vars s y).

Lemma local_ret x : local x (ret tt).
Proof. split; intros; cbn; auto. Qed.
Lemma local_fail x k : local x (fail k).
Proof. split; intros; cbn; auto. Qed.
Lemma local_assert x : local x (fun s => (s, AssertFail)).
Proof. split; intros; cbn; auto. Qed.
Lemma local_set x v : local x (s_set x v).
Proof.
  split; intros; cbn; unfold set_var; rewrite ?Nat.eqb_refl; auto.
  apply not_eq_sym, Nat.eqb_neq in H. now rewrite H.
Qed.
Lemma local_bind x m k : local x m -> local x k -> local x (m ;; k).
Proof.
  intros [Hm1 Hm2] [Hk1 Hk2]. split.
  - intros s s' Hv Hf. destruct (Hm1 s s' Hv Hf) as (E1 & E2 & E3). unfold bind.
    destruct (m s) as [s1 r1]; destruct (m s') as [s2 r2]; cbn in *. subst r2.
    destruct r1; cbn; auto.
  - intros s y Hy. specialize (Hm2 s y Hy). unfold bind. destruct (m s) as [s1 r1]; cbn in *.
    destruct r1; cbn; auto. rewrite Hk2 by exact Hy. exact Hm2.
Qed.
Lemma local_assign x t w : local x (s_assign ndebug x t w).
Proof.
  split.
  - intros s s' Hv Hf. unfold s_assign. rewrite Hv.
    assert (H : forall m, local x m -> s_vars (fst (m s)) x = s_vars (fst (m s')) x /\ s_fs (fst (m s)) = s_fs (fst (m s')) /\ snd (m s) = snd (m s')).
    { intros m [Hm _]. now apply Hm. }
    destruct (parse_option_value t (s_vars s' x) w) as [v [| |]|e].
    + apply H, local_set.
    + apply (H (s_set x v ;; fail KUserInput)), local_bind; [apply local_set|apply local_fail].
    + apply (H (s_set x v ;; (if is_arithmetic t then fail KUserInput else if ndebug then ret tt else fun s => (s, AssertFail)))), local_bind;
        [apply local_set|]. destruct (is_arithmetic t); [apply local_fail|]. destruct ndebug; [apply local_ret|apply local_assert].
    + cbn. auto.
  - intros s y Hy. unfold s_assign.
    destruct (parse_option_value t (s_vars s x) w) as [v [| |]|e]; try reflexivity.
    + now apply local_set.
    + assert (L : local x (s_set x v ;; fail KUserInput)) by (apply local_bind; [apply local_set|apply local_fail]).
      now apply L.
    + assert (L : local x (s_set x v ;; (if is_arithmetic t then fail KUserInput else if ndebug then ret tt else fun s => (s, AssertFail)))).
      { apply local_bind; [apply local_set|]. destruct (is_arithmetic t); [apply local_fail|]. destruct ndebug; [apply local_ret|apply local_assert]. }
      now apply L.
Qed.
Lemma local_given x t v : local x (s_given ndebug x t v).
Proof. destruct v; [apply local_assign|apply local_fail]. Qed.
Lemma local_mapM {A} x (f : A -> M sst unit) l : (forall a, local x (f a)) -> local x (mapM_ f l).
Proof. intros H. induction l; cbn; [apply local_ret|now apply local_bind]. Qed.
Lemma local_values x t vs : local x (s_values ndebug x t vs).
Proof.
  unfold s_values. destruct (is_container t).
  - destruct vs; [apply local_ret|]. apply local_bind; [apply local_set|]. apply local_mapM, local_given.
  - destruct vs; [apply local_ret|]. apply local_bind; [apply local_given|]. destruct vs; [apply local_ret|apply local_fail].
Qed.
Lemma local_validate v x : local x (s_validate v x).
Proof.
  split.
  - intros s s' Hv Hf. unfold s_validate. rewrite Hv, Hf. destruct (v (s_fs s') (s_vars s' x)); cbn. auto.
  - intros s y Hy. unfold s_validate. now destruct (v (s_fs s) (s_vars s x)).
Qed.
Lemma local_option its d : local (bound_addr d) (s_option ndebug its d).
Proof.
  destruct d as [x t c|x c|x t c]; try apply local_ret. cbn [bound_addr s_option].
  apply local_bind; [apply local_values|]. apply local_bind; [apply local_values|].
  destruct (_ && _ && _); [apply local_fail|]. destruct (_ || _); [apply local_validate|].
  destruct (c_required c); [apply local_fail|apply local_ret].
Qed.
Lemma local_flag its d : local (bound_addr d) (s_flag its d).
Proof.
  destruct d as [x t c|x c|x t c]; try apply local_ret. cbn [bound_addr]. split.
  - intros s s' Hv Hf. unfold s_flag. rewrite Hv. now apply local_set.
  - intros s y Hy. unfold s_flag. now apply local_set.
Qed.

Lemma mapM_frame (f : decl -> M sst unit) ds s y :
  (forall d, local (bound_addr d) (f d)) -> ~ In y (map bound_addr ds) ->
  s_vars (fst (mapM_ f ds s)) y = s_vars s y.
Proof.
  intros Hl. revert s; induction ds as [|d ds IH]; intros s Hy; [reflexivity|]. cbn [mapM_ map] in *. unfold bind.
  assert (Hd : s_vars (fst (f d s)) y = s_vars s y) by (apply (Hl d); intros ->; apply Hy; now left).
  destruct (f d s) as [s1 r]; cbn in Hd. destruct r as [u|e|o| | |]; try exact Hd.
  rewrite IH; [exact Hd|]. intros H. apply Hy. now right.
Qed.

Lemma mapM_split {A} (f : A -> M sst unit) l1 d l2 s s' u : mapM_ f (l1 ++ d :: l2) s = (s', Ret u) ->
  exists s1 s2, mapM_ f l1 s = (s1, Ret tt) /\ f d s1 = (s2, Ret tt) /\ mapM_ f l2 s2 = (s', Ret tt).
Proof.
  revert s; induction l1 as [|a l1 IH]; intros s; cbn [app mapM_]; unfold bind.
  - destruct (f d s) as [s2 r] eqn:E. destruct r as [[]|e|o| | |]; try discriminate. intros H.
    exists s, s2. destruct u. auto.
  - destruct (f a s) as [s2 r] eqn:E. destruct r as [[]|e|o| | |]; try discriminate. intros H.
    destruct (IH s2 H) as (s3 & s4 & H1 & H2 & H3). exists s3, s4. auto.
Qed.

(** ** Positional options *)

Lemma s_assign_scalar x e w s s' u : s_assign ndebug x (Scalar e) w s = (s', Ret u) ->
  exists v, parse_elem e (s_vars s x) w = POk v PSuccess /\ s' = {| s_vars := set_var (s_vars s) x v; s_fs := s_fs s |}.
Proof.
  unfold s_assign. cbn [parse_option_value].
  destruct (parse_elem e (s_vars s x) w) as [v [| |]|ex] eqn:E.
  - cbn. intros [= <- _]. eauto.
  - cbn. discriminate.
  - destruct e; cbn in *; try discriminate.
    + unfold of_stream in E. destruct (read_path (s_vars s x) w) as [[? []] []]; discriminate.
    + destruct (assoc w names); [discriminate|]. destruct (enum_keys names); discriminate.
    + unfold of_stream in E. destruct (rd (s_vars s x) w) as [[? []] []]; discriminate.
  - discriminate.
Qed.

Lemma s_given_some x t v s s' u : s_given ndebug x t v s = (s', Ret u) -> exists text, v = Some text.
Proof. destruct v; [eauto|discriminate]. Qed.

Lemma set_same (vs : store) x v : set_var vs x v x = v.
Proof. unfold set_var. now rewrite Nat.eqb_refl. Qed.

Lemma collect x e : forall vals s s' u l, s_vars s x = VList l ->
  mapM_ (s_given ndebug x (ListOf e)) vals s = (s', Ret u) ->
  exists texts es, vals = map Some texts /\ stored ndebug e texts es /\ s_vars s' x = VList (l ++ es).
Proof.
  induction vals as [|v vals IH]; intros s s' u l Hl H.
  - cbn in H. injection H as <- _. exists [], []. rewrite app_nil_r. repeat split; auto. constructor.
  - cbn [mapM_] in H. unfold bind in H. destruct (s_given ndebug x (ListOf e) v s) as [s1 r] eqn:E.
    destruct r as [u1|ex|o| | |]; try discriminate.
    destruct (s_given_some _ _ _ _ _ _ E) as [text ->]. cbn [s_given] in E.
    unfold s_assign in E. cbn [parse_option_value] in E. rewrite Hl in E. cbn [elems] in E.
    destruct (parse_elem e (default_val e) text) as [w [| |]|ex] eqn:Ep; try discriminate.
    + injection E as <- _.
      edestruct IH with (2 := H) as (texts & es & H1 & H2 & H3); [apply set_same|].
      exists (text :: texts), (w :: es). split; [cbn; now rewrite H1|]. split; [now constructor|].
      rewrite H3, <- app_assoc. reflexivity.
    + unfold bind in E. cbn in E. destruct ndebug eqn:En; [|discriminate]. injection E as <- _.
      edestruct IH with (2 := H) as (texts & es & H1 & H2 & H3); [apply set_same|].
      exists (text :: texts), es. split; [cbn; now rewrite H1|]. split; [eapply st_skip; eauto|]. exact H3.
Qed.

Lemma stored_all e ts vs : stored ndebug e ts vs -> ndebug = false \/ no_overflow e ts -> all_convert e ts vs.
Proof.
  intros H Hn. unfold all_convert. induction H as [|t v ts vs Ht H IH|t v ts vs Hd Ht H IH]; [constructor| |].
  - constructor; [exact Ht|]. apply IH. destruct Hn as [Hn|Hn]; [now left|right]. intros t' v' Hi. apply Hn. now right.
  - exfalso. destruct Hn as [Hn|Hn]; [congruence|]. apply (Hn t v); [now left|exact Ht].
Qed.

Lemma mapM_map {A B} (f : B -> M sst unit) (g : A -> B) l s : mapM_ f (map g l) s = mapM_ (fun a => f (g a)) l s.
Proof. revert s; induction l as [|a l IH]; intros s; [reflexivity|]. cbn [map mapM_]. unfold bind. destruct (f (g a) s) as [s' []]; auto. Qed.

Lemma s_positionals_frame ds : forall ws s y, ~ In y (map bound_addr (filter is_positional ds)) ->
  s_vars (fst (s_positionals ndebug ds ws s)) y = s_vars s y.
Proof.
  induction ds as [|d ds IH]; intros ws s y Hy; [destruct ws; reflexivity|].
  destruct d as [x t c|x c|x t c]; try (apply IH; exact Hy).
  cbn [filter is_positional map bound_addr] in Hy. cbn [s_positionals].
  assert (Hyx : y <> x) by (intros ->; apply Hy; now left).
  assert (Hy' : ~ In y (map bound_addr (filter is_positional ds))) by (intros H; apply Hy; now right).
  destruct ws as [|w more]; [reflexivity|].
  assert (Hb : forall m (k : M sst unit) s, local x m -> (forall s, s_vars (fst (k s)) y = s_vars s y) ->
            s_vars (fst ((m ;; k) s)) y = s_vars s y).
  { intros m k s0 [_ Hm] Hk. specialize (Hm s0 y Hyx). unfold bind. destruct (m s0) as [s1 r]; cbn in Hm.
    destruct r; try exact Hm. now rewrite Hk. }
  destruct (is_container t).
  - apply Hb; [apply local_set|]. intros s1. apply Hb; [apply local_mapM, local_assign|]. intros s2.
    apply Hb; [apply local_validate|]. intros s3. now apply IH.
  - apply Hb; [apply local_assign|]. intros s2. apply Hb; [apply local_validate|]. intros s3. now apply IH.
Qed.

Lemma bind_inv {A B} (m : M sst A) (k : A -> M sst B) s s' b : bind m k s = (s', Ret b) ->
  exists s1 a, m s = (s1, Ret a) /\ k a s1 = (s', Ret b).
Proof. unfold bind. destruct (m s) as [s1 [a|e|o| | |]]; try discriminate. eauto. Qed.

Lemma s_validate_vars v x s s' u : s_validate v x s = (s', Ret u) -> s_vars s' = s_vars s.
Proof. unfold s_validate. destruct (v (s_fs s) (s_vars s x)). intros [= <- _]. reflexivity. Qed.

Lemma positionals_filled ds : forall ws s s' u vs0,
  NoDup (map bound_addr (filter is_positional ds)) ->
  (forall y, In y (map bound_addr (filter is_positional ds)) -> s_vars s y = vs0 y) ->
  s_positionals ndebug ds ws s = (s', Ret u) -> filled ndebug vs0 (s_vars s') ds ws.
Proof.
  induction ds as [|d ds IH]; intros ws s s' u vs0 Hnd Hs H.
  - destruct ws; [reflexivity|discriminate].
  - destruct d as [x t c|x c|x t c]; try (eapply IH; eauto; fail).
    cbn [filter is_positional map bound_addr s_positionals] in *.
    destruct ws as [|w more]; [discriminate|]. inversion Hnd as [|? ? Hx Hnd']; subst.
    destruct t as [e|e]; cbn [is_container] in H.
    + apply bind_inv in H as (s1 & [] & H1 & H). apply bind_inv in H as (s2 & [] & H2 & H).
      apply s_assign_scalar in H1 as (v & Hv & ->).
      apply s_validate_vars in H2. cbn in H2. cbn [filled].
      exists w, more. split; [reflexivity|]. split.
      * pose proof (s_positionals_frame ds more s2 x Hx) as Hf. rewrite H in Hf. cbn in Hf. rewrite Hf, H2.
        unfold set_var. rewrite Nat.eqb_refl. rewrite <- (Hs x) by now left. exact Hv.
      * eapply IH; eauto.
        -- intros y Hy. rewrite H2. unfold set_var. destruct (Nat.eqb_spec x y) as [->|]; [contradiction|]. apply Hs. now right.
    + apply bind_inv in H as (s1 & [] & H1 & H). apply bind_inv in H as (s2 & [] & H2 & H).
      apply bind_inv in H as (s3 & [] & H3 & H). cbn in H1. injection H1 as <-.
      apply s_validate_vars in H3. cbn [filled]. split; [discriminate|].
      assert (H2' : mapM_ (s_given ndebug x (ListOf e)) (map Some (w :: more))
         {| s_vars := set_var (s_vars s) x (VList []); s_fs := s_fs s |} = (s2, Ret tt)).
      { rewrite mapM_map. exact H2. }
      edestruct (collect x e) with (2 := H2') as (texts & es & E1 & E2 & E3); [apply set_same|].
      assert (texts = w :: more) as ->.
      { clear -E1. revert E1. generalize (w :: more). induction texts as [|a l IHl]; intros [|b l']; cbn; try discriminate; [reflexivity|].
        intros [= -> E]. f_equal. now apply IHl. }
      split.
      * exists es. split; [exact E2|]. pose proof (s_positionals_frame ds [] s3 x Hx) as Hf. rewrite H in Hf. cbn in Hf.
        rewrite Hf, H3, E3. reflexivity.
      * eapply IH; eauto.
        -- intros y Hy. rewrite H3.
           assert (Hne : y <> x) by (intros ->; contradiction).
           pose proof (proj2 (local_mapM x (s_assign ndebug x (ListOf e)) (w :: more) (local_assign x (ListOf e)))
              {| s_vars := set_var (s_vars s) x (VList []); s_fs := s_fs s |} y Hne) as Hf.
           rewrite H2 in Hf. cbn in Hf. rewrite Hf. unfold set_var. destruct (Nat.eqb_spec x y); [congruence|]. apply Hs. now right.
Qed.

(** ** Accepted command lines *)

Lemma eval_inv decls inv s s' u : eval ndebug decls inv s = (s', Ret u) ->
  exists s1 s2, mapM_ (s_option ndebug (items inv)) decls s = (s1, Ret tt) /\
    mapM_ (s_flag (items inv)) decls s1 = (s2, Ret tt) /\ unknown decls (items inv) = false /\
    s_positionals ndebug decls (words inv) s2 = (s', Ret tt).
Proof.
  unfold eval. intros H. apply bind_inv in H as (s1 & [] & H1 & H). apply bind_inv in H as (s2 & [] & H2 & H).
  apply bind_inv in H as (s3 & [] & H3 & H). destruct (unknown decls (items inv)); [discriminate|].
  injection H3 as <-. destruct u. exists s1, s2. auto.
Qed.

Lemma NoDup_app_cons {A} (l1 : list A) d l2 x (f : A -> addr) : NoDup (map f (l1 ++ d :: l2)) -> f d = x ->
  ~ In x (map f l1) /\ ~ In x (map f l2).
Proof.
  rewrite map_app. cbn [map]. intros H <-. apply NoDup_remove_2 in H. rewrite in_app_iff in H. tauto.
Qed.

Lemma filter_map_incl ds y : In y (map bound_addr (filter is_positional ds)) -> In y (map bound_addr ds).
Proof. rewrite !in_map_iff. intros (d & E & H). apply filter_In in H as [H _]. eauto. Qed.

Lemma distinct_same ds d d' : NoDup (map bound_addr ds) -> In d ds -> In d' ds -> bound_addr d = bound_addr d' -> d = d'.
Proof.
  induction ds as [|a ds IH]; [intros _ []|]. cbn. intros H Hd Hd' E. inversion H as [|? ? Hn Hnd]; subst.
  destruct Hd as [->|Hd], Hd' as [->|Hd']; auto.
  - exfalso. apply Hn. rewrite E. now apply in_map.
  - exfalso. apply Hn. rewrite <- E. now apply in_map.
Qed.

(** the calls of declarations other than [d] leave its variable alone *)
Lemma mapM_at (f : decl -> M sst unit) ds d s s' : (forall d, local (bound_addr d) (f d)) ->
  NoDup (map bound_addr ds) -> In d ds -> mapM_ f ds s = (s', Ret tt) ->
  exists s1 s2, f d s1 = (s2, Ret tt) /\ s_vars s1 (bound_addr d) = s_vars s (bound_addr d) /\
     s_vars s' (bound_addr d) = s_vars s2 (bound_addr d).
Proof.
  intros Hl Hnd Hin H. apply in_split in Hin as (l1 & l2 & ->).
  destruct (NoDup_app_cons l1 d l2 (bound_addr d) bound_addr Hnd eq_refl) as [N1 N2].
  destruct (mapM_split _ _ _ _ _ _ _ H) as (s1 & s2 & H1 & H2 & H3).
  exists s1, s2. split; [exact H2|]. split.
  - pose proof (mapM_frame f l1 s (bound_addr d) Hl N1) as E. now rewrite H1 in E.
  - pose proof (mapM_frame f l2 s2 (bound_addr d) Hl N2) as E. now rewrite H3 in E.
Qed.

Lemma non_positional_frame decls d ws s : NoDup (map bound_addr decls) -> In d decls -> is_positional d = false ->
  s_vars (fst (s_positionals ndebug decls ws s)) (bound_addr d) = s_vars s (bound_addr d).
Proof.
  intros Hnd Hin Hp. apply s_positionals_frame. intros H. apply in_map_iff in H as (d' & E & H).
  apply filter_In in H as [H Hp']. assert (d' = d) by (eapply distinct_same; eauto). subst. congruence.
Qed.

Lemma nonoption_noop its d s : (forall x t c, d <> DOption x t c) -> s_option ndebug its d s = (s, Ret tt).
Proof. destruct d; intros H; try reflexivity. exfalso. now apply (H x t c). Qed.
Lemma nonflag_noop its d s : (forall x c, d <> DFlag x c) -> s_flag its d s = (s, Ret tt).
Proof. destruct d; intros H; try reflexivity. exfalso. now apply (H x c). Qed.

Lemma success decls inv vs f : wf_decls decls = true -> wf_invocation decls inv = true ->
  okind_of (snd (parse_args ndebug decls (render inv) vs f)) = ORet ->
  exists s', eval ndebug decls inv {| s_vars := vs; s_fs := f |} = (s', Ret tt) /\
    vars (fst (parse_args ndebug decls (render inv) vs f)) = s_vars s' /\
    fsys (fst (parse_args ndebug decls (render inv) vs f)) = s_fs s'.
Proof.
  intros Hd Hw Hr. destruct (parse_args_refines ndebug decls inv vs f Hd Hw) as (A & B & C).
  rewrite Hr in C. destruct (eval ndebug decls inv {| s_vars := vs; s_fs := f |}) as [s' r]. cbn in *.
  destruct r as [[]|e|o| | |]; try discriminate. eauto.
Qed.

Lemma list_option_lemma decls inv vs f x e c :
  wf_decls decls = true -> wf_invocation decls inv = true -> one_names decls (items inv) = true ->
  NoDup (map bound_addr decls) -> In (DOption x (ListOf e) c) decls ->
  okind_of (snd (parse_args ndebug decls (render inv) vs f)) = ORet ->
  exists texts, option_values (items inv) c = map Some texts /\
    match texts with
    | [] => vars (fst (parse_args ndebug decls (render inv) vs f)) x = vs x
    | _ => exists es, stored ndebug e texts es /\ vars (fst (parse_args ndebug decls (render inv) vs f)) x = VList es
    end.
Proof.
  intros Hd Hw Ho Hnd Hin Hr. destruct (success decls inv vs f Hd Hw Hr) as (s' & He & Hv & _). rewrite Hv. clear Hr Hv.
  destruct (eval_inv _ _ _ _ _ He) as (s1 & s2 & H1 & H2 & _ & H3).
  destruct (mapM_at _ _ _ _ _ (local_option (items inv)) Hnd Hin H1) as (a & b & A1 & A2 & A3).
  destruct (mapM_at _ _ _ _ _ (local_flag (items inv)) Hnd Hin H2) as (a' & b' & B1 & B2 & B3).
  cbn in B1. injection B1 as <-.
  pose proof (non_positional_frame decls _ (words inv) s2 Hnd Hin eq_refl) as E. rewrite H3 in E. cbn [fst] in E.
  cbn [bound_addr] in *.
  assert (O1 : one_name (items inv) c = true) by exact (proj1 (forallb_forall _ _) Ho _ Hin).
  rewrite s_option_one_name in A1 by exact O1. unfold s_option_values in A1. apply bind_inv in A1 as (a1 & [] & V & A1).
  assert (Hb : s_vars b x = s_vars a1 x).
  { destruct (given (option_values (items inv) c)).
    - now apply s_validate_vars in A1 as ->.
    - destruct (c_required c); [discriminate|]. now injection A1 as <-. }
  cbn [s_values is_container] in V. unfold s_values in V. cbn [is_container s_list] in V.
  destruct (option_values (items inv) c) as [|v vals] eqn:Ev.
  - injection V as <-. exists []. split; [reflexivity|]. rewrite E, B3, B2, A3, Hb, A2. reflexivity.
  - cbn [s_list] in V. apply bind_inv in V as (a2 & [] & V1 & V). injection V1 as <-.
    edestruct (collect x e) with (2 := V) as (texts & es & E1 & E2 & E3); [apply set_same|].
    exists texts. split; [exact E1|]. destruct texts as [|t0 texts]; [discriminate|].
    exists es. split; [exact E2|]. rewrite E, B3, B2, A3, Hb, E3. reflexivity.
Qed.

Lemma single_option_lemma decls inv vs f x e c :
  wf_decls decls = true -> wf_invocation decls inv = true ->
  NoDup (map bound_addr decls) -> In (DOption x (Scalar e) c) decls ->
  okind_of (snd (parse_args ndebug decls (render inv) vs f)) = ORet ->
  (option_values (items inv) c = [] /\ c_required c = false /\
   vars (fst (parse_args ndebug decls (render inv) vs f)) x = vs x) \/
  (exists text v, option_values (items inv) c = [Some text] /\ parse_elem e (vs x) text = POk v PSuccess /\
   vars (fst (parse_args ndebug decls (render inv) vs f)) x = v).
Proof.
  intros Hd Hw Hnd Hin Hr. destruct (success decls inv vs f Hd Hw Hr) as (s' & He & Hv & _). rewrite Hv. clear Hr Hv.
  destruct (eval_inv _ _ _ _ _ He) as (s1 & s2 & H1 & H2 & _ & H3).
  destruct (mapM_at _ _ _ _ _ (local_option (items inv)) Hnd Hin H1) as (a & b & A1 & A2 & A3).
  destruct (mapM_at _ _ _ _ _ (local_flag (items inv)) Hnd Hin H2) as (a' & b' & B1 & B2 & B3).
  cbn in B1. injection B1 as <-.
  pose proof (non_positional_frame decls _ (words inv) s2 Hnd Hin eq_refl) as E. rewrite H3 in E. cbn [fst] in E.
  cbn [bound_addr] in *.
  assert (O1 : one_name (items inv) c = true).
  { unfold one_name. apply negb_true_iff, not_true_iff_false. intros Hg. cbn [s_option is_container negb] in A1.
    rewrite Hg in A1. apply bind_inv in A1 as (? & [] & _ & A1). apply bind_inv in A1 as (? & [] & _ & A1). discriminate. }
  rewrite s_option_one_name in A1 by exact O1. unfold s_option_values in A1. apply bind_inv in A1 as (a1 & [] & V & A1).
  unfold s_values in V. cbn [is_container] in V.
  destruct (option_values (items inv) c) as [|v vals] eqn:Ev.
  - left. split; [reflexivity|]. cbn in V. injection V as <-. cbn [given] in A1.
    destruct (c_required c); [discriminate|]. injection A1 as <-. split; [reflexivity|]. rewrite E, B3, B2, A3, A2. reflexivity.
  - right. cbn [s_scalar] in V. apply bind_inv in V as (a2 & [] & V1 & V).
    destruct vals as [|? ?]; [|discriminate]. injection V as <-.
    destruct (s_given_some _ _ _ _ _ _ V1) as [text ->]. cbn [s_given] in V1.
    apply s_assign_scalar in V1 as (w & Hw1 & ->). exists text, w. split; [reflexivity|]. rewrite A2 in Hw1. split; [exact Hw1|].
    cbn [given] in A1. apply s_validate_vars in A1. rewrite E, B3, B2, A3, A1. cbn. unfold set_var. now rewrite Nat.eqb_refl.
Qed.

Lemma flag_lemma decls inv vs f x c :
  wf_decls decls = true -> wf_invocation decls inv = true ->
  NoDup (map bound_addr decls) -> In (DFlag x c) decls ->
  okind_of (snd (parse_args ndebug decls (render inv) vs f)) = ORet ->
  vars (fst (parse_args ndebug decls (render inv) vs f)) x = VBool (flag_given (items inv) c || was_true (vs x)) /\
  count_in (config_idents c) (mentions (items inv)) <= 1.
Proof.
  intros Hd Hw Hnd Hin Hr. destruct (success decls inv vs f Hd Hw Hr) as (s' & He & Hv & _). rewrite Hv. clear Hr Hv.
  destruct (eval_inv _ _ _ _ _ He) as (s1 & s2 & H1 & H2 & Hu & H3).
  destruct (mapM_at _ _ _ _ _ (local_option (items inv)) Hnd Hin H1) as (a & b & A1 & A2 & A3).
  destruct (mapM_at _ _ _ _ _ (local_flag (items inv)) Hnd Hin H2) as (a' & b' & B1 & B2 & B3).
  cbn in A1. injection A1 as <-.
  pose proof (non_positional_frame decls _ (words inv) s2 Hnd Hin eq_refl) as E. rewrite H3 in E. cbn [fst] in E.
  cbn [bound_addr] in *. split.
  - cbn [s_flag] in B1. injection B1 as <-. rewrite E, B3. cbn. unfold set_var. rewrite Nat.eqb_refl.
    rewrite B2, A3, A2. reflexivity.
  - unfold unknown in Hu. apply orb_false_iff in Hu as [_ Hu].
    destruct (Nat.leb_spec 2 (count_in (config_idents c) (mentions (items inv)))) as [Hl|Hl]; [|lia].
    exfalso. rewrite <- not_true_iff_false in Hu. apply Hu, existsb_exists. exists (DFlag x c).
    split; [exact Hin|]. now apply Nat.leb_le.
Qed.

Lemma positionals_lemma decls inv vs f :
  wf_decls decls = true -> wf_invocation decls inv = true ->
  NoDup (map bound_addr decls) ->
  okind_of (snd (parse_args ndebug decls (render inv) vs f)) = ORet ->
  filled ndebug vs (vars (fst (parse_args ndebug decls (render inv) vs f))) decls (words inv).
Proof.
  intros Hd Hw Hnd Hr. destruct (success decls inv vs f Hd Hw Hr) as (s' & He & Hv & _). rewrite Hv. clear Hr Hv.
  destruct (eval_inv _ _ _ _ _ He) as (s1 & s2 & H1 & H2 & Hu & H3).
  eapply positionals_filled; [| |exact H3].
  - clear -Hnd. induction decls as [|d ds IH]; cbn; [constructor|]. inversion Hnd; subst. specialize (IH H2).
    destruct (is_positional d); [|exact IH]. cbn. constructor; [|exact IH]. intros H. now apply H1, filter_map_incl.
  - intros y Hy. apply in_map_iff in Hy as (d & <- & Hin). apply filter_In in Hin as [Hin Hp].
    destruct (mapM_at _ _ _ _ _ (local_option (items inv)) Hnd Hin H1) as (a & b & A1 & A2 & A3).
    destruct (mapM_at _ _ _ _ _ (local_flag (items inv)) Hnd Hin H2) as (a' & b' & B1 & B2 & B3).
    destruct d; try discriminate. cbn in A1, B1. injection A1 as <-. injection B1 as <-. cbn [bound_addr] in *. rewrite B3, B2, A3, A2. reflexivity.
Qed.

(** ** Errors *)

Lemma eval_option_stage decls d1 d d2 inv s s1 : decls = d1 ++ d :: d2 ->
  mapM_ (s_option ndebug (items inv)) d1 s = (s1, Ret tt) ->
  okind_of (snd (s_option ndebug (items inv) d s1)) <> ORet ->
  okind_of (snd (eval ndebug decls inv s)) = okind_of (snd (s_option ndebug (items inv) d s1)).
Proof.
  intros -> H1 H2. unfold eval.
  assert (E : mapM_ (s_option ndebug (items inv)) (d1 ++ d :: d2) s =
              bind (s_option ndebug (items inv) d) (fun _ => mapM_ (s_option ndebug (items inv)) d2) s1).
  { revert s H1; induction d1 as [|a l IH]; intros s H1.
    - cbn in H1. injection H1 as <-. reflexivity.
    - cbn [app mapM_] in *. apply bind_inv in H1 as (s2 & [] & Ha & Hl). unfold bind at 1. rewrite Ha. now apply IH. }
  unfold bind at 1. rewrite E. unfold bind.
  destruct (s_option ndebug (items inv) d s1) as [s2 r]. destruct r as [[]|e|o| | |]; try reflexivity.
  exfalso. now apply H2.
Qed.

Lemma required_lemma d1 x t c d2 inv vs f s1 :
  let decls := d1 ++ DOption x t c :: d2 in
  wf_decls decls = true -> wf_invocation decls inv = true ->
  c_required c = true -> option_values (items inv) c = [] ->
  mapM_ (s_option ndebug (items inv)) d1 {| s_vars := vs; s_fs := f |} = (s1, Ret tt) ->
  okind_of (snd (parse_args ndebug decls (render inv) vs f)) = OThrow KRequiredMissing.
Proof.
  intros decls Hd Hw Hreq Hnone H1. destruct (parse_args_refines ndebug decls inv vs f Hd Hw) as (_ & _ & C). rewrite C.
  assert (E : okind_of (snd (s_option ndebug (items inv) (DOption x t c) s1)) = OThrow KRequiredMissing).
  { assert (Hvals : short_values (items inv) c = [] /\ long_values (items inv) c = []).
    { assert (G : forall i, In i (config_idents c) -> values_of (items inv) i = []).
      { intros i Hi. unfold option_values in Hnone. unfold values_of. revert Hnone. generalize (items inv).
        induction l as [|it its IH]; [reflexivity|]. cbn [flat_map]. intros H. apply app_eq_nil in H as [Ha Hb].
        rewrite (IH Hb), app_nil_r. destruct it as [j sp v|j|j|cs|s|w]; cbn in *; try reflexivity;
          destruct (ident_eqb i j) eqn:Ei; try reflexivity; apply ident_eqb_eq in Ei; subst j;
          rewrite (proj2 (mem_ident_In i _) Hi) in Ha; discriminate. }
      unfold short_values, long_values. split.
      - destruct (Ascii.eqb_spec (c_short c) nul); [reflexivity|]. apply G, config_idents_In. auto.
      - destruct (is_empty (c_long c)) eqn:El; [reflexivity|]. apply G, config_idents_In. right. split; [reflexivity|].
        now apply is_empty_false. }
    destruct Hvals as [E1 E2]. cbn [s_option]. rewrite E1, E2. unfold bind. rewrite !s_values_nil. cbn. now rewrite Hreq. }
  rewrite (eval_option_stage decls d1 (DOption x t c) d2 inv _ s1 eq_refl H1); [exact E|rewrite E; discriminate].
Qed.


Lemma values_incl its i c v : In i (config_idents c) -> In v (values_of its i) -> In v (option_values its c).
Proof.
  intros Hi. unfold values_of, option_values. rewrite !in_flat_map. intros (it & Hit & Hv). exists it. split; [exact Hit|].
  destruct it as [j sp w|j|j|cs|s|w]; cbn in *; try tauto; destruct (ident_eqb i j) eqn:Ei; try (destruct Hv; fail);
    apply ident_eqb_eq in Ei; subst j; rewrite (proj2 (mem_ident_In i _) Hi); exact Hv.
Qed.

Lemma short_incl its c v : In v (short_values its c) -> In v (option_values its c).
Proof.
  unfold short_values. destruct (Ascii.eqb_spec (c_short c) nul); [intros []|]. apply values_incl, config_idents_In. auto.
Qed.
Lemma long_incl its c v : In v (long_values its c) -> In v (option_values its c).
Proof.
  unfold long_values. destruct (is_empty (c_long c)) eqn:El; [intros []|]. apply values_incl, config_idents_In.
  right. split; [reflexivity|]. now apply is_empty_false.
Qed.

Lemma repeated_lemma d1 x e c d2 inv vs f s1 texts :
  let decls := d1 ++ DOption x (Scalar e) c :: d2 in
  wf_decls decls = true -> wf_invocation decls inv = true ->
  option_values (items inv) c = map Some texts -> 2 <= List.length texts ->
  (forall old text, In text texts -> exists v, parse_elem e old text = POk v PSuccess) ->
  mapM_ (s_option ndebug (items inv)) d1 {| s_vars := vs; s_fs := f |} = (s1, Ret tt) ->
  okind_of (snd (parse_args ndebug decls (render inv) vs f)) = OThrow KMultiple.
Proof.
  intros decls Hd Hw Hvals Hlen Hconv H1. destruct (parse_args_refines ndebug decls inv vs f Hd Hw) as (_ & _ & C). rewrite C.
  assert (Hass : forall v s, In v (option_values (items inv) c) -> exists s', s_given ndebug x (Scalar e) v s = (s', Ret tt)).
  { intros v s Hv. rewrite Hvals in Hv. apply in_map_iff in Hv as (text & <- & Ht). cbn [s_given]. unfold s_assign.
    cbn [parse_option_value]. destruct (Hconv (s_vars s x) text Ht) as [v0 ->]. eexists. reflexivity. }
  assert (E : okind_of (snd (s_option ndebug (items inv) (DOption x (Scalar e) c) s1)) = OThrow KMultiple).
  { cbn [s_option is_container negb]. unfold s_values. cbn [is_container].
    pose proof (short_incl (items inv) c) as Is. pose proof (long_incl (items inv) c) as Il.
    destruct (short_long_values (items inv) c) as [SL1 SL2].
    destruct (short_values (items inv) c) as [|v1 [|v2 m]].
    - rewrite (SL1 eq_refl) in *. destruct (long_values (items inv) c) as [|w1 [|w2 m']];
        [destruct texts as [|? [|? ?]]; cbn in *; try discriminate; lia|destruct texts as [|? [|? ?]]; cbn in *; try discriminate; lia|].
      cbn [s_scalar given]. unfold bind, ret. destruct (Hass w1 s1) as [s2 ->]; [now left|]. reflexivity.
    - cbn [s_scalar]. unfold bind at 1. unfold bind at 1. destruct (Hass v1 s1) as [s2 ->]; [apply Is; now left|].
      destruct (long_values (items inv) c) as [|w1 [|w2 m']].
      + rewrite (SL2 eq_refl) in Hvals. destruct texts as [|? [|? ?]]; cbn in *; try discriminate; lia.
      + cbn [s_scalar given andb]. unfold bind, ret. destruct (Hass w1 s2) as [s3 ->]; [apply Il; now left|]. reflexivity.
      + cbn [s_scalar given andb]. unfold bind, ret. destruct (Hass w1 s2) as [s3 ->]; [apply Il; now left|]. reflexivity.
    - cbn [s_scalar]. unfold bind, ret. destruct (Hass v1 s1) as [s2 ->]; [apply Is; now left|]. reflexivity. }
  rewrite (eval_option_stage decls d1 (DOption x (Scalar e) c) d2 inv _ s1 eq_refl H1); [exact E|rewrite E; discriminate].
Qed.

(** ** Order of declarations *)

Lemma mapM_independent (f : decl -> M sst unit) ds s :
  (forall d, local (bound_addr d) (f d)) ->
  (forall d s, In d ds -> s_fs (fst (f d s)) = s_fs s) ->
  NoDup (map bound_addr ds) ->
  (snd (mapM_ f ds s) = Ret tt <-> (forall d, In d ds -> snd (f d s) = Ret tt)) /\
  (snd (mapM_ f ds s) = Ret tt ->
     s_fs (fst (mapM_ f ds s)) = s_fs s /\
     (forall d, In d ds -> s_vars (fst (mapM_ f ds s)) (bound_addr d) = s_vars (fst (f d s)) (bound_addr d))).
Proof.
  intros Hl. revert s. induction ds as [|a ds IH]; intros s Hf Hnd.
  - split; [split; [intros _ d []|reflexivity]|]. intros _. split; [reflexivity|intros d []].
  - cbn [map] in Hnd. inversion Hnd as [|? ? Ha Hnd']; subst.
    pose proof (Hf a s (or_introl eq_refl)) as Hfa.
    assert (Hloc : forall d, In d ds -> snd (f d (fst (f a s))) = snd (f d s) /\
        s_vars (fst (f d (fst (f a s)))) (bound_addr d) = s_vars (fst (f d s)) (bound_addr d)).
    { intros d Hd. destruct (proj1 (Hl d) (fst (f a s)) s) as (E1 & E2 & E3).
      - apply (Hl a). intros E. apply Ha. rewrite <- E. now apply in_map.
      - exact Hfa.
      - auto. }
    cbn [mapM_]. unfold bind. destruct (f a s) as [s1 r] eqn:Ea. cbn [fst] in *.
    destruct r as [[]|e|o| | |];
      try (split; [split; [discriminate|intros H; specialize (H a (or_introl eq_refl)); rewrite Ea in H; discriminate]|discriminate]).
    destruct (IH s1) as [IH1 IH2]; [intros d s0 Hd; apply Hf; now right|exact Hnd'|].
    split.
    + rewrite IH1. split.
      * intros H d [<-|Hd]; [now rewrite Ea|]. rewrite <- (proj1 (Hloc d Hd)). now apply H.
      * intros H d Hd. rewrite (proj1 (Hloc d Hd)). apply H. now right.
    + intros H. destruct (IH2 H) as [A B]. split; [congruence|].
      intros d [<-|Hd].
      * rewrite mapM_frame by auto. now rewrite Ea.
      * rewrite (B d Hd). apply (Hloc d Hd).
Qed.

Definition same_state (s s' : sst) : Prop := (forall y, s_vars s y = s_vars s' y) /\ s_fs s = s_fs s'.

Lemma mapM_permuted (f : decl -> M sst unit) ds ds' s :
  (forall d, local (bound_addr d) (f d)) ->
  (forall d s, In d ds -> s_fs (fst (f d s)) = s_fs s) ->
  NoDup (map bound_addr ds) -> Permutation ds ds' ->
  snd (mapM_ f ds s) = Ret tt ->
  snd (mapM_ f ds' s) = Ret tt /\ same_state (fst (mapM_ f ds s)) (fst (mapM_ f ds' s)).
Proof.
  intros Hl Hf Hnd Hp Hr.
  assert (Hf' : forall d s, In d ds' -> s_fs (fst (f d s)) = s_fs s).
  { intros d s0 Hd. apply Hf. eapply Permutation_in; [apply Permutation_sym|]; eauto. }
  assert (Hnd' : NoDup (map bound_addr ds')) by (eapply Permutation_NoDup; [apply Permutation_map, Hp|exact Hnd]).
  destruct (mapM_independent f ds s Hl Hf Hnd) as [A1 A2].
  destruct (mapM_independent f ds' s Hl Hf' Hnd') as [B1 B2].
  assert (Hr' : snd (mapM_ f ds' s) = Ret tt).
  { apply B1. intros d Hd. apply A1; [exact Hr|]. eapply Permutation_in; [apply Permutation_sym|]; eauto. }
  split; [exact Hr'|]. destruct (A2 Hr) as [A3 A4]. destruct (B2 Hr') as [B3 B4]. split; [|congruence].
  intros y. destruct (in_dec Nat.eq_dec y (map bound_addr ds)) as [Hy|Hy].
  - apply in_map_iff in Hy as (d & <- & Hd). rewrite A4 by exact Hd. rewrite B4; [reflexivity|].
    eapply Permutation_in; eauto.
  - rewrite !mapM_frame; auto. intros Hy'. apply Hy. eapply Permutation_in; [|exact Hy']. apply Permutation_map, Permutation_sym, Hp.
Qed.

Lemma local_same x m s s' : local x m -> same_state s s' ->
  same_state (fst (m s)) (fst (m s')) /\ snd (m s) = snd (m s').
Proof.
  intros [H1 H2] [Hv Hf]. destruct (H1 s s' (Hv x) Hf) as (A & B & C). split; [|exact C]. split; [|exact B].
  intros y. destruct (Nat.eq_dec y x) as [->|Hy]; [exact A|]. rewrite !H2 by exact Hy. apply Hv.
Qed.

Lemma mapM_same (f : decl -> M sst unit) ds s s' : (forall d, local (bound_addr d) (f d)) -> same_state s s' ->
  same_state (fst (mapM_ f ds s)) (fst (mapM_ f ds s')) /\ snd (mapM_ f ds s) = snd (mapM_ f ds s').
Proof.
  intros Hl. revert s s'; induction ds as [|d ds IH]; intros s s' H; [now split|].
  cbn [mapM_]. unfold bind. destruct (local_same _ _ s s' (Hl d) H) as [A B].
  destruct (f d s) as [s1 r], (f d s') as [s2 r']. cbn [fst snd] in A, B. subst r'. destruct r as [[]|e|o| | |]; try (now split).
  now apply IH.
Qed.

Lemma positionals_same ds : forall ws s s', same_state s s' ->
  same_state (fst (s_positionals ndebug ds ws s)) (fst (s_positionals ndebug ds ws s')) /\
  snd (s_positionals ndebug ds ws s) = snd (s_positionals ndebug ds ws s').
Proof.
  induction ds as [|d ds IH]; intros ws s s' H; [destruct ws; now split|].
  destruct d as [x t c|x c|x t c]; cbn [s_positionals]; try (apply IH; exact H).
  destruct ws as [|w more]; [now split|].
  assert (Hb : forall m (k : M sst unit) s s', local x m -> same_state s s' ->
     (forall s s', same_state s s' -> same_state (fst (k s)) (fst (k s')) /\ snd (k s) = snd (k s')) ->
     same_state (fst ((m ;; k) s)) (fst ((m ;; k) s')) /\ snd ((m ;; k) s) = snd ((m ;; k) s')).
  { intros m k s0 s0' Hm H0 Hk. unfold bind. destruct (local_same _ _ _ _ Hm H0) as [A B].
    destruct (m s0) as [s1 r], (m s0') as [s2 r']. cbn [fst snd] in A, B. subst r'.
    destruct r as [[]|e|o| | |]; try (now split). now apply Hk. }
  destruct (is_container t).
  - apply Hb; [apply local_set|exact H|]. intros s1 s1' H1. apply Hb; [apply local_mapM, local_assign|exact H1|].
    intros s2 s2' H2. apply Hb; [apply local_validate|exact H2|]. intros; now apply IH.
  - apply Hb; [apply local_assign|exact H|]. intros s2 s2' H2. apply Hb; [apply local_validate|exact H2|]. intros; now apply IH.
Qed.

Lemma positionals_filter ds : forall ws s,
  s_positionals ndebug ds ws s = s_positionals ndebug (filter is_positional ds) ws s.
Proof.
  induction ds as [|d ds IH]; intros ws s; [reflexivity|].
  destruct d as [x t c|x c|x t c]; cbn [s_positionals filter is_positional]; try apply IH.
  destruct ws as [|w more]; [reflexivity|]. destruct (is_container t).
  - apply bind_ext; [reflexivity|]. intros a0 s0. apply bind_ext; [reflexivity|]. intros a1 s1.
    apply bind_ext; [reflexivity|]. intros; apply IH.
  - apply bind_ext; [reflexivity|]. intros a0 s0. apply bind_ext; [reflexivity|]. intros; apply IH.
Qed.

Lemma s_assign_fs x t w s : s_fs (fst (s_assign ndebug x t w s)) = s_fs s.
Proof.
  unfold s_assign. destruct (parse_option_value t (s_vars s x) w) as [v [| |]|e]; try reflexivity.
  unfold bind. cbn. destruct (is_arithmetic t); [reflexivity|]. destruct ndebug; reflexivity.
Qed.
Lemma bind_fs (m k : M sst unit) s : (forall s, s_fs (fst (m s)) = s_fs s) -> (forall s, s_fs (fst (k s)) = s_fs s) ->
  s_fs (fst ((m ;; k) s)) = s_fs s.
Proof.
  intros Hm Hk. unfold bind. specialize (Hm s). destruct (m s) as [s1 r]. cbn [fst] in Hm.
  destruct r as [[]|e|o| | |]; try exact Hm. now rewrite Hk.
Qed.
Lemma s_given_fs x t v s : s_fs (fst (s_given ndebug x t v s)) = s_fs s.
Proof. destruct v; [apply s_assign_fs|reflexivity]. Qed.
Lemma mapM_fs {A} (f : A -> M sst unit) l : (forall a s, s_fs (fst (f a s)) = s_fs s) -> forall s, s_fs (fst (mapM_ f l s)) = s_fs s.
Proof. intros H. induction l as [|a l IH]; intros s; [reflexivity|]. cbn [mapM_]. apply bind_fs; auto. Qed.
Lemma s_values_fs x t vs s : s_fs (fst (s_values ndebug x t vs s)) = s_fs s.
Proof.
  unfold s_values. destruct (is_container t); destruct vs as [|v vs]; try reflexivity.
  - cbn [s_list]. apply bind_fs; [reflexivity|]. apply mapM_fs, s_given_fs.
  - cbn [s_scalar]. apply bind_fs; [apply s_given_fs|]. intros s0. now destruct vs.
Qed.
Lemma s_option_fs its d s : (forall x t c, d = DOption x t c -> pure_on_fs (c_validator c)) ->
  s_fs (fst (s_option ndebug its d s)) = s_fs s.
Proof.
  destruct d as [x t c|x c|x t c]; intros H; try reflexivity. specialize (H x t c eq_refl). cbn [s_option].
  apply bind_fs; [apply s_values_fs|]. intros s0. apply bind_fs; [apply s_values_fs|]. intros s1.
  destruct (_ && _ && _); [reflexivity|]. destruct (_ || _).
  - unfold s_validate. specialize (H (s_fs s1) (s_vars s1 x)). destruct (c_validator c (s_fs s1) (s_vars s1 x)). exact H.
  - destruct (c_required c); reflexivity.
Qed.

Lemma flat_map_perm {A B} (f : A -> list B) l l' : Permutation l l' -> Permutation (flat_map f l) (flat_map f l').
Proof.
  induction 1; cbn; auto.
  - now apply Permutation_app_head.
  - rewrite !app_assoc. apply Permutation_app_tail, Permutation_app_comm.
  - etransitivity; eauto.
Qed.

Lemma unknown_perm ds ds' its : Permutation ds ds' -> unknown ds its = unknown ds' its.
Proof.
  intros H. unfold unknown. f_equal.
  - induction (mentions its) as [|i l IH]; [reflexivity|]. cbn [existsb]. f_equal; [|exact IH]. f_equal.
    apply existsb_perm, flat_map_perm, H.
  - apply existsb_perm, H.
Qed.

Lemma eval_permuted ds ds' inv s :
  NoDup (map bound_addr ds) -> validators_pure ds -> Permutation ds ds' ->
  filter is_positional ds = filter is_positional ds' ->
  snd (eval ndebug ds inv s) = Ret tt ->
  snd (eval ndebug ds' inv s) = Ret tt /\ same_state (fst (eval ndebug ds inv s)) (fst (eval ndebug ds' inv s)).
Proof.
  intros Hnd Hpure Hp Hpos H. destruct (eval ndebug ds inv s) as [s' r] eqn:E. cbn [snd] in H. subst r.
  destruct (eval_inv _ _ _ _ _ E) as (s1 & s2 & H1 & H2 & Hu & H3).
  destruct (mapM_permuted (s_option ndebug (items inv)) ds ds' s) as [A1 A2].
  { apply local_option. } { intros d s0 Hd. apply s_option_fs. intros x t c ->. now apply (Hpure x t c). }
  { exact Hnd. } { exact Hp. } { now rewrite H1. }
  destruct (mapM_permuted (s_flag (items inv)) ds ds' s1) as [B1 B2].
  { apply local_flag. } { intros d s0 Hd. now destruct d. } { exact Hnd. } { exact Hp. } { now rewrite H2. }
  rewrite H1 in A2. rewrite H2 in B2. cbn [fst] in A2, B2.
  destruct (mapM_ (s_option ndebug (items inv)) ds' s) as [s1' r1] eqn:E1. cbn [fst snd] in A1, A2. subst r1.
  destruct (mapM_same (s_flag (items inv)) ds' s1 s1' (local_flag (items inv)) A2) as [C1 C2].
  destruct (mapM_ (s_flag (items inv)) ds' s1') as [s2' r2] eqn:E2. rewrite B1 in C2. cbn [fst snd] in C1, C2. subst r2.
  destruct (positionals_same (filter is_positional ds) (words inv) s2 s2') as [D1 D2].
  { split; [intros y; rewrite (proj1 B2 y); apply C1|rewrite (proj2 B2); apply C1]. }
  assert (E' : eval ndebug ds' inv s = s_positionals ndebug ds' (words inv) s2').
  { unfold eval, bind. rewrite E1, E2. rewrite <- (unknown_perm ds ds') by exact Hp. rewrite Hu. reflexivity. }
  rewrite E', (positionals_filter ds'), <- Hpos.
  rewrite <- positionals_filter, H3 in D1, D2. cbn [fst snd] in D1, D2. split; [now symmetry|exact D1].
Qed.

Lemma nodup_idents_perm l l' : Permutation l l' -> nodup_idents l = true -> nodup_idents l' = true.
Proof.
  intros Hp H. apply nodup_idents_NoDup in H. pose proof (Permutation_NoDup Hp H) as H'. clear -H'.
  induction H' as [|i l Hi Hnd IH]; [reflexivity|]. cbn. rewrite IH, andb_true_r. apply negb_true_iff.
  apply not_true_iff_false. rewrite mem_ident_In. exact Hi.
Qed.

Lemma pos_types_filter ds : pos_types ds = pos_types (filter is_positional ds).
Proof. induction ds as [|[x t c|x c|x t c] ds IH]; cbn; auto. unfold pos_types in IH. now rewrite IH. Qed.

Lemma forallb_perm {A} (f : A -> bool) l l' : Permutation l l' -> forallb f l = forallb f l'.
Proof. induction 1; cbn; auto; [now rewrite IHPermutation| |congruence]. destruct (f x), (f y); reflexivity. Qed.

Lemma wf_decls_perm ds ds' : Permutation ds ds' -> filter is_positional ds = filter is_positional ds' ->
  wf_decls ds = true -> wf_decls ds' = true.
Proof.
  intros Hp Hpos. unfold wf_decls. rewrite !andb_true_iff. intros [[A B] C].
  rewrite (pos_types_filter ds'), <- Hpos, <- pos_types_filter. repeat split; [|eapply nodup_idents_perm; [|exact B]|exact C];
    [rewrite <- A; symmetry; apply forallb_perm|]; now apply flat_map_perm.
Qed.

Lemma wf_item_ext o o' it : Permutation o o' -> wf_item o it = wf_item o' it.
Proof.
  intros Hp. assert (Hm : forall i, mem_ident i o = mem_ident i o') by (intros i; now apply existsb_perm).
  assert (He : forall g : ident -> bool, existsb g o = existsb g o') by (intros g; now apply existsb_perm).
  destruct it as [i [] v|i|i|cs|s|w]; cbn [wf_item]; rewrite ?Hm, ?He; reflexivity.
Qed.

Lemma wf_invocation_perm ds ds' inv : Permutation ds ds' -> wf_invocation ds inv = wf_invocation ds' inv.
Proof.
  intros Hp. unfold wf_invocation. f_equal; [f_equal|].
  - induction (items inv) as [|it its IH]; [reflexivity|]. cbn. f_equal; [|exact IH]. apply wf_item_ext, flat_map_perm, Hp.
  - unfold wf_tail. destruct (tail inv) as [ws|]; [|reflexivity]. induction ws as [|w ws IH]; [reflexivity|]. cbn.
    f_equal; [|exact IH]. f_equal. apply forallb_perm, flat_map_perm, Hp.
Qed.

Lemma declaration_order_lemma ds ds' inv vs f :
  wf_decls ds = true -> wf_invocation ds inv = true ->
  NoDup (map bound_addr ds) -> validators_pure ds ->
  Permutation ds ds' -> filter is_positional ds = filter is_positional ds' ->
  okind_of (snd (parse_args ndebug ds (render inv) vs f)) = ORet ->
  okind_of (snd (parse_args ndebug ds' (render inv) vs f)) = ORet /\
  (forall y, vars (fst (parse_args ndebug ds (render inv) vs f)) y = vars (fst (parse_args ndebug ds' (render inv) vs f)) y) /\
  fsys (fst (parse_args ndebug ds (render inv) vs f)) = fsys (fst (parse_args ndebug ds' (render inv) vs f)).
Proof.
  intros Hd Hw Hnd Hpure Hp Hpos Hr. destruct (success ds inv vs f Hd Hw Hr) as (s' & He & Hv & Hfs).
  destruct (parse_args_refines ndebug ds' inv vs f) as (A & B & C).
  { eapply wf_decls_perm; eauto. } { now rewrite <- (wf_invocation_perm ds). }
  destruct (eval_permuted ds ds' inv {| s_vars := vs; s_fs := f |} Hnd Hpure Hp Hpos) as [E1 E2]; [now rewrite He|].
  rewrite He in E2. cbn [fst] in E2. rewrite C, E1, A, B, Hv, Hfs. repeat split; apply E2.
Qed.

End effects.
