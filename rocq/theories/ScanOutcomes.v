(** Outcomes of parse() on arbitrary argument vectors; validation. *)
From Verif Require Import Base StrLib Fs Values Validators FormatParse Invocation InvocationProofs InvocationCorollaries InvocationEffects
  ValuesSpec ValuesProps ScanSpec ScanProofs ScanFlags.

Section outcomes.
Variable ndebug : bool.

(** ** Outcome kinds *)

Definition ends {A} (Q : okind -> Prop) (m : M pst A) : Prop := forall st, Q (okind_of (snd (m st))).

Lemma ends_at {A} Q (m : M pst A) st : ends Q m -> Q (okind_of (snd (m st))).
Proof. intros H. apply H. Qed.

Lemma ends_bind {A B} Q (m : M pst A) (k : A -> M pst B) : ends Q m -> (forall a, ends Q (k a)) -> ends Q (bind m k).
Proof.
  intros Hm Hk st. unfold bind. specialize (Hm st). destruct (m st) as [st1 r]. destruct r; try exact Hm. apply Hk.
Qed.

Section kinds.
Variable Q : okind -> Prop.
Hypothesis Qret : Q ORet.
Hypothesis Qerr : forall k, is_parser_error k = true -> Q (OThrow k).

Definition stores (t : vty) : Prop := forall x name w, ends Q (store_value ndebug x t name w).
Definition validates (v : validator) : Prop := forall x p, ends Q (run_validator v x p).

Lemma ends_ret {A} (a : A) : ends Q (ret a). Proof. intros st. exact Qret. Qed.
Lemma ends_throw {A} k m : is_parser_error k = true -> ends Q (@throw pst A k m). Proof. intros H st. now apply Qerr. Qed.
Lemma ends_modify f : ends Q (modify f). Proof. intros st. exact Qret. Qed.

Lemma ends_retrieve i x t b a r : stores t -> ends Q (retrieve ndebug i x t b a r).
Proof.
  intros Ht. unfold retrieve.
  assert (K : forall name w (p : list string * list string), ends Q (store_value ndebug x t name w ;; ret p)).
  { intros. apply ends_bind; [apply Ht|intros; apply ends_ret]. }
  destruct (_ <? _)%nat; [destruct (match snth _ _ with Some _ => _ | None => _ end); [destruct (_ =? _)%nat|]|destruct r as [|v r]];
    try apply K; now apply ends_throw.
Qed.

Lemma filter_skipn {A} (p : A -> bool) n l : List.length (filter p (skipn n l)) <= List.length (filter p l).
Proof.
  revert l; induction n as [|n IH]; intros [|a l]; cbn; auto. specialize (IH l). destruct (p a); cbn; lia.
Qed.

(** the loop over a list option ends: every round uses up a mention *)
Lemma ends_get_all i x t : stores t -> forall fuel done rest,
  List.length (filter (looks_like i) rest) <= fuel -> ends Q (get_all ndebug fuel i x t done rest).
Proof.
  intros Ht. induction fuel as [|fuel IH]; intros done rest Hf; cbn [get_all];
    destruct (find_option_id i rest) as [[[b a] r]|] eqn:E; try apply ends_modify;
    destruct (find_some _ _ _ _ _ E) as (-> & Ha & _); rewrite filter_app, app_length in Hf; cbn [filter] in Hf; rewrite Ha in Hf; cbn [List.length] in Hf.
  - lia.
  - intros st. unfold bind. pose proof (ends_retrieve i x t (done ++ b) a r Ht st) as Hr.
    destruct (retrieve ndebug i x t (done ++ b) a r st) as [st1 q] eqn:Er. destruct q as [[b' r']|e|o| | |]; try exact Hr.
    apply IH. destruct (retrieve_ret _ _ _ _ _ _ _ _ _ _ _ Ha Er) as [_ [n ->]]. cbn [snd filter]. rewrite looks_like_empty.
    pose proof (filter_skipn (looks_like i) n r). lia.
Qed.

Lemma filter_length_le {A} (p : A -> bool) l : List.length (filter p l) <= List.length l.
Proof. induction l as [|a l IH]; cbn; [lia|]. destruct (p a); cbn; lia. Qed.

Lemma ends_get_by_id i x t : stores t -> ends Q (get_by_id ndebug i x t).
Proof.
  intros Ht. unfold get_by_id. destruct (is_container t); intros st.
  - unfold get_by_id_list. destruct (find_option_id i (pre st)); [|exact Qret].
    revert st. enough (H : forall l, ends Q (modify (fun s => set_vars (set_var (vars s) x (VList [])) s) ;; get_all ndebug (S (List.length l)) i x t [] l ;; ret true)) by (intros st; apply H).
    intros l. apply ends_bind; [apply ends_modify|intros _]. apply ends_bind; [|intros; apply ends_ret].
    apply ends_get_all; [exact Ht|]. pose proof (filter_length_le (looks_like i) l). lia.
  - unfold get_by_id_scalar. destruct (find_option_id i (pre st)) as [[[b a] r]|]; [|exact Qret].
    revert st. apply ends_bind; [now apply ends_retrieve|]. intros [b' r']. apply ends_bind; [apply ends_modify|intros _].
    destruct (find_option_id i (snd (b', r'))); [now apply ends_throw|apply ends_ret].
Qed.

Lemma ends_get_option x t c : stores t -> validates (c_validator c) -> ends Q (get_option ndebug x t c).
Proof.
  intros Ht Hv. unfold get_option. apply ends_bind; [now apply ends_get_by_id|intros s]. apply ends_bind; [now apply ends_get_by_id|intros l].
  destruct (_ && _ && _); [now apply ends_throw|]. destruct (_ || _); [apply Hv|]. destruct (c_required c); [now apply ends_throw|apply ends_ret].
Qed.

Definition decl_ok (d : decl) : Prop :=
  match d with DOption _ t c | DPositional _ t c => stores t /\ validates (c_validator c) | DFlag _ _ => True end.

Lemma ends_mapM {A} (f : A -> M pst unit) l : (forall a, In a l -> ends Q (f a)) -> ends Q (mapM_ f l).
Proof.
  induction l as [|a l IH]; intros H; cbn [mapM_]; [apply ends_ret|]. apply ends_bind; [apply H; now left|intros _]. apply IH. intros b Hb. apply H. now right.
Qed.

Lemma ends_check_unknown : ends Q check_for_unknown_ids.
Proof.
  intros st. unfold check_for_unknown_ids. cbn [snd]. induction (pre st) as [|a l IH]; [exact Qret|]. cbn [check_unknown_in].
  destruct a as [|c s]; [exact IH|]. destruct (Ascii.eqb_spec c "-") as [->|]; [|exact IH].
  destruct (String.eqb _ _); [exact IH|].
  destruct (match s with "" => true | String d _ => negb (Ascii.eqb d "-") end && (2 <? String.length (String "-" s))%nat) eqn:E; [|now apply Qerr].
  apply andb_true_iff in E as [_ E]. apply Nat.ltb_lt in E. destruct s as [|d r]; [cbn in E; lia|].
  destruct (expand_ok "-" d r eq_refl) as [m [->| ->]]; [now apply Qerr|]. cbn in E. lia.
Qed.

Lemma ends_pos_value x t w : stores t -> ends Q (pos_value ndebug x t w).
Proof. intros Ht st. apply Ht. Qed.

Lemma ends_pos_all x t l : stores t -> ends Q (pos_all ndebug x t l).
Proof.
  intros Ht. induction l as [|a l IH]; cbn [pos_all]; [apply ends_ret|]. destruct (is_empty a).
  - apply ends_bind; [exact IH|intros; apply ends_ret].
  - apply ends_bind; [now apply ends_pos_value|intros _]. apply ends_bind; [apply ends_modify|intros _].
    apply ends_bind; [exact IH|intros; apply ends_ret].
Qed.

Lemma ends_positional n x t v st : stores t -> validates v -> Q OAssert \/ ndebug = true \/ is_container t = false \/ S (count st) = n ->
  Q (okind_of (snd (get_positional_option ndebug n x t v st))).
Proof.
  intros Ht Hv Ha. unfold get_positional_option. unfold bind at 1. cbn [incr_count modify]. unfold bind at 1. cbn [get fst snd].
  set (st1 := set_count (S (count st)) st). destruct (split_first nonempty (pre st1)) as [[[b a] r]|]; [|now apply Qerr].
  unfold bind at 1.
  assert (H1 : Q (okind_of (snd ((if is_container t
       then (if (count st1 =? n)%nat || ndebug then ret tt else (fun s => (s, AssertFail))) ;; modify (fun s => set_vars (set_var (vars s) x (VList [])) s) ;; (do l <- pos_all ndebug x t (a :: r); modify (set_pre (b ++ l)))
       else pos_value ndebug x t a ;; modify (set_pre (b ++ "" :: r))) st1)))).
  { destruct (is_container t) eqn:Et.
    - unfold bind at 1. destruct ((count st1 =? n)%nat || ndebug) eqn:Ec.
      + cbn [ret]. apply ends_at. apply ends_bind; [apply ends_modify|intros _].
        apply ends_bind; [now apply ends_pos_all|intros; apply ends_modify].
      + destruct Ha as [Ha|[Ha|[Ha|Ha]]]; [exact Ha| |discriminate|].
        * rewrite Ha, orb_true_r in Ec. discriminate.
        * unfold st1 in Ec. cbn [count set_count] in Ec. rewrite Ha, Nat.eqb_refl in Ec. discriminate.
    - apply ends_at. apply ends_bind; [now apply ends_pos_value|intros; apply ends_modify]. }
  match type of H1 with Q (okind_of (snd (?m st1))) => destruct (m st1) as [st2 q] end. destruct q; try exact H1.
  cbn [get bind]. unfold bind. cbn [get]. apply Hv.
Qed.

Lemma positional_count n x t v st st' : is_container t = false -> get_positional_option ndebug n x t v st = (st', Ret tt) -> count st' = S (count st).
Proof.
  intros Ht H. unfold get_positional_option in H. unfold bind at 1 in H. cbn [incr_count modify] in H. unfold bind at 1 in H. cbn [get] in H.
  destruct (split_first nonempty _) as [[[b a] r]|]; [|discriminate]. rewrite Ht in H.
  apply bind_inv_p in H as (s1 & [] & H1 & H). apply bind_inv_p in H as (s2 & q & H2 & H). injection H2 as <- <-.
  apply bind_inv_p in H1 as (s3 & [] & H3 & H1). injection H1 as <-.
  pose proof (pos_value_at ndebug x t a (set_count (S (count st)) st)) as Hat. rewrite H3 in Hat. cbn [fst] in Hat.
  destruct Hat as (_ & _ & Hc & _). cbn [count set_count] in Hc.
  unfold run_validator in H. destruct (v _ _) as [f' rv]. injection H as <- _. cbn. exact Hc.
Qed.

Lemma ends_positionals n ds : forall st, (forall d, In d ds -> decl_ok d) ->
  Q OAssert \/ ndebug = true \/ (list_last (pos_types ds) = true /\ count st + List.length (pos_types ds) = n) ->
  Q (okind_of (snd (mapM_ (positional_call ndebug n) ds st))).
Proof.
  induction ds as [|d ds IH]; intros st Hd Ha; [exact Qret|]. cbn [mapM_]. unfold bind.
  destruct d as [x t c|x c|x t c]; try (apply IH; [intros d' Hd'; apply Hd; now right|exact Ha]).
  cbn [positional_call]. destruct (Hd _ (or_introl eq_refl)) as [Ht Hv].
  assert (H1 : Q (okind_of (snd (get_positional_option ndebug n x t (c_validator c) st)))).
  { apply ends_positional; auto. destruct Ha as [?|[?|[Hl Hn]]]; auto. cbn [pos_types flat_map app List.length] in *. fold (pos_types ds) in *.
    destruct (is_container t) eqn:Et; auto. right; right; right. rewrite (list_last_container _ _ Hl Et) in Hn. cbn in Hn. lia. }
  destruct (get_positional_option ndebug n x t (c_validator c) st) as [st1 q] eqn:E. destruct q as [[]|e|o| | |]; try exact H1.
  assert (Hd' : forall d, In d ds -> decl_ok d) by (intros d' Hd'; apply Hd; now right).
  destruct Ha as [Ha|[Ha|[Hl Hn]]]; [apply IH; auto|apply IH; auto|].
  cbn [pos_types flat_map app List.length] in *. fold (pos_types ds) in *.
  destruct (is_container t) eqn:Et.
  - assert (Ep : pos_types ds = []) by (eapply list_last_container; eauto). rewrite positional_none by exact Ep. exact Qret.
  - apply IH; auto. right; right. split; [eapply list_last_tail; eauto|]. rewrite (positional_count _ _ _ _ _ _ Et E). lia.
Qed.

Lemma option_calls_count ds st : count (fst (mapM_ (option_call ndebug) ds st)) = count st.
Proof. apply option_calls_rel. Qed.

Lemma parse_ends decls args vs f : (forall d, In d decls -> decl_ok d) ->
  Q OAssert \/ ndebug = true \/ list_last (pos_types decls) = true -> Q (okind_of (snd (parse_args ndebug decls args vs f))).
Proof.
  intros Hd Ha. unfold parse_args. rewrite parse_front. unfold bind at 1.
  assert (H1 : ends Q (front ndebug decls)).
  { unfold front. apply ends_bind; [apply ends_mapM|intros _; apply ends_bind; [apply ends_mapM|intros _; apply ends_check_unknown]].
    - intros d Hin. destruct d; try apply ends_ret. destruct (Hd _ Hin). now apply ends_get_option.
    - intros d Hin. destruct d; try apply ends_ret. intros st. cbn [flag_call]. rewrite get_flag_ret. exact Qret. }
  specialize (H1 (init_pst args vs f)). destruct (front ndebug decls (init_pst args vs f)) as [st1 q] eqn:E.
  destruct q as [[]|e|o| | |]; try exact H1.
  assert (Hcount : count st1 = 0) by (apply front_ret in E as (_ & _ & _ & _ & E & _); exact E).
  unfold bind at 1. cbn [drop_end_of_options modify]. unfold bind at 1.
  match goal with |- context [mapM_ ?g decls ?s] => set (st2 := s); assert (H2 : Q (okind_of (snd (mapM_ g decls st2)))) end.
  { apply ends_positionals; [exact Hd|]. destruct Ha as [?|[?|Hl]]; auto. right; right. split; [exact Hl|]. unfold st2. cbn [count set_args].
    rewrite Hcount, is_positional_types. reflexivity. }
  match type of H2 with Q (okind_of (snd (?m st2))) => destruct (m st2) as [st3 q3] end. destruct q3 as [[]|e|o| | |]; try exact H2.
  unfold check_for_left_over_args. destruct (existsb _ _); [now apply Qerr|exact Qret].
Qed.

End kinds.

(** ** C20 *)

Lemma terminates_lemma decls args vs f : snd (parse_args ndebug decls args vs f) <> OutOfFuel.
Proof.
  assert (H : okind_of (snd (parse_args ndebug decls args vs f)) <> OFuel).
  { apply (parse_ends (fun k => k <> OFuel)); try (intros; discriminate).
    - intros d _. assert (G : forall t c, stores (fun k => k <> OFuel) t /\ validates (fun k => k <> OFuel) (c_validator c)).
      { intros t c. split.
        - intros x name w st. unfold store_value. destruct (parse_option_value t (vars st x) w) as [v r|e]; [|discriminate]. cbn [snd].
          unfold throw_on_input_error. destruct r; try discriminate. destruct (is_arithmetic t); [discriminate|]. now destruct ndebug.
        - intros x p st. unfold run_validator. destruct (c_validator c (fsys st) (vars st x)) as [f' []]; discriminate. }
      destruct d; [apply G|exact I|apply G].
    - left. discriminate. }
  intros E. apply H. now rewrite E.
Qed.

Lemma storable_stores t : storable ndebug t -> stores documented t.
Proof.
  intros [He Hn] x name w st. unfold store_value.
  destruct (parse_option_value t (vars st x) w) as [v r|ex] eqn:E; cbn [snd].
  - unfold throw_on_input_error. destruct r; cbn; auto. destruct (is_arithmetic t) eqn:Ea; cbn; auto.
    destruct ndebug; cbn; auto. destruct Hn as [Hn|Hn]; [discriminate|].
    destruct t as [e|e]; cbn [parse_option_value is_container elem_ty] in *.
    + exfalso. eapply numeric_overflow; [|exact E]. destruct e; auto; discriminate.
    + destruct Hn as [Hn|Hn]; [discriminate|]. destruct (parse_elem e (default_val e) w) as [v' [| |]|] eqn:E'; try discriminate.
      eapply numeric_overflow; eauto.
  - cbn. assert (H : parse_elem (elem_ty t) (match t with Scalar _ => vars st x | ListOf e => default_val e end) w = PThrow ex).
    { destruct t as [e|e]; cbn in *; [exact E|]. destruct (parse_elem e (default_val e) w) as [? []|]; try discriminate. exact E. }
    destruct (elem_ty t) as [sg bits| | | | |n names|n mn mx rd|n rd pr] eqn:Et; cbn [parse_elem] in H;
      repeat (destruct (String.eqb _ _) in H; [discriminate|]); try discriminate.
    + destruct (from_chars_int sg bits w); discriminate.
    + destruct (from_chars_int true 8 w); discriminate.
    + destruct (read_path _ w) as [[? []] []]; discriminate.
    + destruct (assoc w names); [discriminate|]. destruct names as [|p names]; [exfalso; now apply (He n)|]. cbn in H. injection H as <-. reflexivity.
    + destruct (rd w); discriminate.
    + destruct (rd _ w) as [[? []] []]; discriminate.
Qed.

Lemma behaved_validates v : behaved v -> validates documented v.
Proof.
  intros H x p st. unfold run_validator. specialize (H (fsys st) (vars st x)). destruct (v (fsys st) (vars st x)) as [f' r]. cbn [snd] in *.
  destruct H as [->|[m ->]]; cbn; auto.
Qed.

Lemma documented_lemma decls args vs f : (forall d, In d decls -> sound_decl ndebug d) -> ndebug = true \/ list_last (pos_types decls) = true ->
  documented (okind_of (snd (parse_args ndebug decls args vs f))).
Proof.
  intros Hd Hl. apply parse_ends; [exact I|auto| |now right].
  intros d Hin. specialize (Hd d Hin). destruct d; cbn in *; auto; destruct Hd; split; auto using storable_stores, behaved_validates.
Qed.

(** ** C16: how many words there must be *)

Lemma s_assign_ok x t w s : (exists v, parse_option_value t (s_vars s x) w = POk v PSuccess) -> exists s', s_assign ndebug x t w s = (s', Ret tt).
Proof. intros [v E]. unfold s_assign. rewrite E. eexists. reflexivity. Qed.
Lemma s_validate_ok v x s : tolerant v -> exists s', s_validate v x s = (s', Ret tt).
Proof. intros H. unfold s_validate. specialize (H (s_fs s) (s_vars s x)). destruct (v (s_fs s) (s_vars s x)) as [f r]. cbn in H. subst r. eauto. Qed.

Lemma count_lemma ds : forall ws s, list_last (pos_types ds) = true ->
  (forall x t c old w, In (DPositional x t c) ds -> In w ws -> tolerant (c_validator c) /\ exists v, parse_option_value t old w = POk v PSuccess) ->
  okind_of (snd (s_positionals ndebug ds ws s)) = by_count (pos_types ds) (List.length ws).
Proof.
  induction ds as [|d ds IH]; intros ws s Hl Hc; [destruct ws; reflexivity|].
  destruct d as [x t c|x c|x t c]; try (apply (IH ws s Hl); intros x1 t1 c1 o1 w1 Hin Hw; eapply Hc; [right; exact Hin|exact Hw]).
  cbn [s_positionals]. cbn [pos_types flat_map app] in *. fold (pos_types ds) in *.
  destruct ws as [|w more]; [reflexivity|]. destruct (is_container t) eqn:Et.
  - pose proof (list_last_container _ _ Hl Et) as Hn. unfold bind at 1. cbn [s_set modify].
    assert (Hm : forall l s, incl l (w :: more) -> exists s', mapM_ (s_assign ndebug x t) l s = (s', Ret tt)).
    { induction l as [|a l IHl]; intros s0 Hi; [eexists; reflexivity|]. cbn [mapM_]. unfold bind.
      destruct (s_assign_ok x t a s0) as [s1 ->]; [apply (Hc x t c); [now left|apply Hi; now left]|]. apply IHl. intros b Hb. apply Hi. now right. }
    unfold bind at 1. edestruct (Hm (w :: more)) as [s1 ->]; [apply incl_refl|]. unfold bind.
    destruct (s_validate_ok (c_validator c) x s1) as [s2 ->]; [apply (Hc x t c (VInt 0) w); now left|].
    rewrite s_positionals_none by exact Hn. rewrite Hn. unfold by_count. cbn. now rewrite Et.
  - unfold bind at 1. destruct (s_assign_ok x t w s) as [s1 ->]; [apply (Hc x t c); now left|]. unfold bind.
    destruct (s_validate_ok (c_validator c) x s1) as [s2 ->]; [apply (Hc x t c (VInt 0) w); now left|].
    rewrite IH; [|eapply list_last_tail; eauto|intros x0 t0 c0 old w0 H1 H2; apply (Hc x0 t0 c0); now right].
    unfold by_count. cbn [List.length existsb]. rewrite Et. reflexivity.
Qed.

Lemma word_count_lemma decls inv vs f s1 : wf_decls decls = true -> wf_invocation decls inv = true ->
  mapM_ (s_option ndebug (items inv)) decls {| s_vars := vs; s_fs := f |} = (s1, Ret tt) -> unknown decls (items inv) = false ->
  (forall x t c old w, In (DPositional x t c) decls -> In w (words inv) -> tolerant (c_validator c) /\ exists v, parse_option_value t old w = POk v PSuccess) ->
  okind_of (snd (parse_args ndebug decls (render inv) vs f)) = by_count (pos_types decls) (List.length (words inv)).
Proof.
  intros Hd Hw H1 Hu Hc. destruct (parse_args_refines ndebug decls inv vs f Hd Hw) as (_ & _ & C). rewrite C. unfold eval. unfold bind at 1. rewrite H1.
  unfold bind at 1.
  assert (Hf : forall ds s, exists s', mapM_ (s_flag (items inv)) ds s = (s', Ret tt)).
  { induction ds as [|d ds IH]; intros s; [eexists; reflexivity|]. cbn [mapM_]. unfold bind. destruct d; cbn [s_flag]; apply IH. }
  destruct (Hf decls s1) as [s2 ->]. unfold bind. rewrite Hu. cbn [ret]. apply count_lemma; [|exact Hc].
  unfold wf_decls in Hd. now apply andb_true_iff in Hd as [_ Hd].
Qed.

(** ** C19: validators *)

Lemma checks_options its ds : forall s s1 vs, NoDup (map bound_addr ds) -> mapM_ (s_option ndebug its) ds s = (s1, Ret tt) ->
  (forall x t c, In (DOption x t c) ds -> vs x = s_vars s1 x) ->
  run_checks vs (flat_map (fun d => match d with
                     | DOption x t c => if given (option_values its c) then [(x, c_validator c)] else []
                     | _ => []
                     end) ds) (s_fs s) = (s_fs s1, VOk).
Proof.
  induction ds as [|d ds IH]; intros s s1 vs Hnd H Hvs; [injection H as <-; reflexivity|].
  cbn [map] in Hnd. inversion Hnd as [|? ? Hd Hnd']; subst. cbn [mapM_] in H. apply bind_inv in H as (s2 & [] & H1 & H2).
  cbn [flat_map]. destruct d as [x t c|x c|x t c];
    try (injection H1 as <-; apply IH; auto; intros; eapply Hvs; right; eauto).
  cbn [bound_addr] in Hd.
  assert (Hx : vs x = s_vars s2 x).
  { rewrite (Hvs x t c) by now left. pose proof (mapM_frame (s_option ndebug its) ds s2 x (local_option ndebug its) Hd) as E. now rewrite H2 in E. }
  assert (Hg : given (short_values its c) || given (long_values its c) = given (option_values its c)).
  { pose proof (short_incl its c) as Is. pose proof (long_incl its c) as Il. destruct (short_long_values its c) as [SL1 SL2].
    destruct (short_values its c) as [|v l].
    - now rewrite (SL1 eq_refl).
    - destruct (option_values its c); [destruct (Is v (or_introl eq_refl))|reflexivity]. }
  assert (IH' : run_checks vs (flat_map (fun d => match d with
                     | DOption x t c => if given (option_values its c) then [(x, c_validator c)] else []
                     | _ => [] end) ds) (s_fs s2) = (s_fs s1, VOk)) by (apply IH; auto; intros; eapply Hvs; right; eauto).
  cbn [s_option] in H1. apply bind_inv in H1 as (s3 & [] & V1 & H1). apply bind_inv in H1 as (s4 & [] & V2 & H1).
  assert (Hfs : s_fs s4 = s_fs s).
  { pose proof (s_values_fs ndebug x t (short_values its c) s) as F1. rewrite V1 in F1.
    pose proof (s_values_fs ndebug x t (long_values its c) s3) as F2. rewrite V2 in F2. cbn in *. congruence. }
  destruct (_ && _ && _); [discriminate|]. rewrite Hg in H1. destruct (given (option_values its c)).
  - cbn [app run_checks]. unfold s_validate in H1. rewrite Hfs in H1.
    destruct (c_validator c (s_fs s) (s_vars s4 x)) as [f' r] eqn:E. injection H1 as <- Hr. cbn [s_vars s_fs] in *.
    rewrite Hx, E. destruct r; try discriminate. exact IH'.
  - cbn [app]. destruct (c_required c); [discriminate|]. injection H1 as <-. rewrite <- Hfs. exact IH'.
Qed.

Lemma checks_positionals ds : forall ws s s' vs, NoDup (map bound_addr (filter is_positional ds)) ->
  s_positionals ndebug ds ws s = (s', Ret tt) -> (forall x t c, In (DPositional x t c) ds -> vs x = s_vars s' x) ->
  run_checks vs (flat_map (fun d => match d with DPositional x t c => [(x, c_validator c)] | _ => [] end) ds) (s_fs s) = (s_fs s', VOk).
Proof.
  induction ds as [|d ds IH]; intros ws s s' vs Hnd H Hvs; [destruct ws; [injection H as <-; reflexivity|discriminate]|].
  destruct d as [x t c|x c|x t c]; try (eapply IH; eauto; intros; eapply Hvs; right; eauto).
  cbn [filter is_positional map bound_addr s_positionals flat_map app run_checks] in *. inversion Hnd as [|? ? Hx Hnd']; subst.
  destruct ws as [|w more]; [discriminate|].
  assert (K : forall s1 ws', s_fs s1 = s_fs s -> (s_validate (c_validator c) x ;; s_positionals ndebug ds ws') s1 = (s', Ret tt) ->
     match c_validator c (s_fs s) (vs x) with
     | (f', VOk) => run_checks vs (flat_map (fun d => match d with DPositional x t c => [(x, c_validator c)] | _ => [] end) ds) f'
     | r => r end = (s_fs s', VOk)).
  { intros s1 ws' Hfs E. apply bind_inv in E as (s2 & [] & E1 & E2).
    assert (Hv : vs x = s_vars s1 x).
    { rewrite (Hvs x t c) by now left. apply s_validate_vars in E1. rewrite <- E1.
      pose proof (s_positionals_frame ndebug ds ws' s2 x Hx) as F. now rewrite E2 in F. }
    unfold s_validate in E1. rewrite Hfs, <- Hv in E1. destruct (c_validator c (s_fs s) (vs x)) as [f' r]. injection E1 as <- Er.
    destruct r; try discriminate. apply (IH ws' _ s' vs Hnd' E2). intros; eapply Hvs; right; eauto. }
  destruct (is_container t).
  - apply bind_inv in H as (s1 & [] & H1 & H). apply bind_inv in H as (s2 & [] & H2 & H). injection H1 as <-.
    eapply K; [|exact H]. pose proof (mapM_fs (s_assign ndebug x t) (w :: more) (s_assign_fs ndebug x t) {| s_vars := set_var (s_vars s) x (VList []); s_fs := s_fs s |}) as F.
    rewrite H2 in F. exact F.
  - apply bind_inv in H as (s1 & [] & H1 & H). eapply K; [|exact H]. pose proof (s_assign_fs ndebug x t w s) as F. now rewrite H1 in F.
Qed.

Lemma run_checks_app vs l1 l2 f f1 : run_checks vs l1 f = (f1, VOk) -> run_checks vs (l1 ++ l2) f = run_checks vs l2 f1.
Proof.
  revert f; induction l1 as [|[x v] l1 IH]; intros f H; cbn in *; [now injection H as <-|]. destruct (v f (vs x)) as [f' []]; try discriminate. now apply IH.
Qed.

Lemma NoDup_filter_pos decls : NoDup (map bound_addr decls) -> NoDup (map bound_addr (filter is_positional decls)).
Proof.
  induction decls as [|d ds IH]; cbn; [constructor|]. intros H. inversion H; subst. specialize (IH H3).
  destruct (is_positional d); [|exact IH]. cbn. constructor; [|exact IH]. intros G. now apply H2, filter_map_incl.
Qed.

Lemma validated_lemma decls inv vs f : wf_decls decls = true -> wf_invocation decls inv = true -> NoDup (map bound_addr decls) ->
  okind_of (snd (parse_args ndebug decls (render inv) vs f)) = ORet ->
  run_checks (vars (fst (parse_args ndebug decls (render inv) vs f))) (checks decls inv) f =
    (fsys (fst (parse_args ndebug decls (render inv) vs f)), VOk).
Proof.
  intros Hd Hw Hnd Hr. destruct (success ndebug decls inv vs f Hd Hw Hr) as (s' & He & Hv & Hf). rewrite Hv, Hf. clear Hr Hv Hf.
  destruct (eval_inv _ _ _ _ _ _ He) as (s1 & s2 & H1 & H2 & _ & H3). unfold checks.
  assert (Hfs : s_fs s2 = s_fs s1) by (pose proof (mapM_fs (s_flag (items inv)) decls) as F; rewrite <- (F (fun d s => ltac:(destruct d; reflexivity)) s1), H2; reflexivity).
  erewrite run_checks_app; [|apply (checks_options (items inv) decls {| s_vars := vs; s_fs := f |} s1); auto].
  - rewrite <- Hfs. eapply checks_positionals; eauto using NoDup_filter_pos.
  - intros x t c Hin.
    pose proof (non_positional_frame ndebug decls _ (words inv) s2 Hnd Hin eq_refl) as E. rewrite H3 in E. cbn in E. rewrite E.
    destruct (mapM_at _ _ _ _ _ (local_flag (items inv)) Hnd Hin H2) as (a' & b' & B1 & B2 & B3). injection B1 as <-. cbn [bound_addr] in *. congruence.
Qed.

(** *** Messages *)

Definition vthrow {A} (P : pst -> string -> Prop) (m : M pst A) : Prop :=
  forall st st' msg, m st = (st', Throw (Exn KValidation msg)) -> P st' msg.

Lemma vthrow_bind {A B} P (m : M pst A) (k : A -> M pst B) : vthrow P m -> (forall a, vthrow P (k a)) -> vthrow P (bind m k).
Proof.
  intros Hm Hk st st' msg. unfold bind. destruct (m st) as [s1 r] eqn:E. destruct r; try discriminate.
  - intros H. eapply Hk; exact H.
  - intros [= <- ->]. eapply Hm. exact E.
Qed.
Lemma vthrow_never {A} P (m : M pst A) : (forall st msg, snd (m st) <> Throw (Exn KValidation msg)) -> vthrow P m.
Proof. intros H st st' msg E. exfalso. apply (H st msg). now rewrite E. Qed.
Lemma vthrow_ret {A} P (a : A) : vthrow P (ret a). Proof. apply vthrow_never. discriminate. Qed.
Lemma vthrow_modify P f : vthrow P (modify f). Proof. apply vthrow_never. discriminate. Qed.

Lemma parse_throw_kind t old w e : parse_option_value t old w = PThrow e -> ekind e <> KValidation.
Proof.
  assert (G : forall e old, match parse_elem e old w with PThrow x => ekind x <> KValidation | _ => True end).
  { clear. intros e old. destruct e as [sg bits| | | | |n names|n mn mx rd|n rd pr]; cbn [parse_elem].
    - now destruct (from_chars_int sg bits w).
    - now destruct (from_chars_int true 8 w).
    - repeat (destruct (String.eqb _ _); [exact I|]). exact I.
    - exact I.
    - now destruct (read_path old w) as [[? []] []].
    - destruct (assoc w names); [exact I|]. destruct (enum_keys names); discriminate.
    - now destruct (rd w).
    - now destruct (rd old w) as [[? []] []]. }
  destruct t as [el|el]; cbn [parse_option_value]; intros H.
  - specialize (G el old). now rewrite H in G.
  - specialize (G el (default_val el)). destruct (parse_elem el (default_val el) w) as [v []|]; try discriminate. now injection H as ->.
Qed.

Lemma vthrow_store P x t name w : vthrow P (store_value ndebug x t name w).
Proof.
  apply vthrow_never. intros st msg. unfold store_value. destruct (parse_option_value t (vars st x) w) as [v r|e] eqn:E; cbn [snd].
  - unfold throw_on_input_error. destruct r; try discriminate. destruct (is_arithmetic t); [discriminate|]. now destruct ndebug.
  - intros [= ->]. now apply parse_throw_kind in E.
Qed.

Lemma vthrow_retrieve P i x t b a r : vthrow P (retrieve ndebug i x t b a r).
Proof.
  unfold retrieve.
  assert (K : forall name w (p : list string * list string), vthrow P (store_value ndebug x t name w ;; ret p)).
  { intros. apply vthrow_bind; [apply vthrow_store|intros; apply vthrow_ret]. }
  destruct (_ <? _)%nat; [destruct (match snth _ _ with Some _ => _ | None => _ end); [destruct (_ =? _)%nat|]|destruct r as [|v r]];
    try apply K; apply vthrow_never; discriminate.
Qed.
Lemma vthrow_get_all P i x t : forall fuel done rest, vthrow P (get_all ndebug fuel i x t done rest).
Proof.
  induction fuel as [|fuel IH]; intros done rest; cbn [get_all]; destruct (find_option_id i rest) as [[[b a] r]|]; try apply vthrow_modify.
  - apply vthrow_never. discriminate.
  - apply vthrow_bind; [apply vthrow_retrieve|]. intros [? ?]. apply IH.
Qed.
Lemma vthrow_get_by_id P i x t : vthrow P (get_by_id ndebug i x t).
Proof.
  unfold get_by_id. destruct (is_container t); intros st.
  - unfold get_by_id_list. destruct (find_option_id i (pre st)); [|discriminate]. revert st.
    enough (H : forall l, vthrow P (modify (fun s => set_vars (set_var (vars s) x (VList [])) s) ;; get_all ndebug (S (List.length l)) i x t [] l ;; ret true)) by (intros st; apply H).
    intros l. apply vthrow_bind; [apply vthrow_modify|intros _]. apply vthrow_bind; [apply vthrow_get_all|intros; apply vthrow_ret].
  - unfold get_by_id_scalar. destruct (find_option_id i (pre st)) as [[[b a] r]|]; [|discriminate]. revert st.
    apply vthrow_bind; [apply vthrow_retrieve|]. intros [b' r']. apply vthrow_bind; [apply vthrow_modify|intros _].
    destruct (find_option_id i (snd (b', r'))); apply vthrow_never; discriminate.
Qed.

Lemma get_by_id_true i x t st st' : get_by_id ndebug i x t st = (st', Ret true) -> is_empty_id i = false.
Proof.
  intros H. destruct (is_empty_id i) eqn:E; [|reflexivity]. rewrite get_by_id_unmentioned in H; [discriminate|]. unfold find_option_id. now rewrite E.
Qed.

Definition blame_option (x : addr) (c : config) (st : pst) (msg : string) : Prop :=
  exists f0 m, c_validator c f0 (vars st x) = (fsys st, VThrow m) /\ msg = "Validation failed for option " +s+ shown_names c +s+ ": " +s+ m.

Lemma shown_names_eq c : is_empty_id (IdShort (c_short c)) = false \/ is_empty_id (IdLong (c_long c)) = false ->
  shown_names c = combine_option_names (c_short c) (c_long c).
Proof.
  cbn [is_empty_id]. intros H. unfold shown_names, combine_option_names, config_idents.
  destruct (Ascii.eqb (c_short c) nul); destruct (is_empty (c_long c)) eqn:E; cbn; try reflexivity.
  destruct H; discriminate.
Qed.

Lemma run_validator_throw v x p st st' msg : run_validator v x p st = (st', Throw (Exn KValidation msg)) ->
  exists f0 m, v f0 (vars st' x) = (fsys st', VThrow m) /\ msg = p +s+ m.
Proof.
  unfold run_validator. destruct (v (fsys st) (vars st x)) as [f' r] eqn:E. intros [= <- H]. destruct r as [|m| |]; try discriminate. injection H as <-.
  exists (fsys st), m. cbn. auto.
Qed.

Lemma vthrow_get_option x t c : vthrow (blame_option x c) (get_option ndebug x t c).
Proof.
  intros st st' msg H. unfold get_option in H.
  unfold bind at 1 in H. destruct (get_by_id ndebug (IdShort (c_short c)) x t st) as [st1 q1] eqn:E1. destruct q1 as [s|e|o| | |]; try discriminate.
  2:{ injection H as <- ->. exfalso. eapply (vthrow_get_by_id (fun _ _ => False)). exact E1. }
  unfold bind at 1 in H. destruct (get_by_id ndebug (IdLong (c_long c)) x t st1) as [st2 q2] eqn:E2. destruct q2 as [l|e|o| | |]; try discriminate.
  2:{ injection H as <- ->. exfalso. eapply (vthrow_get_by_id (fun _ _ => False)). exact E2. }
  destruct (s && l && negb (is_container t)); [discriminate|]. destruct (s || l) eqn:Esl; [|destruct (c_required c); discriminate].
  apply run_validator_throw in H as (f0 & m & Hv & ->). exists f0, m. split; [exact Hv|].
  rewrite shown_names_eq; [now rewrite !app_assoc_s|].
  apply orb_true_iff in Esl as [->| ->]; [left|right]; eapply get_by_id_true; eauto.
Qed.

Lemma vthrow_pos_all P x t l : vthrow P (pos_all ndebug x t l).
Proof.
  induction l as [|a l IH]; cbn [pos_all]; [apply vthrow_ret|]. destruct (is_empty a).
  - apply vthrow_bind; [exact IH|intros; apply vthrow_ret].
  - apply vthrow_bind; [intros st; apply vthrow_store|intros _]. apply vthrow_bind; [apply vthrow_modify|intros _].
    apply vthrow_bind; [exact IH|intros; apply vthrow_ret].
Qed.

Lemma positional_throw n x t v st st' msg : get_positional_option ndebug n x t v st = (st', Throw (Exn KValidation msg)) ->
  exists f0 m k, v f0 (vars st' x) = (fsys st', VThrow m) /\ msg = "Validation failed for positional option " +s+ nat_to_string k +s+ ": " +s+ m /\
    (is_container t = false -> k = S (count st)).
Proof.
  intros H. unfold get_positional_option in H. unfold bind at 1 in H. cbn [incr_count modify] in H. unfold bind at 1 in H. cbn [get] in H.
  destruct (split_first nonempty _) as [[[b a] r]|]; [|discriminate]. unfold bind at 1 in H.
  match type of H with (match ?m with _ => _ end) = _ => destruct m as [st2 q] eqn:E end. destruct q as [[]|e|o| | |]; try discriminate.
  - unfold bind, get in H. apply run_validator_throw in H as (f0 & m & Hv & ->). exists f0, m, (count st2). split; [exact Hv|].
    split; [now rewrite !app_assoc_s|]. intros Ht. rewrite Ht in E. apply bind_inv_p in E as (s3 & [] & H3 & H1). injection H1 as <-.
    pose proof (pos_value_at ndebug x t a (set_count (S (count st)) st)) as Hat. rewrite H3 in Hat. cbn [fst] in Hat.
    destruct Hat as (_ & _ & Hc & _). exact Hc.
  - exfalso. injection H as <- ->. revert E. set (st1 := set_count (S (count st)) st). destruct (is_container t); intros E.
    + revert E. apply (vthrow_bind (fun _ _ => False)); [destruct ((count st1 =? n)%nat || ndebug); apply vthrow_never; discriminate|intros _].
      apply vthrow_bind; [apply vthrow_modify|intros _]. apply vthrow_bind; [apply vthrow_pos_all|intros; apply vthrow_modify].
    + revert E. apply (vthrow_bind (fun _ _ => False)); [intros s; apply vthrow_store|intros; apply vthrow_modify].
Qed.

Lemma positional_calls_throw n l1 ds : forall st st' msg, list_last (pos_types ds) = true -> count st = List.length (pos_types l1) ->
  mapM_ (positional_call ndebug n) ds st = (st', Throw (Exn KValidation msg)) -> blamed (l1 ++ ds) (vars st') (fsys st') msg.
Proof.
  revert l1; induction ds as [|d ds IH]; intros l1 st st' msg Hl Hc H; [discriminate|]. cbn [mapM_] in H. unfold bind in H.
  assert (Ea : l1 ++ d :: ds = (l1 ++ [d]) ++ ds) by now rewrite <- app_assoc.
  destruct d as [x t c|x c|x t c].
  1,2: rewrite Ea; eapply IH; [exact Hl| |exact H]; unfold pos_types in *; rewrite flat_map_app; cbn; now rewrite app_nil_r.
  cbn [positional_call] in H. destruct (get_positional_option ndebug n x t (c_validator c) st) as [st1 q] eqn:E. destruct q as [[]|e|o| | |]; try discriminate.
  - destruct (is_container t) eqn:Et.
    + cbn [pos_types flat_map app] in Hl. pose proof (list_last_container _ _ Hl Et) as Hn. rewrite positional_none in H by exact Hn. discriminate.
    + rewrite Ea. eapply IH; [eapply list_last_tail; exact Hl| |exact H]. rewrite (positional_count _ _ _ _ _ _ Et E), Hc.
      unfold pos_types. rewrite flat_map_app, app_length. cbn. lia.
  - injection H as <- ->. apply positional_throw in E as (f0 & m & k & H1 & H2 & H3). exists l1, (DPositional x t c), ds. split; [reflexivity|].
    exists f0, m, k. repeat split; auto. intros Ht. rewrite (H3 Ht). now rewrite Hc.
Qed.

Lemma option_calls_throw l1 ds : forall st st' msg,
  mapM_ (option_call ndebug) ds st = (st', Throw (Exn KValidation msg)) -> blamed (l1 ++ ds) (vars st') (fsys st') msg.
Proof.
  revert l1; induction ds as [|d ds IH]; intros l1 st st' msg H; [discriminate|]. cbn [mapM_] in H. unfold bind in H.
  assert (Ea : l1 ++ d :: ds = (l1 ++ [d]) ++ ds) by now rewrite <- app_assoc.
  destruct d as [x t c|x c|x t c]; try (rewrite Ea; eapply IH; exact H).
  cbn [option_call] in H. destruct (get_option ndebug x t c st) as [st1 q] eqn:E. destruct q as [[]|e|o| | |]; try discriminate.
  - rewrite Ea. eapply IH; exact H.
  - injection H as <- ->. apply vthrow_get_option in E as (f0 & m & H1 & H2). exists l1, (DOption x t c), ds. split; [reflexivity|]. exists f0, m. auto.
Qed.

Lemma check_unknown_kind l msg : check_unknown_in l <> Throw (Exn KValidation msg).
Proof.
  induction l as [|a l IH]; [discriminate|]. cbn [check_unknown_in]. destruct a as [|c s]; [exact IH|]. destruct (Ascii.eqb c "-"); [|exact IH].
  destruct (String.eqb _ _); [exact IH|]. destruct (_ && _); [|discriminate].
  unfold expand_multiple_flags. destruct (is_empty _); [discriminate|]. destruct (rfind _ _); discriminate.
Qed.

Lemma validation_message decls args vs f st' msg : list_last (pos_types decls) = true ->
  parse_args ndebug decls args vs f = (st', Throw (Exn KValidation msg)) -> blamed decls (vars st') (fsys st') msg.
Proof.
  intros Hl. unfold parse_args. rewrite parse_front. unfold bind at 1. destruct (front ndebug decls (init_pst args vs f)) as [st1 q] eqn:E.
  destruct q as [[]|e|o| | |]; try discriminate.
  - assert (Hcount : count st1 = 0) by (apply front_ret in E as (_ & _ & _ & _ & E & _); exact E).
    unfold bind at 1. cbn [drop_end_of_options modify]. unfold bind at 1.
    match goal with |- context [mapM_ ?g decls ?s] => set (st2 := s); destruct (mapM_ g decls st2) as [st3 q3] eqn:E3 end.
    destruct q3 as [[]|e|o| | |]; try discriminate.
    + unfold check_for_left_over_args. destruct (existsb _ _); discriminate.
    + intros [= <- ->]. eapply (positional_calls_throw _ []); [exact Hl| |exact E3]. exact Hcount.
  - intros [= <- ->]. unfold front in E. unfold bind at 1 in E. destruct (mapM_ (option_call ndebug) decls (init_pst args vs f)) as [s1 q1] eqn:E1.
    destruct q1 as [[]|e|o| | |]; try discriminate.
    + exfalso. unfold bind in E. pose proof (flag_calls_ret decls s1) as Hf. destruct (mapM_ flag_call decls s1) as [s2 q2]. cbn in Hf. subst q2.
      unfold check_for_unknown_ids in E. injection E as _ E. now apply check_unknown_kind in E.
    + injection E as <- ->. now apply (option_calls_throw []) in E1.
Qed.

(** ** C54 *)

Lemma dash_list_join cs : cs <> [] -> dash_list (of_chars cs) = dash_join cs +s+ ", ".
Proof.
  induction cs as [|c cs IH]; [congruence|]. intros _. destruct cs as [|d cs]; [reflexivity|].
  change (of_chars (c :: d :: cs)) with (String c (of_chars (d :: cs))). cbn [dash_list]. rewrite IH by discriminate.
  cbn [dash_join]. now rewrite !app_assoc_s.
Qed.

Lemma rfind_none c s : scontains c s = false -> rfind c s = None.
Proof.
  induction s as [|d s IH]; [reflexivity|]. cbn. intros H. apply orb_false_iff in H as [H1 H2]. rewrite (IH H2). now rewrite H1.
Qed.
Lemma rfind_last c a b : scontains c b = false -> rfind c (a +s+ String c b) = Some (String.length a).
Proof.
  intros H. induction a as [|d a IH]; cbn.
  - rewrite rfind_none by exact H. now rewrite Ascii.eqb_refl.
  - now rewrite IH.
Qed.

Lemma of_chars_snoc cs c : exists d s, of_chars (cs ++ [c]) = String d s.
Proof. destruct cs as [|d cs]; eexists; eexists; reflexivity. Qed.
Lemma init_chars_app cs c : init_chars (of_chars (cs ++ [c])) = of_chars cs.
Proof.
  induction cs as [|d cs IH]; [reflexivity|]. change (of_chars ((d :: cs) ++ [c])) with (String d (of_chars (cs ++ [c]))).
  change (of_chars (d :: cs)) with (String d (of_chars cs)). destruct (of_chars_snoc cs c) as (e & s & E). rewrite E in *. rewrite <- IH. reflexivity.
Qed.
Lemma last_char_app cs c : last_char (of_chars (cs ++ [c])) = str1 c.
Proof.
  induction cs as [|d cs IH]; [reflexivity|]. change (of_chars ((d :: cs) ++ [c])) with (String d (of_chars (cs ++ [c]))).
  destruct (of_chars_snoc cs c) as (e & s & E). rewrite E in *. exact IH.
Qed.

Lemma expand_exact cs c : cs <> [] -> expand_multiple_flags (String "-" (of_chars (cs ++ [c]))) = Ret (dash_join cs +s+ "and -" +s+ str1 c).
Proof.
  intros H. unfold expand_multiple_flags. cbn [Ascii.eqb]. change (Ascii.eqb "-" "-") with true. cbv iota beta.
  assert (E : is_empty (of_chars (cs ++ [c])) = false) by (destruct cs; reflexivity). rewrite E.
  rewrite init_chars_app, last_char_app, dash_list_join by exact H.
  change (dash_join cs +s+ ", ") with (dash_join cs +s+ String "," " "). rewrite rfind_last by reflexivity. now rewrite stake_app.
Qed.

End outcomes.

(** ** C11 in terms of the specification *)

Lemma unknown_word_lemma ndebug decls args b r vs f l1 a l2 :
  wf_decls decls = true -> cut args b r -> b = l1 ++ a :: l2 ->
  (forall i, In i (flat_map option_idents decls) -> looks_like i a = false) -> ~ may_be_value (flat_map option_idents decls) l1 ->
  begins "-" a = true -> a <> "-" -> scontains nul a = false ->
  starts_with "--" a = true \/ scontains "-" (sdrop 1 a) = false ->
  ~ made_of_flags (flat_map flag_idents decls) a ->
  snd (parse_args ndebug decls args vs f) <> Ret tt.
Proof.
  intros Hwf Hc Hb Hl Hv Ha Hne Hnul Hd Hm. eapply unknown_rejected; eauto.
  destruct Hd as [Hd|Hd].
  - left. apply prefix_iff in Hd as [s ->]. exists s. split; [reflexivity|]. intros Hin. apply Hm. left. eauto.
  - right. destruct a as [|d cs]; [discriminate|]. cbn in Ha. apply Ascii.eqb_eq in Ha. subst d. cbn [sdrop] in Hd.
    replace (match cs with | "" => cs | _ => cs end) with cs in Hd by now destruct cs.
    destruct (forallb (fun c => mem_ident (IdShort c) (flat_map flag_idents decls)) (chars cs)) eqn:E.
    + exfalso. apply Hm. right. exists cs. split; [reflexivity|]. split.
      * destruct cs as [|e cs]; [reflexivity|]. cbn in Hd |- *. apply orb_false_iff in Hd as [Hd _].
        destruct (Ascii.eqb_spec e "-") as [->|]; [discriminate|]. now destruct (Ascii.eqb_spec "-" e); congruence.
      * intros c Hin. eapply forallb_forall in E; [|exact Hin]. now apply mem_ident_In.
    + assert (exists u, In u (chars cs) /\ mem_ident (IdShort u) (flat_map flag_idents decls) = false) as (u & H1 & H2).
      { clear -E. induction (chars cs) as [|c l IH]; [discriminate|]. cbn [forallb] in E. apply andb_false_iff in E as [E|E]; [exists c; split; [now left|exact E]|].
        destruct (IH E) as (u & H1 & H2). exists u. split; [now right|exact H2]. }
      exists u. split; [exists cs; repeat split; auto|split; [|now apply mem_ident_nIn]].
      * intros H. apply scontains_In in H. congruence.
      * intros ->. assert (K : scontains nul (String "-" cs) = true) by (apply scontains_In; now right). congruence.
Qed.

(** ** Shipped validators are behaved *)

Lemma lift_range_behaved v : behaved v -> behaved (lift_range v).
Proof.
  intros H f x. destruct x; try apply H. cbn. revert f. induction l as [|y l IH]; intros f; [now left|]. cbn.
  specialize (H f y). destruct (v f y) as [f' r]. cbn in H. destruct H as [->|[m ->]]; [apply IH|right; exists m; reflexivity].
Qed.
Lemma range_behaved v (h : val -> val) : behaved v -> behaved (fun f x => lift_range v f (h x)).
Proof. intros H f x. now apply lift_range_behaved. Qed.
Lemma pure_behaved g : (forall x, g x = VOk \/ exists m, g x = VThrow m) -> behaved (pure_validator g).
Proof. intros H f x. apply H. Qed.
Lemma chain_behaved v1 v2 : behaved v1 -> behaved v2 -> behaved (chain v1 v2).
Proof.
  intros H1 H2 f x. unfold chain. specialize (H1 f x). destruct (v1 f x) as [f' r]. cbn in H1. destruct H1 as [->|[m ->]]; [apply H2|right; exists m; reflexivity].
Qed.
Lemma on_path_behaved g : (forall f p, snd (g f p) = VOk \/ exists m, snd (g f p) = VThrow m) -> behaved (on_path g).
Proof. intros H f x. destruct x; cbn; auto. Qed.

Definition quiet_w (r : wout) : Prop := r <> WAssert.
Lemma unwind_quiet f p r : quiet_w r -> quiet_w (snd (unwind true f p r)).
Proof. unfold unwind. destruct (guard_destroy f p) as [f' ok]. rewrite orb_true_r. destruct r; auto. Qed.
Lemma writeability_quiet f p : quiet_w (snd (validate_writeability true f p)).
Proof.
  unfold validate_writeability. destruct (is_directory f p); [discriminate|]. destruct (open_write f p) as [f1 []]; cbn [negb].
  - destruct (remove f1 p) as [f2 []]; now apply unwind_quiet.
  - now apply unwind_quiet.
Qed.
Lemma of_wout_behaved r : quiet_w r -> of_wout r = VOk \/ exists m, of_wout r = VThrow m.
Proof. destruct r; cbn; eauto. now intros []. Qed.

Lemma shipped_behaved_lemma :
  behaved default_validator /\
  (forall sg bits mn mx, behaved (arithmetic_range_validator sg bits mn mx)) /\
  (forall e values, behaved (value_list_validator e values)) /\
  (forall p rx, behaved (regex_validator p rx)) /\
  behaved (input_file_validator []) /\
  behaved input_directory_validator /\
  (forall mode, behaved (output_file_validator true mode [])) /\
  behaved (output_directory_validator true) /\
  (forall v1 v2, behaved v1 -> behaved v2 -> behaved (chain v1 v2)).
Proof.
  assert (Hr : forall f p, validate_readability f p = VOk \/ exists m, validate_readability f p = VThrow m).
  { intros f p. unfold validate_readability. destruct (is_directory f p), (open_read f p), (is_regular_file f p); cbn; eauto. }
  repeat split.
  - intros f x. now left.
  - intros. apply (range_behaved _ by_characters), pure_behaved. intros []; cbn; auto; destruct (negb _); eauto.
  - intros. apply (range_behaved _ (as_range e)), pure_behaved. intros x. unfold value_list1. destruct (existsb _ _); eauto.
  - intros. apply (range_behaved _ by_elements), pure_behaved. intros []; cbn; auto; destruct (rx s) as [[]|]; eauto.
  - apply lift_range_behaved, on_path_behaved. intros f p. cbn. unfold input_file1. destruct (exists_ f p); cbn; eauto.
    destruct (Hr f p) as [->|[m ->]]; cbn; eauto.
  - apply lift_range_behaved, on_path_behaved. intros f p. cbn. unfold input_directory1. destruct (exists_ f p); cbn; eauto.
    destruct (is_directory f p) eqn:E; cbn; eauto.
  - intros mode. apply lift_range_behaved, on_path_behaved. intros f p. unfold output_file1. destruct (is_directory f p); cbn; eauto.
    destruct (match mode with CreateNew => exists_ f p | OpenOrCreate => false end); cbn; eauto.
    pose proof (writeability_quiet f p) as H. destruct (validate_writeability true f p) as [f' r]. cbn in H. destruct r; cbn; eauto. now destruct H.
  - apply lift_range_behaved, on_path_behaved. intros f p. unfold output_directory1. destruct (create_directory f p) as [f1 []]; cbn; eauto.
    pose proof (writeability_quiet f1 (path_join p "dummy.txt")) as H. destruct (validate_writeability true f1 (path_join p "dummy.txt")) as [f2 r]. cbn in H.
    destruct (exists_ f p); cbn; [now apply of_wout_behaved|].
    assert (K : forall f3 q, quiet_w q -> snd (let '(f4, r') := unwind true f3 p q in (f4, of_wout r')) = VOk \/ exists m, snd (let '(f4, r') := unwind true f3 p q in (f4, of_wout r')) = VThrow m).
    { intros f3 q Hq. pose proof (unwind_quiet f3 p q Hq) as Hu. destruct (unwind true f3 p q). cbn in *. now apply of_wout_behaved. }
    destruct r; try (apply K; discriminate); [|now destruct H].
    destruct (remove_all f2 p) as [f3 []]; apply K; discriminate.
  - intros. now apply chain_behaved.
Qed.
