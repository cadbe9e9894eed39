(** Lemmas behind PropValues.v. *)
From Verif Require Import Base StrLib Fs Values ValuesSpec ValuesProofs Validators FormatParse Invocation
  InvocationProofs InvocationCorollaries InvocationEffects ValuesRun.
From Coq Require Import Permutation Sorted.

Lemma default_accepts c f v : c_validator c = default_validator -> snd (c_validator c f v) = VOk.
Proof. now intros ->. Qed.

Lemma integer_option_lemma ndebug x sg bits c i s vs f :
  wf_decls [DOption x (Scalar (TInt sg bits)) c] = true -> In i (config_idents c) -> s <> "" ->
  c_validator c = default_validator ->
  let r := parse_args ndebug [DOption x (Scalar (TInt sg bits)) c] (one_arg i s) vs f in
  (forall z, numeral sg s z -> in_type sg bits z -> okind_of (snd r) = ORet /\ vars (fst r) x = VInt z) /\
  ((forall z, numeral sg s z -> ~ in_type sg bits z) -> okind_of (snd r) = OThrow KUserInput).
Proof.
  intros Hd Hi Hs Hv r. destruct (one_option_lemma ndebug x _ c i s vs f Hd Hi Hs I) as [A B]. split.
  - intros z Hn Ht. apply (A (VInt z)); [|now apply default_accepts]. cbn. eauto.
  - intros H. apply B. intros v (z & -> & Hn & Ht). exact (H z Hn Ht).
Qed.

Lemma integer_round_trip_lemma sg bits old z : in_type sg bits z ->
  parse_elem (TInt sg bits) old (Z_to_string z) = POk (VInt z) PSuccess.
Proof.
  intros H. apply parse_int_iff. exists z. split; [reflexivity|]. split; [|exact H]. apply Z_to_string_numeral.
  unfold in_type in H. destruct sg; [now left|right; lia].
Qed.

Lemma numeric_overflow e old s v : numeric e = false -> parse_elem e old s <> POk v POverflow.
Proof.
  intros H E. destruct e as [sg bits| | | | |n names|n mn mx rd|n rd pr]; cbn in *; try discriminate.
  - repeat (destruct (String.eqb _ _) in E; [discriminate|]). discriminate.
  - destruct (read_path old s) as [[? []] []]; discriminate.
  - destruct (assoc s names); [discriminate|]. destruct (enum_keys names); discriminate.
  - destruct (rd old s) as [[? []] []]; discriminate.
Qed.

Lemma complete_list_lemma ndebug decls inv vs f x e c :
  wf_decls decls = true -> wf_invocation decls inv = true -> one_names decls (items inv) = true ->
  NoDup (map bound_addr decls) -> In (DOption x (ListOf e) c) decls ->
  option_values (items inv) c <> [] ->
  okind_of (snd (parse_args ndebug decls (render inv) vs f)) = ORet ->
  ndebug = false \/ numeric e = false ->
  exists texts es, option_values (items inv) c = map Some texts /\
    vars (fst (parse_args ndebug decls (render inv) vs f)) x = VList es /\
    Forall2 (fun text v => parse_elem e (default_val e) text = POk v PSuccess) texts es.
Proof.
  intros Hd Hw Ho Hnd Hin Hne Hr Hn.
  destruct (list_option_lemma ndebug decls inv vs f x e c Hd Hw Ho Hnd Hin Hr) as (texts & E & H).
  destruct texts as [|t ts]; [now rewrite E in Hne|]. destruct H as (es & Hst & Hv).
  exists (t :: ts), es. split; [exact E|]. split; [exact Hv|]. apply (stored_all ndebug e (t :: ts) es Hst).
  destruct Hn as [Hn|Hn]; [now left|right]. intros text v _. now apply numeric_overflow.
Qed.

Lemma parse_error_keeps ndebug x e c i s vs f :
  wf_decls [DOption x (Scalar e) c] = true -> In i (config_idents c) -> s <> "" ->
  (forall v r, parse_elem e (vs x) s = POk v r -> r <> PSuccess -> v = vs x) ->
  (forall v, parse_elem e (vs x) s <> POk v PSuccess) ->
  okind_of (snd (parse_args ndebug [DOption x (Scalar e) c] (one_arg i s) vs f)) = OThrow KUserInput ->
  vars (fst (parse_args ndebug [DOption x (Scalar e) c] (one_arg i s) vs f)) x = vs x.
Proof.
  intros Hd Hi Hs Hk Hn Hr. pose proof (one_option_unchanged ndebug x (Scalar e) c i s vs f Hd Hi Hs Hr) as H.
  cbn [is_container parse_option_value] in H. destruct (parse_elem e (vs x) s) as [v [| |]|ex] eqn:E.
  - now exfalso; apply (Hn v).
  - rewrite H. now apply (Hk v PError).
  - rewrite H. now apply (Hk v POverflow).
  - exact H.
Qed.

Lemma bool_option_lemma ndebug x c i s vs f :
  wf_decls [DOption x (Scalar TBool) c] = true -> In i (config_idents c) -> s <> "" ->
  c_validator c = default_validator ->
  let r := parse_args ndebug [DOption x (Scalar TBool) c] (one_arg i s) vs f in
  (s = "1" \/ s = "true" -> okind_of (snd r) = ORet /\ vars (fst r) x = VBool true) /\
  (s = "0" \/ s = "false" -> okind_of (snd r) = ORet /\ vars (fst r) x = VBool false) /\
  (~ In s ["0"; "1"; "true"; "false"] -> okind_of (snd r) = OThrow KUserInput /\ vars (fst r) x = vs x).
Proof.
  intros Hd Hi Hs Hv r. destruct (one_option_lemma ndebug x _ c i s vs f Hd Hi Hs I) as [A B]. split; [|split].
  - intros H. apply (A (VBool true)); [cbn; auto|now apply default_accepts].
  - intros H. apply (A (VBool false)); [cbn; auto|now apply default_accepts].
  - intros H. cbn in H.
    assert (Hn : forall v, ~ means TBool (vs x) s v) by (cbn; intuition).
    assert (Hr : okind_of (snd r) = OThrow KUserInput) by (apply B, Hn). split; [exact Hr|].
    apply parse_error_keeps; auto.
    + intros v q. cbn. repeat (destruct (String.eqb _ _); [now intros [= <- <-]|]). now intros [= <- <-].
    + intros v E. apply (Hn v). now apply (parse_elem_means TBool (vs x) s v I).
Qed.

Lemma path_option_lemma ndebug x c i s vs f :
  wf_decls [DOption x (Scalar TPath) c] = true -> In i (config_idents c) -> s <> "" ->
  c_validator c = default_validator ->
  let r := parse_args ndebug [DOption x (Scalar TPath) c] (one_arg i s) vs f in
  (plain_word s -> okind_of (snd r) = ORet /\ vars (fst r) x = VPath s) /\
  (forall w b, s = b +s+ w -> blanks b -> plain_word w -> okind_of (snd r) = ORet /\ vars (fst r) x = VPath w) /\
  ((forall w b, s = b +s+ w -> blanks b -> ~ plain_word w) -> okind_of (snd r) = OThrow KUserInput).
Proof.
  intros Hd Hi Hs Hv r. destruct (one_option_lemma ndebug x _ c i s vs f Hd Hi Hs I) as [A B]. split; [|split].
  - intros H. apply (A (VPath s)); [|now apply default_accepts]. exists s, "". cbn. repeat split; auto; apply H.
  - intros w b E Hb Hw. apply (A (VPath w)); [|now apply default_accepts]. exists w, b. auto.
  - intros H. apply B. intros v (w & b & E & Hb & Hw & _). exact (H w b E Hb Hw).
Qed.

Lemma enum_conversion_lemma name names old s :
  NoDup (map fst names) -> names <> [] ->
  (forall v, parse_elem (TEnum name names) old s = POk v PSuccess <-> exists z, v = VEnum z /\ In (s, z) names) /\
  (~ In s (map fst names) ->
     exists sorted, Permutation names sorted /\ LocallySorted entry_lt sorted /\
       parse_elem (TEnum name names) old s =
         PThrow (Exn KUserInput ("You have chosen an invalid input value: " +s+ s +s+ ". Please use one of: "
                                 +s+ bracket (map fst sorted)))).
Proof.
  intros Hnd Hne. split.
  - intros v. now apply (parse_elem_means (TEnum name names) old s v (conj Hnd Hne)).
  - intros H. exists (sort_entries names). split; [apply sort_perm|]. split; [now apply sort_sorted|].
    cbn [parse_elem]. apply assoc_None in H as ->. now rewrite enum_keys_bracket.
Qed.

Lemma enum_round_trip_lemma name names old z k :
  NoDup (map fst names) -> In (k, z) names ->
  parse_elem (TEnum name names) old (print_stream (TEnum name names) (VEnum z)) = POk (VEnum z) PSuccess.
Proof.
  intros Hnd Hin. cbn [print_stream parse_elem]. destruct (enum_print_In names z k Hnd Hin) as (k' & -> & Hin').
  apply assoc_In in Hin'; [|exact Hnd]. now rewrite Hin'.
Qed.

Lemma enum_option_lemma ndebug x name names c i s vs f :
  wf_decls [DOption x (Scalar (TEnum name names)) c] = true -> In i (config_idents c) -> s <> "" ->
  c_validator c = default_validator -> NoDup (map fst names) -> names <> [] ->
  let r := parse_args ndebug [DOption x (Scalar (TEnum name names)) c] (one_arg i s) vs f in
  (forall z, In (s, z) names -> okind_of (snd r) = ORet /\ vars (fst r) x = VEnum z) /\
  (~ In s (map fst names) -> okind_of (snd r) = OThrow KUserInput).
Proof.
  intros Hd Hi Hs Hv Hnd Hne r. destruct (one_option_lemma ndebug x _ c i s vs f Hd Hi Hs (conj Hnd Hne)) as [A B]. split.
  - intros z H. apply (A (VEnum z)); [|now apply default_accepts]. cbn. eauto.
  - intros H. apply B. intros v (z & _ & Hin). apply H. change s with (fst (s, z)). now apply in_map.
Qed.

(** an integer is written before an error only if the text begins with a number in range *)
Lemma read_digits_split s : forall acc n rest, read_digits s acc = (n, rest) ->
  exists p, s = p +s+ rest /\ sall is_digit p = true /\ n = (acc * 10 ^ Z.of_nat (String.length p) + weight p)%Z /\
    (starts_digit s = true -> p <> "").
Proof.
  induction s as [|c s IH]; intros acc n rest; cbn [read_digits].
  - intros [= <- <-]. exists "". cbn. repeat split; [lia|discriminate].
  - destruct (is_digit c) eqn:Ec.
    + intros H. destruct (IH _ _ _ H) as (p & -> & Hp & -> & _). exists (String c p). cbn [sall weight String.length].
      rewrite Ec, Hp. repeat split; [|discriminate]. rewrite Nat2Z.inj_succ, Z.pow_succ_r by lia. ring.
    + intros [= <- <-]. exists "". cbn. rewrite Ec. repeat split; [lia|discriminate].
Qed.

Lemma from_chars_prefix sg bits s v rest : from_chars_int sg bits s = FcOk v rest ->
  exists p z, s = p +s+ rest /\ v = VInt z /\ numeral sg p z /\ in_type sg bits z.
Proof.
  unfold from_chars_int. change (match s with
                      | EmptyString => (false, s)
                      | String c s' => if sg && Ascii.eqb c "-" then (true, s') else (false, s)
                      end) with (split_sign sg s).
  destruct (split_sign sg s) as [neg body] eqn:Es. destruct (starts_digit body) eqn:Hs; [|discriminate].
  destruct (read_digits body 0) as [n r] eqn:Er.
  destruct ((int_min sg bits <=? _) && _)%Z eqn:Eb; [|discriminate]. intros [= <- <-].
  apply in_type_bool in Eb. destruct (read_digits_split _ _ _ _ Er) as (p & Ep & Hp & -> & Hne).
  rewrite Z.mul_0_l, Z.add_0_l in *. specialize (Hne Hs).
  unfold split_sign in Es. destruct s as [|c s]; [injection Es as <- <-; discriminate|].
  destruct (sg && Ascii.eqb c "-") eqn:Esg; injection Es as <- <-.
  - apply andb_prop in Esg as [Hsg Hc]. apply Ascii.eqb_eq in Hc as ->.
    exists (String "-" p), (- weight p)%Z. split; [cbn; now f_equal|]. split; [reflexivity|]. split; [|exact Eb].
    constructor; [exact Hsg|now split].
  - exists p, (weight p). split; [exact Ep|]. split; [reflexivity|]. split; [|exact Eb]. constructor. now split.
Qed.

Lemma unchanged_lemma ndebug x e c i s vs f :
  wf_decls [DOption x (Scalar e) c] = true -> In i (config_idents c) -> s <> "" ->
  match e with
  | TBool | TString | TEnum _ _ => True
  | TInt sg bits => forall p r z, s = p +s+ r -> r <> "" -> numeral sg p z -> ~ in_type sg bits z
  | _ => False
  end ->
  okind_of (snd (parse_args ndebug [DOption x (Scalar e) c] (one_arg i s) vs f)) = OThrow KUserInput ->
  vars (fst (parse_args ndebug [DOption x (Scalar e) c] (one_arg i s) vs f)) x = vs x.
Proof.
  intros Hd Hi Hs He Hr. apply parse_error_keeps; auto.
  - intros v r. destruct e as [sg bits| | | | |n names|n mn mx rd|n rd pr]; cbn; try contradiction.
    + destruct (from_chars_int sg bits s) as [| |v' rest] eqn:E; cbn; try (now intros [= <- <-]).
      destruct rest as [|d rest]; [now intros [= <- <-]|]. intros [= <- <-] _. exfalso.
      destruct (from_chars_prefix _ _ _ _ _ E) as (p & z & E1 & _ & E2 & E3). apply (He p (String d rest) z); auto. discriminate.
    + repeat (destruct (String.eqb _ _); [now intros [= <- <-]|]). now intros [= <- <-].
    + now intros [= <- <-].
    + destruct (assoc s names); [now intros [= <- <-]|]. destruct (enum_keys names); discriminate.
  - intros v E. change (one_arg i s) with (render (one_inv i s)) in Hr.
    destruct (parse_args_refines ndebug _ (one_inv i s) vs f Hd (one_wf x (Scalar e) c i s Hi Hs)) as (_ & _ & C).
    rewrite C, one_eval in Hr by exact Hi. unfold s_values in Hr. cbn [is_container s_scalar s_given] in Hr.
    unfold bind, s_assign in Hr. cbn [parse_option_value s_vars] in Hr. rewrite E in Hr. cbn in Hr.
    unfold s_validate in Hr. cbn [s_fs s_vars] in Hr. destruct (c_validator c f _) as [f' []]; cbn in Hr; discriminate.
Qed.
