(** One option given once: from the meaning of the text to the outcome of the parser. *)
From Verif Require Import Base StrLib Fs Values ValuesSpec ValuesProofs Validators FormatParse Invocation
  InvocationProofs InvocationCorollaries.

Lemma one_wf x t c i s : In i (config_idents c) -> s <> "" -> wf_invocation [DOption x t c] (one_inv i s) = true.
Proof.
  intros Hi Hs. unfold wf_invocation. cbn [items tail one_inv forallb wf_item flat_map option_idents flag_idents dangling_last wf_tail].
  rewrite app_nil_r. rewrite (proj2 (mem_ident_In i _) Hi).
  apply is_empty_false in Hs. now rewrite Hs.
Qed.

Lemma one_eval ndebug x t c i s st : In i (config_idents c) ->
  eval ndebug [DOption x t c] (one_inv i s) st =
  bind (s_values ndebug x t [Some s]) (fun _ => s_validate (c_validator c) x) st.
Proof.
  intros Hi.
  assert (Ho : one_name (items (one_inv i s)) c = true).
  { unfold one_name, short_values, long_values, values_of. cbn [items one_inv flat_map item_values].
    destruct i as [d|l]; cbn [ident_eqb]; rewrite ?app_nil_r.
    - destruct (is_empty (c_long c)); cbn [given]; now rewrite andb_false_r.
    - destruct (Ascii.eqb (c_short c) nul); reflexivity. }
  unfold eval. cbn [mapM_].
  assert (Hv : option_values (items (one_inv i s)) c = [Some s]).
  { unfold option_values. cbn [items one_inv flat_map]. now rewrite (proj2 (mem_ident_In i _) Hi). }
  unfold bind. rewrite (s_option_one_name ndebug _ x t c st Ho), Hv. unfold s_option_values, bind. cbn [given].
  destruct (s_values ndebug x t [Some s] st) as [s1 [[]|e|o| | |]]; try reflexivity.
  destruct (s_validate (c_validator c) x s1) as [s2 [[]|e|o| | |]]; try reflexivity.
Qed.

Lemma s_assign_means ndebug x e s st v : enum_ok e -> means e (s_vars st x) s v ->
  s_assign ndebug x (Scalar e) s st = ({| s_vars := set_var (s_vars st) x v; s_fs := s_fs st |}, Ret tt).
Proof. intros Hok Hm. unfold s_assign. cbn [parse_option_value]. apply parse_elem_means in Hm; [|exact Hok]. now rewrite Hm. Qed.

(** overflow is only reported for arithmetic types *)
Lemma overflow_arithmetic e old s v : parse_elem e old s = POk v POverflow -> is_arithmetic (Scalar e) = true.
Proof.
  destruct e as [sg bits| | | | |n names|n mn mx rd|n rd pr]; cbn; auto; try discriminate.
  - destruct (read_path old s) as [[? []] []]; discriminate.
  - destruct (assoc s names); [discriminate|]. destruct (enum_keys names); discriminate.
  - destruct (rd old s) as [[? []] []]; discriminate.
Qed.

Lemma s_assign_fails ndebug x e s st : enum_ok e -> (forall v, ~ means e (s_vars st x) s v) ->
  okind_of (snd (s_assign ndebug x (Scalar e) s st)) = OThrow KUserInput.
Proof.
  intros Hok Hm. unfold s_assign. cbn [parse_option_value].
  destruct (parse_elem_fails e (s_vars st x) s Hok Hm) as [(v & [E|E])|(m & E)]; rewrite E; try reflexivity.
  unfold bind. cbn [s_set modify]. rewrite (overflow_arithmetic _ _ _ _ E). reflexivity.
Qed.

Lemma one_option_lemma ndebug x e c i s vs f :
  wf_decls [DOption x (Scalar e) c] = true -> In i (config_idents c) -> s <> "" -> enum_ok e ->
  (forall v, means e (vs x) s v -> snd (c_validator c f v) = VOk ->
     okind_of (snd (parse_args ndebug [DOption x (Scalar e) c] (one_arg i s) vs f)) = ORet /\
     vars (fst (parse_args ndebug [DOption x (Scalar e) c] (one_arg i s) vs f)) x = v) /\
  ((forall v, ~ means e (vs x) s v) ->
     okind_of (snd (parse_args ndebug [DOption x (Scalar e) c] (one_arg i s) vs f)) = OThrow KUserInput).
Proof.
  intros Hd Hi Hs Hok. change (one_arg i s) with (render (one_inv i s)).
  destruct (parse_args_refines ndebug _ (one_inv i s) vs f Hd (one_wf x (Scalar e) c i s Hi Hs)) as (A & _ & C).
  rewrite A, C, one_eval by exact Hi. unfold s_values. cbn [is_container s_scalar s_given]. split.
  - intros v Hm Hv. unfold bind. rewrite (s_assign_means ndebug x e s {| s_vars := vs; s_fs := f |} v Hok Hm). cbn [s_vars s_fs].
    unfold s_validate. cbn [s_vars s_fs ret]. unfold set_var. rewrite Nat.eqb_refl.
    destruct (c_validator c f v) as [f' r] eqn:E. cbn in Hv. subst r. cbn. rewrite ?Nat.eqb_refl. auto.
  - intros Hm. pose proof (s_assign_fails ndebug x e s {| s_vars := vs; s_fs := f |} Hok Hm) as E. unfold bind.
    destruct (s_assign ndebug x (Scalar e) s {| s_vars := vs; s_fs := f |}) as [s1 [[]|ex|o| | |]]; try discriminate; exact E.
Qed.

(** the variable after a failed conversion *)
Lemma one_option_unchanged ndebug x t c i s vs f :
  wf_decls [DOption x t c] = true -> In i (config_idents c) -> s <> "" ->
  okind_of (snd (parse_args ndebug [DOption x t c] (one_arg i s) vs f)) = OThrow KUserInput ->
  match parse_option_value t (if is_container t then VList [] else vs x) s with
  | POk v PSuccess => True
  | POk v _ => vars (fst (parse_args ndebug [DOption x t c] (one_arg i s) vs f)) x = v
  | PThrow _ => vars (fst (parse_args ndebug [DOption x t c] (one_arg i s) vs f)) x = (if is_container t then VList [] else vs x)
  end.
Proof.
  intros Hd Hi Hs. change (one_arg i s) with (render (one_inv i s)).
  destruct (parse_args_refines ndebug _ (one_inv i s) vs f Hd (one_wf x t c i s Hi Hs)) as (A & _ & C).
  rewrite A, C, one_eval by exact Hi. unfold s_values.
  destruct t as [e|e]; cbn [is_container s_scalar s_list s_given mapM_]; unfold bind, s_assign; cbn [s_set modify ret s_vars s_fs];
    unfold set_var; rewrite ?Nat.eqb_refl.
  - destruct (parse_option_value (Scalar e) (vs x) s) as [v [| |]|ex]; auto.
    + cbn. unfold set_var. rewrite ?Nat.eqb_refl. auto.
    + cbn [s_set modify s_vars s_fs]. destruct (is_arithmetic (Scalar e)); [cbn; unfold set_var; now rewrite ?Nat.eqb_refl|].
      destruct ndebug; [|discriminate]. cbn. unfold set_var. rewrite ?Nat.eqb_refl. unfold s_validate. cbn [s_vars s_fs].
      destruct (c_validator c f _) as [f' r]. destruct r; cbn; rewrite ?Nat.eqb_refl; try discriminate.
  - destruct (parse_option_value (ListOf e) (VList []) s) as [v [| |]|ex]; auto; cbn [s_set modify s_vars s_fs is_arithmetic].
    + cbn. unfold set_var. rewrite ?Nat.eqb_refl. auto.
    + destruct ndebug; [|discriminate]. cbn. unfold s_validate, set_var. cbn [s_vars s_fs]. rewrite ?Nat.eqb_refl.
      destruct (c_validator c f v) as [f' r]. destruct r; cbn; discriminate.
    + cbn. unfold set_var. now rewrite ?Nat.eqb_refl.
Qed.
