(** List options given through both of their names. *)
From Verif Require Import Base StrLib Fs Values Validators FormatParse Invocation InvocationProofs InvocationCorollaries InvocationEffects ValuesSpec ValuesProofs DiagnosisSpec DiagnosisOptions ReadingProofs ListSpec.

Section names.
Variable ndebug : bool.

Lemma s_list_any x e vals s s' : s_values ndebug x (ListOf e) vals s = (s', Ret tt) ->
  match vals with
  | [] => s' = s
  | _ => exists texts es, vals = map Some texts /\ stored ndebug e texts es /\ s_vars s' x = VList es
  end.
Proof.
  unfold s_values. cbn [is_container]. destruct vals as [|v vals]; [now intros [= <-]|]. cbn [s_list]. intros V. apply bind_inv in V as (a2 & [] & V1 & V). injection V1 as <-.
  edestruct (collect ndebug x e) with (2 := V) as (texts & es & E1 & E2 & E3); [apply set_same|]. eauto.
Qed.

Lemma list_option_exact decls inv vs f x e c :
  wf_decls decls = true -> wf_invocation decls inv = true ->
  NoDup (map bound_addr decls) -> In (DOption x (ListOf e) c) decls ->
  okind_of (snd (parse_args ndebug decls (render inv) vs f)) = ORet ->
  exists texts, kept (items inv) c = map Some texts /\
    match texts with
    | [] => vars (fst (parse_args ndebug decls (render inv) vs f)) x = vs x
    | _ => exists es, stored ndebug e texts es /\ vars (fst (parse_args ndebug decls (render inv) vs f)) x = VList es
    end.
Proof.
  intros Hd Hw Hnd Hin Hr. destruct (success ndebug decls inv vs f Hd Hw Hr) as (s' & He & Hv & _). rewrite Hv. clear Hr Hv.
  destruct (eval_inv _ _ _ _ _ _ He) as (s1 & s2 & H1 & H2 & _ & H3).
  destruct (mapM_at _ _ _ _ _ (local_option ndebug (items inv)) Hnd Hin H1) as (a & b & A1 & A2 & A3).
  destruct (mapM_at _ _ _ _ _ (local_flag (items inv)) Hnd Hin H2) as (a' & b' & B1 & B2 & B3).
  cbn in B1. injection B1 as <-.
  pose proof (non_positional_frame ndebug decls _ (words inv) s2 Hnd Hin eq_refl) as E. rewrite H3 in E. cbn [fst] in E.
  cbn [bound_addr] in *. cbn [s_option] in A1. apply bind_inv in A1 as (a1 & [] & V1 & A1). apply bind_inv in A1 as (a2 & [] & V2 & A1).
  cbn [is_container negb] in A1. rewrite andb_false_r in A1.
  assert (Hb : s_vars b x = s_vars a2 x).
  { destruct (given _ || given _).
    - now apply s_validate_vars in A1 as ->.
    - destruct (c_required c); [discriminate|]. now injection A1 as <-. }
  apply s_list_any in V1, V2. unfold kept. destruct (long_values (items inv) c) as [|v vals].
  - subst a2. destruct (short_values (items inv) c) as [|v vals].
    + subst a1. exists []. split; [reflexivity|]. now rewrite E, B3, B2, A3, Hb, A2.
    + destruct V1 as (texts & es & E1 & E2 & E3). exists texts. split; [exact E1|]. destruct texts as [|t0 texts]; [discriminate|]. exists es. split; [exact E2|]. now rewrite E, B3, B2, A3, Hb, E3.
  - destruct V2 as (texts & es & E1 & E2 & E3). exists texts. split; [exact E1|]. destruct texts as [|t0 texts]; [discriminate|]. exists es. split; [exact E2|]. now rewrite E, B3, B2, A3, Hb, E3.
Qed.

Lemma stored_taken e : enum_ok e -> forall ts vs, stored ndebug e ts vs <-> taken ndebug e ts vs.
Proof.
  intros He ts vs. split.
  - induction 1 as [|t v ts vs H H' IH|t v ts vs Hn H H' IH]; [constructor| |].
    + constructor; [now apply parse_elem_means|exact IH].
    + constructor 3; [exact Hn|eapply elem_overflow; exact H|exact IH].
  - induction 1 as [|t v ts vs H H' IH|t ts vs Hn H H' IH]; [constructor| |].
    + constructor; [now apply parse_elem_means|exact IH].
    + econstructor 3; [exact Hn|apply too_large_overflow; exact H|exact IH].
Qed.

Lemma list_option_taken decls inv vs f x e c : enum_ok e ->
  wf_decls decls = true -> wf_invocation decls inv = true ->
  NoDup (map bound_addr decls) -> In (DOption x (ListOf e) c) decls ->
  okind_of (snd (parse_args ndebug decls (render inv) vs f)) = ORet ->
  exists texts, kept (items inv) c = map Some texts /\
    match texts with
    | [] => vars (fst (parse_args ndebug decls (render inv) vs f)) x = vs x
    | _ => exists es, taken ndebug e texts es /\ vars (fst (parse_args ndebug decls (render inv) vs f)) x = VList es
    end.
Proof.
  intros He H1 H2 H3 H4 H5. destruct (list_option_exact decls inv vs f x e c H1 H2 H3 H4 H5) as (texts & E & H). exists texts. split; [exact E|].
  destruct texts as [|t texts]; [exact H|]. destruct H as (es & Hs & Hv). exists es. split; [now apply stored_taken|exact Hv].
Qed.

Lemma filled_list vs0 vs1 x e c d2 : forall d1 ws, filled ndebug vs0 vs1 (d1 ++ DPositional x (ListOf e) c :: d2) ws ->
  exists es, stored ndebug e (skipn (List.length (filter is_positional d1)) ws) es /\ vs1 x = VList es.
Proof.
  induction d1 as [|d d1 IH]; intros ws H.
  - cbn in H. destruct H as (_ & (es & H & E) & _). exists es. auto.
  - destruct d as [y t c'|y c'|y t c']; cbn [app filled filter is_positional List.length] in *; [now apply IH|now apply IH|].
    destruct t as [e'|e'].
    + destruct H as (w & ws' & -> & _ & H). cbn [skipn]. now apply IH.
    + destruct H as (_ & _ & H). exfalso. clear -H. induction d1 as [|d d1 IH]; [now destruct H|]. destruct d as [y t c'|y c'|y t c']; cbn [app filled] in H; [now apply IH|now apply IH|].
      destruct t as [e'|e']; [destruct H as (? & ? & ? & _); discriminate|destruct H as (N & _); now apply N].
Qed.

Lemma list_positional_taken d1 d2 inv vs f x e c : let decls := d1 ++ DPositional x (ListOf e) c :: d2 in enum_ok e ->
  wf_decls decls = true -> wf_invocation decls inv = true -> NoDup (map bound_addr decls) ->
  okind_of (snd (parse_args ndebug decls (render inv) vs f)) = ORet ->
  exists es, taken ndebug e (skipn (List.length (filter is_positional d1)) (words inv)) es /\ vars (fst (parse_args ndebug decls (render inv) vs f)) x = VList es.
Proof.
  intros decls He H1 H2 H3 H4. destruct (filled_list _ _ _ _ _ _ _ _ (positionals_lemma ndebug decls inv vs f H1 H2 H3 H4)) as (es & Hs & Hv).
  exists es. split; [now apply stored_taken|exact Hv].
Qed.
End names.

Lemma taken_all e ts vs : taken false e ts vs -> Forall2 (fun t v => means e (default_val e) t v) ts vs.
Proof. induction 1; [constructor|constructor; assumption|discriminate]. Qed.

Lemma taken_lost_texts e ts vs : taken true e ts vs ->
  exists lost, Forall (too_large e) lost /\ List.length ts = List.length vs + List.length lost /\ forall t, In t lost -> In t ts.
Proof.
  induction 1 as [|t v ts vs H H' (lost & A & B & C)|t ts vs Hn H H' (lost & A & B & C)].
  - exists []. repeat split; [constructor|intros t []].
  - exists lost. cbn. rewrite B. repeat split; auto.
  - exists (t :: lost). cbn. rewrite B, Nat.add_succ_r. repeat split; [now constructor|]. intros u [<-|Hu]; auto.
Qed.
