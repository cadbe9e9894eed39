(** Proofs about the pages for the terminal. *)
From Verif Require Import Base StrLib Fs Values Validators FormatParse Parser HelpBase HelpText HelpExport HelpSpec HelpTextProofs
  HelpPage HelpGood ValidatorsFiles.

Section text_effects.
Variables (nd tty : bool) (L : layout).

Definition mk_text (s : string) (p : bool) : tstate := {| t_out := s; t_par := p |}.
Definition conv (t : string) : string := match to_text nd tty t with Ret r => r | _ => "" end.

Lemma to_text_conv t : closed t = true -> to_text nd tty t = Ret (conv t).
Proof.
  unfold conv. intros H. enough (exists r, to_text nd tty t = Ret r) as [r ->] by reflexivity.
  revert H. induction t as [t IH] using str_ind_len. destruct t as [|c s]; [eexists; reflexivity|]. cbn [closed to_text].
  destruct (Ascii.eqb c "\").
  - destruct s as [|d s2]; [discriminate|]. destruct (Ascii.eqb_spec d "f") as [->|].
    + change (Ascii.eqb "f" "-") with false. cbn [negb]. destruct s2 as [|e s3]; [discriminate|]. intros H.
      destruct (IH s3 ltac:(cbn; lia) H) as [r ->]. eexists; reflexivity.
    + intros H. destruct (IH s2 ltac:(cbn; lia) H) as [r ->]. destruct (Ascii.eqb d "-"); eexists; reflexivity.
  - intros H. destruct (IH s ltac:(cbn; lia) H) as [r ->]. eexists; reflexivity.
Qed.

Definition text_ok (text : string) : bool := forallb closed (tokens text).

Definition par_nl (p : bool) : string := if p then nl else "".
Definition term_gap (term : string) : string :=
  if (right_column_tab L <? left_padding L + String.length term + center_padding L)%nat then nl +s+ spaces (right_column_tab L)
  else spaces (right_column_tab L - (left_padding L + String.length term)).

Definition text_effects : effects :=
  {| q_header := fun m => (true, fun p => (m_app_name m
            +s+ (if is_empty (m_short_description m) then "" else " - " +s+ m_short_description m)
            +s+ nl
            +s+ srep (text_width (m_app_name m) + (if is_empty (m_short_description m) then 0 else 3)
                      + text_width (m_short_description m)) "="
            +s+ nl, p));
     q_section := fun s => (true, fun p => (nl +s+ on_tty tty (esc "[1m") +s+ smap to_upper s +s+ on_tty tty (esc "[0m") +s+ nl, false));
     q_subsection := fun s => (true, fun p => (nl +s+ spaces (left_padding L / 2) +s+ in_bold tty s +s+ nl, false));
     q_line := fun s b => (text_ok s, fun p =>
        (par_nl p +s+ spaces (left_padding L) +s+ wrap_all L conv (left_padding L) (tokens s), b));
     q_item := fun k d => (closed k && text_ok d, fun p =>
        (par_nl p +s+ spaces (left_padding L) +s+ conv k +s+ term_gap k +s+ wrap_all L conv (right_column_tab L) (tokens d), false));
     q_footer := e_ret;
     q_bold := in_bold tty |}.

Lemma does_put s : does mk_text (put_text s) (true, fun p => (s, p)).
Proof. intros a p. cbn [fst snd]. reflexivity. Qed.

Lemma does_set b : does mk_text (set_par b) (true, fun _ => ("", b)).
Proof. intros a p. cbn. unfold set_par, modify, mk_text. cbn. now rewrite app_nil_r_s. Qed.

Lemma does_get (k : bool -> M tstate unit) e : (forall p, does mk_text (k p) (e p)) -> (forall p q, fst (e p) = fst (e q)) ->
  does mk_text (bind get_par k) (fst (e true), fun p => snd (e p) p).
Proof. intros H HE a p. unfold bind, get_par. cbn [mk_text t_par fst snd]. rewrite (HE true p). apply H. Qed.

Lemma does_par (b : bool) : does mk_text (if b then put_text nl else ret tt) (true, fun p => (par_nl b, p)).
Proof. destruct b; [apply does_put|apply does_ret]. Qed.

Lemma does_to_text t : does mk_text (put_to_text nd tty t) (closed t, fun p => (conv t, p)).
Proof.
  intros a p. cbn [fst snd]. destruct (closed t) eqn:C.
  - rewrite (put_to_text_ret nd tty conv t _ (to_text_conv t C)). reflexivity.
  - rewrite (put_to_text_fails _ _ _ _ C). now destruct nd.
Qed.

Lemma does_tokens l : forall tab pos, does mk_text (print_tokens nd tty L tab pos l) (forallb closed l, fun p => (wrap_rest L conv tab pos l, p)).
Proof.
  induction l as [|t l IH]; intros tab pos; cbn [print_tokens forallb wrap_rest]; [apply does_ret|].
  destruct (screen_width L <? pos + 1 + text_width t)%nat;
  [pose proof (does_bind mk_text _ _ _ _ (does_put (nl +s+ spaces tab)) (does_bind mk_text _ _ _ _ (does_to_text t) (IH tab (tab + text_width t)))) as X
  |pose proof (does_bind mk_text _ _ _ _ (does_put " ") (does_bind mk_text _ _ _ _ (does_to_text t) (IH tab (pos + (text_width t + 1))))) as X];
  intros a p; specialize (X a p); cbn [e_seq fst snd andb] in X |- *; rewrite ?app_assoc_s in X; exact X.
Qed.

Lemma does_text text tab : does mk_text (print_text nd tty L text tab) (text_ok text, fun p => (wrap_all L conv tab (tokens text), p)).
Proof.
  unfold print_text, text_ok. destruct (tokens text) as [|t l]; [apply does_ret|]. cbn [forallb wrap_all].
  destruct (screen_width L <? tab + text_width t)%nat;
  [pose proof (does_bind mk_text _ _ _ _ (does_to_text t) (does_bind mk_text _ _ _ _ (does_bind mk_text _ _ _ _ (does_put (nl +s+ spaces tab)) (does_tokens l tab tab)) (does_put nl))) as X
  |pose proof (does_bind mk_text _ _ _ _ (does_to_text t) (does_bind mk_text _ _ _ _ (does_tokens l tab (tab + text_width t)) (does_put nl))) as X];
  intros a p; specialize (X a p); cbn [e_seq fst snd andb] in X |- *; rewrite ?andb_true_r, ?app_assoc_s in X; rewrite ?app_assoc_s; exact X.
Qed.

Lemma text_implements : implements mk_text (text_printer nd tty L) text_effects.
Proof.
  refine (conj _ (conj _ (conj _ (conj _ (conj _ (conj _ _)))))); cbn [p_header p_section p_subsection p_line p_item p_footer p_bold q_header q_section q_subsection q_line q_item q_footer q_bold text_effects text_printer].
  - intros m a p. cbn [fst snd]. reflexivity.
  - intros s a p. cbn [fst snd]. unfold print_section, bind, put_text, set_par, modify, mk_text. cbn [t_out t_par]. reflexivity.
  - intros s a p. cbn [fst snd]. unfold print_subsection, bind, put_text, set_par, modify, mk_text. cbn [t_out t_par]. reflexivity.
  - intros s b. unfold print_line.
    pose proof (fun p : bool => does_bind mk_text _ _ _ _ (does_par p)
       (does_bind mk_text _ _ _ _ (does_put (spaces (left_padding L))) (does_bind mk_text _ _ _ _ (does_text s (left_padding L)) (does_set b)))) as X.
    pose proof (does_get _ _ X) as Y. intros a p. specialize (Y ltac:(intros [] []; reflexivity) a p).
    cbn [e_seq e_ret fst snd andb] in Y |- *; rewrite ?andb_true_r, ?app_nil_r_s, ?app_assoc_s in Y; rewrite ?app_assoc_s; exact Y.
  - intros k d. unfold print_list_item.
    assert (G : does mk_text (if (right_column_tab L <? left_padding L + String.length k + center_padding L)%nat
        then put_text (nl +s+ spaces (right_column_tab L - 0)) else put_text (spaces (right_column_tab L - (left_padding L + String.length k))))
        (true, fun p => (term_gap k, p))).
    { unfold term_gap. destruct (_ <? _)%nat; rewrite ?Nat.sub_0_r; apply does_put. }
    pose proof (fun p : bool => does_bind mk_text _ _ _ _ (does_par p)
       (does_bind mk_text _ _ _ _ (does_put (spaces (left_padding L))) (does_bind mk_text _ _ _ _ (does_to_text k)
         (does_bind mk_text _ _ _ _ G (does_bind mk_text _ _ _ _ (does_text d (right_column_tab L)) (does_set false)))))) as X.
    pose proof (does_get _ _ X) as Y. intros a p. specialize (Y ltac:(intros [] []; reflexivity) a p).
    cbn [e_seq e_ret fst snd andb] in Y |- *; rewrite ?andb_true_r, ?app_nil_r_s, ?app_assoc_s in Y; rewrite ?app_assoc_s; exact Y.
  - apply does_ret.
  - reflexivity.
Qed.

End text_effects.

Lemma help_page_eff e r adv : pr_format r = FHelp adv ->
  let E := e_page (text_effects (pe_ndebug e) (pe_tty e) (layout_of (pe_width e))) (exports e) adv r in
  if fst E then page e r = Ret (fst (snd E false)) else is_ret (page e r) = false.
Proof.
  intros HF. cbn zeta. unfold page. rewrite HF.
  pose proof (does_page mk_text _ _ (exports e) adv r (text_implements (pe_ndebug e) (pe_tty e) (layout_of (pe_width e))) "" false) as X.
  destruct (fst (e_page _ _ _ _)).
  - unfold printed. change text_init with (mk_text "" false). rewrite X. reflexivity.
  - unfold printed. change text_init with (mk_text "" false).
    destruct (print_page _ _ _ _ _) as [st []]; cbn in *; try discriminate; reflexivity.
Qed.

(** ** Printing succeeds *)

Lemma intact_app a b : intact a = true -> intact b = true -> intact (a +s+ b) = true.
Proof.
  revert a. apply (str_ind_len (fun a => intact a = true -> intact b = true -> intact (a +s+ b) = true)).
  intros [|c s1] IH A B; [exact B|]. cbn [intact String.append] in *. destruct (Ascii.eqb c "\").
  2:{ apply IH; [cbn; lia|auto..]. }
  destruct s1 as [|d s2]; [discriminate|]. cbn [String.append]. destruct (Ascii.eqb d "f").
  - destruct s2 as [|e s3]; [discriminate|]. cbn [String.append]. apply andb_prop in A as [-> A]. apply IH; [cbn; lia|auto..].
  - apply andb_prop in A as [-> A]. apply IH; [cbn; lia|auto..].
Qed.

Lemma intact_split a c b : ends_word c = true -> intact (a +s+ String c b) = true -> intact a = true /\ intact b = true.
Proof.
  intros Ec. assert (Nc : Ascii.eqb c "\" = false).
  { destruct (Ascii.eqb_spec c "\") as [->|]; [discriminate Ec|reflexivity]. }
  assert (Nf : Ascii.eqb c "f" = false).
  { destruct (Ascii.eqb_spec c "f") as [->|]; [discriminate Ec|reflexivity]. }
  revert a. apply (str_ind_len (fun a => intact (a +s+ String c b) = true -> intact a = true /\ intact b = true)).
  intros [|x s1] IH A; [cbn in A; rewrite Nc in A; auto|]. cbn [intact String.append] in *. destruct (Ascii.eqb x "\").
  2:{ apply IH; [cbn; lia|auto..]. }
  destruct s1 as [|d s2]; cbn [String.append] in A; [rewrite Nf, Ec in A; discriminate|]. destruct (Ascii.eqb d "f").
  - destruct s2 as [|e s3]; cbn [String.append] in A; [rewrite Ec in A; discriminate|].
    apply andb_prop in A as [-> A]. apply IH; [cbn; lia|auto..].
  - apply andb_prop in A as [-> A]. apply IH; [cbn; lia|auto..].
Qed.

Lemma intact_closed s : intact s = true -> closed s = true.
Proof.
  revert s. apply (str_ind_len (fun s => intact s = true -> closed s = true)). intros [|c s1] IH H; [reflexivity|].
  cbn [intact closed] in *. destruct (Ascii.eqb c "\"); [|apply IH; [cbn; lia|auto..]].
  destruct s1 as [|d s2]; [discriminate|]. destruct (Ascii.eqb d "f").
  - destruct s2 as [|e s3]; [discriminate|]. apply andb_prop in H as [_ H]. apply IH; [cbn; lia|auto..].
  - apply andb_prop in H as [_ H]. apply IH; [cbn; lia|auto..].
Qed.

Lemma intact_words s : intact s = true -> forallb closed (words s) = true.
Proof.
  revert s. apply (str_ind_len (fun s => intact s = true -> forallb closed (words s) = true)). intros s IH H.
  destruct (split_space s) as [S|(w & c & r & -> & W & Sc & L)].
  - rewrite (words_solid s S). destruct s as [|x s]; [reflexivity|]. cbn [is_empty forallb]. now rewrite (intact_closed _ H).
  - apply intact_split in H as [Hw Hr]; [|unfold ends_word; now rewrite Sc]. rewrite (words_app _ _ _ Sc), forallb_app, (IH r L Hr), andb_true_r.
    rewrite (words_solid w W). destruct w as [|x w]; [reflexivity|]. cbn [is_empty forallb]. now rewrite (intact_closed _ Hw).
Qed.

Lemma intact_until s : intact s = true -> intact (until_nul s) = true.
Proof.
  unfold until_nul. destruct (sfind nul s) as [n|] eqn:E; [|auto]. apply sfind_Some in E as (a & b & -> & -> & _ & _).
  rewrite stake_app. intros H. now apply intact_split in H.
Qed.

Lemma intact_text_ok s : intact s = true -> text_ok s = true.
Proof. intros H. unfold text_ok. rewrite tokens_words. now apply intact_words, intact_until. Qed.

Lemma intact_plain s : scontains "\" s = false -> intact s = true.
Proof.
  induction s as [|c s IH]; [reflexivity|]. cbn [scontains intact]. rewrite Ascii.eqb_sym. destruct (Ascii.eqb c "\"); [discriminate|exact IH].
Qed.

Lemma intact_quoted s : intact (quoted s) = true.
Proof.
  unfold quoted. change (intact (str1 """" +s+ quote_body s +s+ """") = true). apply intact_app; [reflexivity|]. apply intact_app; [|reflexivity].
  induction s as [|c s IH]; [reflexivity|]. cbn [quote_body].
  destruct (Ascii.eqb_spec c """") as [->|]; [exact IH|]. destruct (Ascii.eqb_spec c "\") as [->|Hc]; [exact IH|]. cbn [orb intact].
  now rewrite (proj2 (Ascii.eqb_neq c "\") Hc).
Qed.

Lemma intact_documented s : documented s = true -> intact s = true.
Proof.
  revert s. apply (str_ind_len (fun s => documented s = true -> intact s = true)). intros [|c s1] IH H; [reflexivity|].
  cbn [intact documented] in *. destruct (Ascii.eqb c "\"); [|apply IH; [cbn; lia|auto..]].
  destruct s1 as [|d s2]; [discriminate|]. destruct (Ascii.eqb_spec d "-") as [->|].
  - change (Ascii.eqb "-" "f") with false. cbn [ends_word negb andb]. apply IH; [cbn; lia|auto..].
  - destruct (Ascii.eqb_spec d "f") as [->|]; [|discriminate]. destruct s2 as [|e s3]; [discriminate|].
    apply andb_prop in H as [He H]. rewrite (IH s3 ltac:(cbn; lia) H), andb_true_r.
    destruct (Ascii.eqb_spec e "B") as [->|]; [reflexivity|]. destruct (Ascii.eqb_spec e "I") as [->|]; [reflexivity|].
    destruct (Ascii.eqb_spec e "P") as [->|]; [reflexivity|discriminate].
Qed.

Lemma help_page_succeeds e r adv : pr_format r = FHelp adv -> has_commands (pr_info r) = true ->
  forallb intact (page_texts r) = true -> exists out, page e r = Ret out.
Proof.
  intros HF HC HT. pose proof (help_page_eff e r adv HF) as X. cbn zeta in X.
  enough (P : fst (e_page (text_effects (pe_ndebug e) (pe_tty e) (layout_of (pe_width e))) (exports e) adv r) = true)
    by (rewrite P in X; eexists; exact X).
  apply (Pe_page_before_footer _ (fun s => intact s = true) (fun a => fst a = true)).
  - exact intact_app.
  - intros s H. apply intact_app; [reflexivity|]. apply intact_app; [exact H|reflexivity].
  - intros s H. apply intact_app; [reflexivity|]. apply intact_app; [exact H|reflexivity].
  - intros s H. apply intact_plain. apply (plain_text_not "\" s); [now left|exact H].
  - intros s H. cbn [q_bold text_effects]. unfold in_bold, on_tty. destruct (pe_tty e); apply intact_app; try reflexivity; now apply intact_app.
  - reflexivity.
  - intros a b Ha Hb. cbn. now rewrite Ha, Hb.
  - reflexivity.
  - reflexivity.
  - intros s b H. now apply intact_text_ok.
  - intros k d Hk Hd. cbn. now rewrite (intact_closed _ Hk), (intact_text_ok _ Hd).
  - exact HC.
  - apply Forall_forall. now apply forallb_forall.
  - unfold exports. destruct (pe_tdl e); reflexivity.
  - reflexivity.
  - reflexivity.
Qed.

(** ** Fonts *)

Definition dsgr (a a' : string) : Prop := forall b, drop_sgr (a +s+ b) = a' +s+ drop_sgr b.

Lemma dsgr_app a a' b b' : dsgr a a' -> dsgr b b' -> dsgr (a +s+ b) (a' +s+ b').
Proof. intros A B x. now rewrite app_assoc_s, A, B, app_assoc_s. Qed.

Lemma dsgr_plain s : scontains "027" s = false -> dsgr s s.
Proof.
  intros H x. induction s as [|c s IH]; [reflexivity|]. cbn [scontains] in H. apply orb_false_elim in H as [Hc H].
  apply Ascii.eqb_neq in Hc. cbn [String.append]. rewrite drop_sgr_other by congruence. now rewrite IH.
Qed.

Lemma dsgr_end a a' : dsgr a a' -> drop_sgr a = a'.
Proof. intros H. specialize (H ""). now rewrite !app_nil_r_s in H. Qed.

Lemma dsgr_tty tty d : dsgr (on_tty tty (esc (String "[" (String d "m")))) "".
Proof. destruct tty; intros b; reflexivity. Qed.

Lemma strip_no_esc s : scontains "027" s = false -> scontains "027" (strip s) = false.
Proof.
  revert s. apply (str_ind_len (fun s => scontains "027" s = false -> scontains "027" (strip s) = false)).
  intros [|c s1] IH H; [reflexivity|]. pose proof H as H0. cbn [strip scontains] in *. apply orb_false_elim in H as [Hc H1].
  destruct (Ascii.eqb c "\"); [|cbn [scontains]; rewrite Hc; apply IH; [cbn; lia|exact H1]].
  destruct s1 as [|d s2]; [exact H0|]. cbn [scontains] in H1. apply orb_false_elim in H1 as [Hd H2].
  destruct (Ascii.eqb d "-"); [cbn [scontains]; apply IH; [cbn; lia|exact H2]|].
  destruct (Ascii.eqb d "f").
  - destruct s2 as [|e s3]; [exact H0|]. cbn [scontains] in H2. apply orb_false_elim in H2 as [He H3].
    clear H0. destruct (_ || _); [apply IH; [cbn; lia|exact H3]|]. cbn [scontains]. rewrite Hc, Hd, He. apply IH; [cbn; lia|exact H3].
  - cbn [scontains]. rewrite Hc, Hd. apply IH; [cbn; lia|exact H2].
Qed.

Lemma conv_false nd s : closed s = true -> conv nd false s = strip s.
Proof. intros C. unfold conv. now rewrite (to_text_closed nd s C). Qed.

Lemma dsgr_conv nd tty s : closed s = true -> scontains "027" s = false -> dsgr (conv nd tty s) (strip s).
Proof.
  intros C E. destruct tty.
  - destruct (to_text_tty nd s C E) as (r & Hr & H). unfold conv. rewrite Hr. exact H.
  - rewrite (conv_false nd s C). now apply dsgr_plain, strip_no_esc.
Qed.

Lemma no_esc_spaces n : scontains "027" (spaces n) = false.
Proof. induction n as [|n IH]; [reflexivity|]. exact IH. Qed.

Lemma dsgr_wrap_rest nd tty L l : Forall (fun t => closed t = true /\ scontains "027" t = false) l -> forall tab pos,
  dsgr (wrap_rest L (conv nd tty) tab pos l) (wrap_rest L strip tab pos l).
Proof.
  induction 1 as [|t l [C E] Hl IH]; intros tab pos; cbn [wrap_rest]; [intros b; reflexivity|].
  destruct (_ <? _)%nat.
  - apply dsgr_app; [now apply dsgr_plain|]. apply dsgr_app; [apply dsgr_plain, no_esc_spaces|]. apply dsgr_app; [now apply dsgr_conv|apply IH].
  - apply dsgr_app; [now apply dsgr_plain|]. apply dsgr_app; [now apply dsgr_conv|apply IH].
Qed.

Lemma dsgr_wrap_all nd tty L l tab : Forall (fun t => closed t = true /\ scontains "027" t = false) l ->
  dsgr (wrap_all L (conv nd tty) tab l) (wrap_all L strip tab l).
Proof.
  intros H. destruct H as [|t l [C E] Hl]; cbn [wrap_all]; [intros b; reflexivity|]. apply dsgr_app; [now apply dsgr_conv|].
  apply dsgr_app; [|now apply dsgr_plain].
  destruct (_ <? _)%nat; [|now apply dsgr_wrap_rest]. apply dsgr_app; [now apply dsgr_plain|].
  apply dsgr_app; [apply dsgr_plain, no_esc_spaces|now apply dsgr_wrap_rest].
Qed.

Lemma fields_chars sep s : forall f, In f (fields sep s) -> forall c, scontains c s = false -> scontains c f = false.
Proof.
  induction s as [|x s IH]; cbn [fields scontains]; intros f Hf c Hc.
  - destruct Hf as [<-|[]]. reflexivity.
  - apply orb_false_elim in Hc as [Hx Hc]. destruct (sep x).
    + destruct Hf as [<-|Hf]; [reflexivity|now apply IH].
    + destruct (fields sep s) as [|g l] eqn:G.
      * destruct Hf as [<-|[]]. cbn [str1 scontains]. now rewrite Hx.
      * destruct Hf as [<-|Hf]; [|apply IH; [now right|exact Hc]]. cbn [scontains]. rewrite Hx. apply IH; [now left|exact Hc].
Qed.

Lemma until_chars s c : scontains c s = false -> scontains c (until_nul s) = false.
Proof.
  unfold until_nul. destruct (sfind nul s) as [n|] eqn:E; [|auto]. apply sfind_Some in E as (a & b & -> & -> & _ & _).
  rewrite stake_app, scontains_app. intros H. now apply orb_false_elim in H.
Qed.

Lemma tokens_no_esc s : text_ok s = true -> scontains "027" s = false ->
  Forall (fun t => closed t = true /\ scontains "027" t = false) (tokens s).
Proof.
  unfold text_ok. rewrite tokens_words. intros H E. rewrite forallb_forall in H. apply Forall_forall. intros t Ht. split; [now apply H|].
  unfold words in Ht. apply filter_In in Ht as [Ht _]. apply (fields_chars _ _ _ Ht). now apply until_chars.
Qed.

Lemma words_wrapped L s tab : text_ok s = true -> words (wrap_all L strip tab (tokens s)) = words (strip (until_nul s)).
Proof.
  intros H. rewrite (words_wrap_all L strip strip_solid).
  - unfold text_ok in H. rewrite tokens_words in *. now rewrite (words_strip _ H).
  - eapply Forall_impl; [|apply tokens_solid]. now intros t [St _].
Qed.

(** ** Entries of the page *)

Lemma words_gap L k x b : right_column_tab L = 10 -> left_padding L = 4 -> center_padding L = 2 ->
  words (x +s+ term_gap L k +s+ b) = words x ++ words b.
Proof.
  intros L1 L2 L3. unfold term_gap. rewrite L1, L2, L3. destruct (Nat.ltb_spec 10 (4 + String.length k + 2)).
  - change ((nl +s+ spaces 10) +s+ b) with (String "010" (spaces 10 +s+ b)). rewrite words_app by reflexivity. now rewrite words_spaces.
  - replace (10 - (4 + String.length k)) with (S (9 - (4 + String.length k))) by lia.
    change (spaces (S ?n) +s+ b) with (String " " (spaces n +s+ b)). rewrite words_app by reflexivity. now rewrite words_spaces.
Qed.

Lemma upper_smap s : smap to_upper s = upper_case s.
Proof.
  unfold upper_case. induction s as [|c s IH]; [reflexivity|]. cbn [smap chars list_ascii_of_string map of_chars string_of_list_ascii].
  unfold chars, of_chars in IH. rewrite IH. f_equal. unfold to_upper, code. destruct (is_lower c); [|reflexivity].
  unfold ascii_of_nat, nat_of_ascii. f_equal. lia.
Qed.

Lemma no_esc_upper s : scontains "027" s = false -> scontains "027" (smap to_upper s) = false.
Proof.
  induction s as [|c s IH]; [reflexivity|]. cbn [scontains smap]. intros H. apply orb_false_elim in H as [Hc H]. rewrite (IH H), orb_false_r.
  revert c Hc. assert (X : forall c, (Ascii.eqb "027" c || negb (Ascii.eqb "027" (to_upper c))) = true) by (apply chr_sweep; vm_compute; reflexivity).
  intros c Hc. specialize (X c). rewrite Hc in X. now apply negb_true_iff in X.
Qed.

Lemma items_no_esc adv vs l : forallb (fun s => negb (scontains "027" s)) (flat_map (op_texts vs) l) = true ->
  Forall (good_item (fun s => scontains "027" s = false)) (set_up_calls adv vs l).
Proof.
  intros H. apply good_items.
  - intros a b A B. now rewrite scontains_app, A, B.
  - intros s A. rewrite !scontains_app, A. reflexivity.
  - intros s A. rewrite !scontains_app, A. reflexivity.
  - intros s A. apply (plain_text_not "027" s); [cbn; tauto|exact A].
  - apply Forall_forall. intros s Hs. rewrite forallb_forall in H. now apply negb_true_iff, H.
Qed.

Lemma strip_plain_app a b : scontains "\" a = false -> strip (a +s+ b) = a +s+ strip b.
Proof.
  intros H. pose proof (no_backslash_documented a H) as [D E]. rewrite (strip_app a b (documented_closed a D)). now rewrite E.
Qed.

Lemma strip_markup a b : scontains "\" a = false -> strip ("\fB" +s+ a +s+ "\fP" +s+ b) = a +s+ strip b.
Proof. intros H. change (strip ("\fB" +s+ a +s+ "\fP" +s+ b)) with (strip (a +s+ "\fP" +s+ b)). now rewrite strip_plain_app. Qed.

Lemma strip_prep c : no_backslash (str1 (c_short c)) = true -> no_backslash (c_long c) = true -> forall b,
  strip (prep_id (c_short c) (c_long c) +s+ b) = names_shown c +s+ strip b.
Proof.
  unfold no_backslash. rewrite !negb_true_iff. intros Hs Hl b. unfold prep_id, names_shown.
  assert (S1 : forall x, strip ("\fB-" +s+ str1 (c_short c) +s+ "\fP" +s+ x) = "-" +s+ str1 (c_short c) +s+ strip x)
    by (intros x; exact (strip_markup ("-" +s+ str1 (c_short c)) x Hs)).
  assert (S2 : forall x, strip ("\fB--" +s+ c_long c +s+ "\fP" +s+ x) = "--" +s+ c_long c +s+ strip x)
    by (intros x; exact (strip_markup ("--" +s+ c_long c) x Hl)).
  destruct (Ascii.eqb (c_short c) nul), (is_empty (c_long c)); cbn [negb andb]; rewrite ?app_assoc_s;
    rewrite ?S1; try exact (S2 b); try reflexivity.
  change (strip (", " +s+ ?x)) with (", " +s+ strip x). rewrite S2. rewrite ?app_assoc_s. reflexivity.
Qed.

Lemma strip_type t : no_backslash (type_name (elem_ty t)) = true -> strip (type_info t) = type_shown t.
Proof.
  unfold no_backslash. rewrite negb_true_iff. intros H. destruct t as [e|e]; cbn [elem_ty type_info type_shown] in *.
  - change (strip ("(\fI" +s+ type_name e +s+ "\fP)")) with ("(" +s+ strip (type_name e +s+ "\fP)")). now rewrite strip_plain_app.
  - change (strip ("(\fIList\fP of \fI" +s+ type_name e +s+ "\fP)")) with ("(List of " +s+ strip (type_name e +s+ "\fP)")). now rewrite strip_plain_app.
Qed.

Section shows.
Variables (nd tty : bool) (width : nat).
Let L := layout_of width.
Let Q := text_effects nd tty L.

Lemma words_par p x : words (par_nl p +s+ x) = words x.
Proof. destruct p; [apply words_nl|reflexivity]. Qed.

Lemma no_esc_par p : scontains "027" (par_nl p) = false.
Proof. now destruct p. Qed.

Lemma no_esc_gap k : scontains "027" (term_gap L k) = false.
Proof. unfold term_gap. destruct (_ <? _)%nat; [|apply no_esc_spaces]. rewrite scontains_app. now rewrite no_esc_spaces. Qed.

Lemma item_shows k d p : closed k = true -> text_ok d = true -> scontains "027" k = false -> scontains "027" d = false ->
  words (drop_sgr (fst (snd (q_item Q k d) p))) = words (strip k) ++ words (strip (until_nul d)).
Proof.
  intros K D Ek Ed. cbn [Q q_item text_effects fst snd].
  rewrite (dsgr_end _ (par_nl p +s+ spaces (left_padding L) +s+ strip k +s+ term_gap L k +s+ wrap_all L strip (right_column_tab L) (tokens d))).
  - rewrite words_par, words_spaces, words_gap by reflexivity. now rewrite words_wrapped.
  - apply dsgr_app; [apply dsgr_plain, no_esc_par|]. apply dsgr_app; [apply dsgr_plain, no_esc_spaces|].
    apply dsgr_app; [now apply dsgr_conv|]. apply dsgr_app; [apply dsgr_plain, no_esc_gap|]. apply dsgr_wrap_all. now apply tokens_no_esc.
Qed.

Lemma line_shows s b p : text_ok s = true -> scontains "027" s = false ->
  words (drop_sgr (fst (snd (q_line Q s b) p))) = words (strip (until_nul s)).
Proof.
  intros D Ed. cbn [Q q_line text_effects fst snd].
  rewrite (dsgr_end _ (par_nl p +s+ spaces (left_padding L) +s+ wrap_all L strip (left_padding L) (tokens s))).
  - rewrite words_par, words_spaces. now apply words_wrapped.
  - apply dsgr_app; [apply dsgr_plain, no_esc_par|]. apply dsgr_app; [apply dsgr_plain, no_esc_spaces|].
    apply dsgr_wrap_all. now apply tokens_no_esc.
Qed.

Lemma words_end_nl x : words (x +s+ nl) = words x.
Proof. unfold nl. rewrite words_app by reflexivity. change (words "") with (@nil string). now rewrite app_nil_r. Qed.

Lemma section_shows s p : scontains "027" s = false ->
  words (drop_sgr (fst (snd (q_section Q s) p))) = words (upper_case s).
Proof.
  intros Es. cbn [Q q_section text_effects fst snd].
  rewrite (dsgr_end _ (nl +s+ "" +s+ smap to_upper s +s+ "" +s+ nl)).
  - cbn [String.append]. rewrite words_nl, words_end_nl. now rewrite upper_smap.
  - apply dsgr_app; [now apply dsgr_plain|]. apply dsgr_app; [apply dsgr_tty|]. apply dsgr_app; [now apply dsgr_plain, no_esc_upper|].
    apply dsgr_app; [apply dsgr_tty|now apply dsgr_plain].
Qed.

Lemma subsection_shows s p : scontains "027" s = false ->
  words (drop_sgr (fst (snd (q_subsection Q s) p))) = words s.
Proof.
  intros Es. cbn [Q q_subsection text_effects fst snd]. unfold in_bold.
  rewrite (dsgr_end _ (nl +s+ spaces (left_padding L / 2) +s+ ("" +s+ s +s+ "") +s+ nl)).
  - cbn [String.append]. rewrite words_nl, words_spaces, app_nil_r_s. now rewrite words_end_nl.
  - apply dsgr_app; [now apply dsgr_plain|]. apply dsgr_app; [apply dsgr_plain, no_esc_spaces|]. apply dsgr_app; [|now apply dsgr_plain].
    apply dsgr_app; [apply dsgr_tty|]. apply dsgr_app; [now apply dsgr_plain|apply dsgr_tty].
Qed.

Lemma op_shows vs o p : is_positional o = false -> fst (q_print Q (the_item vs o)) = true ->
  good_item (fun s => scontains "027" s = false) (the_item vs o) -> forallb no_backslash (op_names o) = true ->
  entry_words terminal_view o (words (drop_sgr (fst (snd (q_print Q (the_item vs o)) p)))).
Proof.
  destruct o as [[x t c|x c|x t c]|s a|s a|s b a|k d a]; intros HP H1 H2 HN; try discriminate HP;
    unfold the_item in *; cbn [item_of q_print good_item op_names forallb] in *; unfold entry_words; cbn [terminal_view v_title v_subtitle v_text].
  - rewrite !andb_true_iff in HN. destruct HN as (N1 & N2 & N3 & _). cbn [Q q_item text_effects fst] in H1. apply andb_prop in H1 as [K D].
    destruct H2 as [E1 E2]. rewrite (item_shows _ _ p K D E1 E2). rewrite (strip_prep c N1 N2).
    change (strip (" " +s+ type_info t)) with (" " +s+ strip (type_info t)). rewrite (strip_type t N3). eexists. reflexivity.
  - rewrite !andb_true_iff in HN. destruct HN as (N1 & N2 & _). cbn [Q q_item text_effects fst] in H1. apply andb_prop in H1 as [K D].
    destruct H2 as [E1 E2]. rewrite (item_shows _ _ p K D E1 E2). pose proof (strip_prep c N1 N2 "") as X. rewrite !app_nil_r_s in X. now rewrite X.
  - now apply section_shows.
  - now apply subsection_shows.
  - now apply line_shows.
  - cbn [Q q_item text_effects fst] in H1. apply andb_prop in H1 as [K D]. destruct H2 as [E1 E2]. now apply item_shows.
Qed.

End shows.

Lemma Ret_inj {A} (a b : A) : Ret a = Ret b -> a = b.
Proof. now intros [= ->]. Qed.

Lemma entries_from {F} (Q : @effects F) vs (R : op -> string -> Prop) l bs :
  Forall2 (block Q) (map (the_item vs) l) bs ->
  (forall o f, In o l -> R o (fst (snd (q_print Q (the_item vs o)) f))) -> Forall2 R l bs.
Proof.
  revert bs. induction l as [|o l IH]; intros bs Hbs HR; inversion_clear Hbs as [|? b ? bs' Hb Hbs']; [constructor|].
  constructor; [destruct Hb as [f ->]; apply HR; now left|]. apply IH; [exact Hbs'|]. intros; apply HR; now right.
Qed.

(** the page consists of what comes before the options, the entries, and what comes after them *)
Lemma page_blocks {F} (Q : @effects F) exports adv r f : fst (e_page Q exports adv r) = true ->
  exists before blocks after f1 f2, fst (snd (e_page Q exports adv r) f)
    = before +s+ fst (snd (q_section Q "Options") f1) +s+ sconcat blocks +s+ fst (snd (q_subsection Q "Common options") f2) +s+ after
  /\ Forall2 (block Q) (map (the_item (pr_vars r)) (filter (fun o => negb (is_positional o) && shown adv o) (pr_ops r))) blocks
  /\ forallb (fun i => fst (q_print Q i)) (map (the_item (pr_vars r)) (filter (fun o => negb (is_positional o) && shown adv o) (pr_ops r))) = true.
Proof.
  intros H. unfold e_page, e_after, e_common in *. rewrite <- set_up_map. set (B := e_before Q r) in *. clearbody B.
  set (l := set_up_calls adv (pr_vars r) (pr_ops r)) in *. clearbody l.
  match goal with |- context [e_seq (e_seq (q_subsection Q _) ?x) ?y] => set (X := x) in *; set (Y := y) in * end. clearbody X Y.
  cbn [e_seq fst snd] in *.
  set (f1 := snd (snd B f)). set (f2 := snd (snd (q_section Q "Options") f1)).
  destruct (blocks_of Q l f2) as (bs & E & Hbs). rewrite E.
  set (f3 := snd (snd (e_map (q_print Q) l) f2)). set (f4 := snd (snd (q_subsection Q "Common options") f3)).
  exists (fst (snd B f)), bs, (fst (snd X f4) +s+ fst (snd Y (snd (snd X f4)))), f1, f3.
  split; [now rewrite ?app_assoc_s|]. split; [exact Hbs|].
  rewrite !andb_true_iff in H. destruct H as (_ & _ & H & _). rewrite e_map_ok in H. exact H.
Qed.

Lemma help_page_entries e r adv out : pr_format r = FHelp adv -> page e r = Ret out ->
  forallb (fun s => negb (scontains "027" s)) (flat_map (op_texts (pr_vars r)) (pr_ops r)) = true ->
  forallb no_backslash (flat_map op_names (pr_ops r)) = true ->
  exists before blocks after,
    out = before +s+ nl +s+ heading (pe_tty e) "OPTIONS" +s+ nl +s+ sconcat blocks
          +s+ nl +s+ "  " +s+ heading (pe_tty e) "Common options" +s+ nl +s+ after
    /\ Forall2 (fun o b => entry_words terminal_view o (words (drop_sgr b)))
         (filter (fun o => negb (is_positional o) && shown adv o) (pr_ops r)) blocks.
Proof.
  intros HF HP HE HN. pose proof (help_page_eff e r adv HF) as X. cbn zeta in X.
  destruct (fst (e_page _ _ _ _)) eqn:OK; [|rewrite HP in X; discriminate].
  rewrite X in HP. apply Ret_inj in HP. subst out.
  destruct (page_blocks (text_effects (pe_ndebug e) (pe_tty e) (layout_of (pe_width e))) (exports e) adv r false OK)
    as (before & bs & after & f1 & f2 & E & Hbs & Hok).
  exists before, bs, after. split.
  - rewrite E. cbn [q_section q_subsection text_effects fst snd]. f_equal. unfold heading, in_bold, on_tty, esc.
    destruct (pe_tty e); rewrite ?app_assoc_s; reflexivity.
  - pose proof (items_no_esc adv _ _ HE) as HI. rewrite set_up_map in HI. rewrite flat_map_concat_map in HN.
    assert (HN' : forall o, In o (pr_ops r) -> forallb no_backslash (op_names o) = true).
    { intros o Ho. apply forallb_forall. intros s Hs. rewrite forallb_forall in HN. apply HN. apply in_concat. exists (op_names o). split; [now apply in_map|exact Hs]. }
    apply (entries_from (text_effects (pe_ndebug e) (pe_tty e) (layout_of (pe_width e))) (pr_vars r)); [exact Hbs|]. intros o f Ho. apply filter_In in Ho as [Ho Hs].
    apply andb_prop in Hs as [Hp Hs]. apply op_shows.
    + apply negb_true_iff, Hp.
    + rewrite forallb_forall in Hok. apply Hok, in_map, filter_In. rewrite Hp, Hs. exact (conj Ho eq_refl).
    + rewrite Forall_forall in HI. apply HI, in_map, filter_In. rewrite Hp, Hs. exact (conj Ho eq_refl).
    + apply HN', Ho.
Qed.

(** entries that are not shown do not influence the page *)
Lemma print_page_filter {St} (P : printer St) exports adv r st :
  print_page P exports adv r st = print_page P exports adv (with_ops r (filter (fun o => is_positional o || shown adv o) (pr_ops r))) st.
Proof.
  unfold print_page. cbn [with_ops pr_info pr_subcommands pr_dev pr_ops pr_vars]. rewrite (set_up_filter adv).
  rewrite (positional_filter (fun o => is_positional o || shown adv o) (pr_vars r) (pr_ops r) 0); [reflexivity|].
  intros o ->. reflexivity.
Qed.

(** ** Layout of texts *)

Lemma wrap_rest_ext L f g l : (forall t, In t l -> f t = g t) -> forall tab pos, wrap_rest L f tab pos l = wrap_rest L g tab pos l.
Proof.
  induction l as [|t l IH]; intros H tab pos; [reflexivity|]. cbn [wrap_rest]. rewrite (H t (or_introl eq_refl)).
  rewrite !IH by (intros; apply H; now right). reflexivity.
Qed.

Lemma wrap_all_ext L f g l : (forall t, In t l -> f t = g t) -> forall tab, wrap_all L f tab l = wrap_all L g tab l.
Proof.
  destruct l as [|t l]; intros H tab; [reflexivity|]. cbn [wrap_all]. rewrite (H t (or_introl eq_refl)).
  rewrite !(wrap_rest_ext L f g l) by (intros; apply H; now right). reflexivity.
Qed.

Lemma documented_split a c b : ends_word c = true -> documented (a +s+ String c b) = true -> documented a = true.
Proof.
  intros Ec. assert (Nb : forall x, ends_word x = false -> Ascii.eqb c x = false).
  { intros x Hx. destruct (Ascii.eqb_spec c x) as [->|]; [congruence|reflexivity]. }
  revert a. apply (str_ind_len (fun a => documented (a +s+ String c b) = true -> documented a = true)).
  intros [|x s1] IH A; [reflexivity|]. cbn [documented String.append] in *. destruct (Ascii.eqb x "\"); [|apply IH; [cbn; lia|exact A]].
  destruct s1 as [|d s2]; cbn [String.append] in A; [rewrite (Nb "-"%char eq_refl), (Nb "f"%char eq_refl) in A; discriminate|].
  destruct (Ascii.eqb d "-"); [apply IH; [cbn; lia|exact A]|]. destruct (Ascii.eqb d "f"); [|discriminate].
  destruct s2 as [|e s3]; cbn [String.append] in A; [rewrite (Nb "B"%char eq_refl), (Nb "I"%char eq_refl), (Nb "P"%char eq_refl) in A; discriminate|].
  apply andb_prop in A as [-> A]. apply IH; [cbn; lia|exact A].
Qed.

Lemma documented_until s : documented s = true -> documented (until_nul s) = true.
Proof.
  unfold until_nul. destruct (sfind nul s) as [n|] eqn:E; [|auto]. apply sfind_Some in E as (a & b & -> & -> & _ & _).
  rewrite stake_app. now apply documented_split.
Qed.

Lemma tokens_widths text : documented text = true -> Forall (fun t => solid t = true /\ text_width t = String.length (strip t)) (tokens text).
Proof.
  intros D. apply Forall_forall. intros t Ht. pose proof (tokens_solid text) as S. rewrite Forall_forall in S. split; [now apply S|].
  apply width_documented. rewrite tokens_words in Ht. pose proof (documented_words _ (documented_until _ D)) as W. rewrite forallb_forall in W. now apply W.
Qed.

Definition line_fits (L : layout) (l : string) : Prop := String.length l <= screen_width L \/ List.length (words l) <= 1.

Lemma print_text_layout nd L text tab st : text_ok text = true ->
  exists out, print_text nd false L text tab st = ({| t_out := t_out st +s+ out; t_par := t_par st |}, Ret tt)
    /\ words out = words (strip (until_nul text))
    /\ (documented text = true -> Forall (line_fits L) (lines (spaces tab +s+ out))).
Proof.
  intros H. exists (wrap_all L (conv nd false) tab (tokens text)). destruct st as [o p]. split; [|split].
  - pose proof (does_text nd false L text tab o p) as X. cbn [fst snd] in X. rewrite H in X. exact X.
  - rewrite <- (words_wrapped L text tab H). f_equal. rewrite (wrap_all_ext L (conv nd false) strip); [reflexivity|].
    intros t Ht. apply conv_false. unfold text_ok in H. rewrite forallb_forall in H. now apply H.
  - intros D. rewrite (wrap_all_ext L (conv nd false) strip).
    + apply all_fits; [exact strip_solid|]. now apply tokens_widths.
    + intros t Ht. apply conv_false. unfold text_ok in H. rewrite forallb_forall in H. now apply H.
Qed.

Lemma print_text_tty nd L text tab st : text_ok text = true -> scontains "027" text = false ->
  exists out shown, print_text nd true L text tab st = ({| t_out := t_out st +s+ out; t_par := t_par st |}, Ret tt)
    /\ print_text nd false L text tab st = ({| t_out := t_out st +s+ shown; t_par := t_par st |}, Ret tt)
    /\ drop_sgr out = shown.
Proof.
  intros H E. exists (wrap_all L (conv nd true) tab (tokens text)), (wrap_all L (conv nd false) tab (tokens text)).
  destruct st as [o p]. split; [|split].
  - pose proof (does_text nd true L text tab o p) as X. cbn [fst snd] in X. rewrite H in X. exact X.
  - pose proof (does_text nd false L text tab o p) as X. cbn [fst snd] in X. rewrite H in X. exact X.
  - rewrite (dsgr_end _ _ (dsgr_wrap_all nd true L (tokens text) tab (tokens_no_esc _ H E))). symmetry. apply wrap_all_ext.
    intros t Ht. apply conv_false. unfold text_ok in H. rewrite forallb_forall in H. now apply H.
Qed.

Lemma layout_width width : screen_width (layout_of width) =
  match width with
  | 0 => 78
  | _ => if Nat.ltb width 40 then 38 else if Nat.leb width 120 then width - 2 else 118
  end.
Proof.
  destruct width as [|w]; [reflexivity|]. unfold layout_of. cbn [screen_width]. change (Nat.ltb 0 (S w)) with true. cbn iota.
  destruct (Nat.ltb_spec (S w) 40); [|destruct (Nat.leb_spec (S w) 120)]; lia.
Qed.

Lemma print_text_screen nd width text tab st : forallb closed (words text) = true -> no_nul text = true -> documented text = true ->
  exists out, print_text nd false (layout_of width) text tab st = ({| t_out := t_out st +s+ out; t_par := t_par st |}, Ret tt)
    /\ words out = words (strip text)
    /\ forall l, In l (lines (spaces tab +s+ out)) -> String.length l <= match width with
         | 0 => 78
         | _ => if Nat.ltb width 40 then 38 else if Nat.leb width 120 then width - 2 else 118
         end \/ List.length (words l) <= 1.
Proof.
  intros C N D. rewrite <- (until_no_nul text N) in C. rewrite <- tokens_words in C.
  destruct (print_text_layout nd (layout_of width) text tab st C) as (out & E & W & F). rewrite (until_no_nul text N) in W.
  exists out. split; [exact E|]. split; [exact W|]. intros l Hl. specialize (F D). rewrite Forall_forall in F. specialize (F l Hl).
  unfold line_fits in F. now rewrite layout_width in F.
Qed.

(** every line starts with the indentation *)
Definition indented (tab : nat) (l : string) : Prop := l = "" \/ String.prefix (spaces tab) l = true.

Lemma prefix_spaces tab x : String.prefix (spaces tab) (spaces tab +s+ x) = true.
Proof. apply prefix_iff. now exists x. Qed.

Lemma rest_indented L f l : (forall t, In t l -> solid (f t) = true) -> forall cur tab pos, one_line cur = true -> indented tab (spaces tab +s+ cur) ->
  Forall (indented tab) (lines ((spaces tab +s+ cur) +s+ wrap_rest L f tab pos l +s+ nl)).
Proof.
  induction l as [|t l IH]; intros Hf cur tab pos C I; cbn [wrap_rest].
  - change ("" +s+ nl) with nl. rewrite <- (app_nil_r_s nl), lines_app by (rewrite one_line_app, one_line_spaces; exact C).
    constructor; [exact I|]. constructor; [now left|constructor].
  - assert (Ht : solid (f t) = true) by (apply Hf; now left).
    assert (Hl : forall x, In x l -> solid (f x) = true) by (intros; apply Hf; now right).
    destruct (_ <? _)%nat.
    + rewrite !app_assoc_s, <- (app_assoc_s (spaces tab) cur). rewrite lines_app by (rewrite one_line_app, one_line_spaces; exact C).
      constructor; [exact I|]. rewrite <- (app_assoc_s (spaces tab) (f t)). apply IH; [exact Hl|now apply solid_one_line|].
      right. apply prefix_spaces.
    + assert (E : (spaces tab +s+ cur) +s+ (" " +s+ f t +s+ wrap_rest L f tab (pos + (text_width t + 1)) l) +s+ nl
          = (spaces tab +s+ (cur +s+ " " +s+ f t)) +s+ wrap_rest L f tab (pos + (text_width t + 1)) l +s+ nl) by (now rewrite !app_assoc_s).
      rewrite E. apply IH; [exact Hl| |right; apply prefix_spaces]. rewrite !one_line_app, C. change (one_line " ") with true.
      now rewrite (solid_one_line _ Ht).
Qed.

Lemma all_indented L f l tab : (forall t, In t l -> solid (f t) = true) -> Forall (indented tab) (lines (spaces tab +s+ wrap_all L f tab l)).
Proof.
  destruct l as [|t l]; intros Hf.
  - cbn [wrap_all]. rewrite app_nil_r_s. unfold lines. rewrite fields_none by apply one_line_spaces. constructor; [|constructor].
    right. rewrite <- (app_nil_r_s (spaces tab)) at 2. apply prefix_spaces.
  - assert (Ht : solid (f t) = true) by (apply Hf; now left).
    assert (Hl : forall x, In x l -> solid (f x) = true) by (intros; apply Hf; now right). cbn [wrap_all]. destruct (_ <? _)%nat.
    + rewrite !app_assoc_s, <- (app_assoc_s (spaces tab)).
      rewrite lines_app by (rewrite one_line_app, one_line_spaces; now apply solid_one_line). constructor; [right; apply prefix_spaces|].
      pose proof (rest_indented L f l Hl "" tab tab eq_refl (or_intror (prefix_spaces tab ""))) as X. now rewrite app_nil_r_s in X.
    + rewrite <- (app_assoc_s (spaces tab)). apply rest_indented; [exact Hl|now apply solid_one_line|right; apply prefix_spaces].
Qed.

(** ** List items *)

Lemma last_fields_nl a s : lines (a +s+ nl +s+ s) = lines a ++ lines s.
Proof. unfold lines. change (nl +s+ s) with (String "010" s). now apply fields_app. Qed.

Lemma column_nl a s : column (a +s+ nl +s+ s) = column s.
Proof.
  unfold column. rewrite last_fields_nl. assert (H : lines s <> []) by apply fields_nonnil. revert H. generalize (lines s). intros l Hl.
  induction (lines a) as [|x m IH]; [reflexivity|]. cbn [app]. destruct (m ++ l) eqn:E; [destruct m; [now apply Hl in E|discriminate]|].
  exact IH.
Qed.

Lemma column_line s : one_line s = true -> column s = String.length s.
Proof. intros H. unfold column, lines. now rewrite fields_none. Qed.

Lemma column_app a s : one_line s = true -> column (a +s+ s) = column a + String.length s.
Proof.
  intros H. induction a as [a IH] using str_ind_len.
  destruct (sfind "010" a) as [n|] eqn:E.
  - apply sfind_Some in E as (u & v & -> & -> & Hu & _). change (u +s+ String "010" v) with (u +s+ nl +s+ v).
    rewrite !app_assoc_s, !column_nl. apply IH. rewrite length_app_s. cbn. lia.
  - assert (Ha : one_line a = true).
    { apply sfind_None in E. unfold one_line. clear IH. induction a as [|c a IHa]; [reflexivity|]. cbn [scontains sall] in *.
      apply orb_false_elim in E as [Ec E]. rewrite Ascii.eqb_sym, Ec. cbn [negb andb]. now apply IHa. }
    rewrite !column_line; [apply length_app_s|exact Ha|rewrite one_line_app, Ha; exact H].
Qed.

(** the text before the description ends in column 10; it is on a new line iff the term is long *)
Definition description_column : nat := 10.

Lemma list_item_layout nd tty width k d out par :
  let L := layout_of width in
  no_backslash k = true -> one_line k = true -> column out = 0 -> text_ok d = true ->
  exists gap rest,
    print_list_item nd tty L k d {| t_out := out; t_par := par |} =
      ({| t_out := out +s+ (if par then nl else "") +s+ spaces 4 +s+ k +s+ gap +s+ rest; t_par := false |}, Ret tt)
    /\ column (out +s+ (if par then nl else "") +s+ spaces 4 +s+ k +s+ gap) = description_column
    /\ words gap = [] /\ (one_line gap = true <-> String.length k <= 4).
Proof.
  intros L Hk H1 HC HD. exists (term_gap L k), (wrap_all L (conv nd tty) 10 (tokens d)).
  unfold no_backslash in Hk. apply negb_true_iff in Hk. destruct (no_backslash_documented k Hk) as [Dk Sk].
  assert (Ck : conv nd tty k = k).
  { unfold conv. assert (X : to_text nd tty k = Ret k); [|now rewrite X].
    clear -Hk. induction k as [|c k IH]; [reflexivity|]. cbn [scontains to_text] in *. rewrite Ascii.eqb_sym. apply orb_false_elim in Hk as [-> Hk].
    now rewrite (IH Hk). }
  destruct (text_implements nd tty L) as (_ & _ & _ & _ & X & _). specialize (X k d out par).
  cbn [q_item text_effects fst snd text_printer p_item] in X. rewrite (documented_closed k Dk), HD, Ck in X. cbn [andb] in X.
  split; [exact X|]. unfold term_gap. change (right_column_tab L) with 10. change (left_padding L) with 4. change (center_padding L) with 2.
  destruct (Nat.ltb_spec 10 (4 + String.length k + 2)) as [Hl|Hl].
  - split; [|split].
    + rewrite <- !app_assoc_s. rewrite app_assoc_s, column_nl. reflexivity.
    + reflexivity.
    + split; [discriminate|lia].
  - split; [|split].
    + assert (E : column (out +s+ (if par then nl else "")) = 0).
      { destruct par; [|now rewrite app_nil_r_s]. rewrite <- (app_nil_r_s nl), column_nl. reflexivity. }
      rewrite <- app_assoc_s, column_app, E; [|rewrite !one_line_app, H1, !one_line_spaces; reflexivity].
      rewrite !length_app_s, !length_spaces. unfold description_column. lia.
    + rewrite <- (app_nil_r_s (spaces _)), words_spaces. reflexivity.
    + split; [lia|intros _; apply one_line_spaces].
Qed.

(** the names of declared options are long terms: the description starts on a new line *)
Lemma prep_length s l : Ascii.eqb s nul = false \/ is_empty l = false -> 7 <= String.length (prep_id s l).
Proof.
  unfold prep_id. rewrite !length_app_s. destruct (Ascii.eqb s nul), (is_empty l); intros [H|H]; try discriminate; cbn [String.length String.append];
    rewrite ?length_app_s; cbn [String.length]; lia.
Qed.

Lemma long_term_layout nd tty width k d out par :
  let L := layout_of width in
  closed k = true -> 5 <= String.length k -> text_ok d = true ->
  exists term rest,
    print_list_item nd tty L k d {| t_out := out; t_par := par |} =
      ({| t_out := out +s+ (if par then nl else "") +s+ spaces 4 +s+ term +s+ nl +s+ spaces 10 +s+ rest; t_par := false |}, Ret tt)
    /\ to_text nd tty k = Ret term.
Proof.
  intros L Ck Hl HD. exists (conv nd tty k), (wrap_all L (conv nd tty) 10 (tokens d)). split; [|now apply to_text_conv].
  destruct (text_implements nd tty L) as (_ & _ & _ & _ & X & _). specialize (X k d out par).
  cbn [q_item text_effects fst snd text_printer p_item] in X. rewrite Ck, HD in X. cbn [andb] in X.
  unfold mk_text in X. rewrite X. unfold term_gap. change (right_column_tab L) with 10. change (left_padding L) with 4. change (center_padding L) with 2.
  destruct (Nat.ltb_spec 10 (4 + String.length k + 2)); [|lia]. unfold par_nl. rewrite ?app_assoc_s. reflexivity.
Qed.
