(** Proofs: what the pages say (C94). *)
From Verif Require Import Base StrLib Fs Values Validators FormatParse Parser HelpBase HelpText HelpExport HelpSpec HelpTextProofs
  HelpPage HelpGood HelpLayout HelpExportProofs HelpEntries HelpOther PageSpec PageProofs OutlineSpec.

(** ** Any kind of page: a relation between outputs and words that respects concatenation *)

Section saying.
Context {F : Type} (Q : @effects F) (R : string -> list string -> Prop) (pw : part -> list string) (ok : part -> bool).

Hypothesis R_nil : R "" [].
Hypothesis R_app : forall a b u v, R a u -> R b v -> R (a +s+ b) (u ++ v).

Definition says (e : eff F) (ws : list string) : Prop := fst e = true -> forall f, R (fst (snd e f)) ws.

Lemma says_ret : says e_ret [].
Proof. intros _ f. exact R_nil. Qed.
Lemma says_seq a b u v : says a u -> says b v -> says (e_seq a b) (u ++ v).
Proof. intros A B H f. cbn [e_seq fst snd] in *. apply andb_prop in H as [Ha Hb]. apply R_app; [now apply A|now apply B]. Qed.
Lemma says_map {A} (h : A -> eff F) w l : (forall a, In a l -> says (h a) (w a)) -> says (e_map h l) (flat_map w l).
Proof.
  induction l as [|a l IH]; intros H; [apply says_ret|]. cbn [e_map flat_map]. apply says_seq; [apply H; now left|].
  apply IH. intros b Hb. apply H. now right.
Qed.

Hypothesis H_section : forall s, ok (Title s) = true -> says (q_section Q s) (pw (Title s)).
Hypothesis H_subsection : forall s, ok (Subtitle s) = true -> says (q_subsection Q s) (pw (Subtitle s)).
Hypothesis H_line : forall s b, ok (Text s) = true -> says (q_line Q s b) (pw (Text s)).
Hypothesis H_label : forall l s, ok (Labelled l s) = true -> says (q_line Q (q_bold Q (l +s+ " ") +s+ s) false) (pw (Labelled l s)).
Hypothesis H_item : forall k d, ok (Entry k d) = true -> says (q_item Q k d) (pw (Entry k d)).
Hypothesis H_hint : says (q_line Q ("For full copyright and/or warranty information see " +s+ q_bold Q "--copyright" +s+ ".") false)
  (pw (Text "For full copyright and/or warranty information see --copyright.")).

Definition said (l : list part) : list string := flat_map pw l.

Lemma said_app a b : said (a ++ b) = said a ++ said b.
Proof. apply flat_map_app. Qed.

Definition all_ok (l : list part) : Prop := forallb ok l = true.
Lemma all_ok_app a b : all_ok (a ++ b) -> all_ok a /\ all_ok b.
Proof. unfold all_ok. rewrite forallb_app. apply andb_prop. Qed.
Lemma all_ok_cons p l : all_ok (p :: l) -> ok p = true /\ all_ok l.
Proof. unfold all_ok. cbn [forallb]. apply andb_prop. Qed.

(** a section that is printed only if it has content *)
Lemma says_section {A} t (h : A -> eff F) (w : A -> list part) l b : b = nonempty l ->
  (forall a, In a l -> all_ok (w a) -> says (h a) (said (w a))) -> (forall a, In a l -> w a <> []) ->
  all_ok (section t (flat_map w l)) -> says (e_when b (e_seq (q_section Q t) (e_map h l))) (said (section t (flat_map w l))).
Proof.
  intros -> H N K. destruct l as [|a l]; [apply says_ret|]. cbn [nonempty e_when].
  assert (E : section t (flat_map w (a :: l)) = Title t :: flat_map w (a :: l)).
  { cbn [flat_map]. specialize (N a (or_introl eq_refl)). destruct (w a); [congruence|reflexivity]. }
  rewrite E in *. apply all_ok_cons in K as [K1 K2]. change (said (Title t :: ?l)) with (pw (Title t) ++ said l).
  apply says_seq; [now apply H_section|]. clear E N K1. revert K2. generalize (a :: l), H. clear a l H.
  induction l as [|a l IH]; intros H K; [apply says_ret|]. cbn [flat_map e_map] in *. apply all_ok_app in K as [K1 K2]. rewrite said_app.
  apply says_seq; [apply H; [now left|exact K1]|]. apply IH; [|exact K2]. intros x Hx. apply H. now right.
Qed.

Lemma flat_single {A} (f : A -> part) l : flat_map (fun a => [f a]) l = map f l.
Proof. induction l as [|a l IH]; [reflexivity|]. cbn. now rewrite IH. Qed.

Lemma says_one e p : (ok p = true -> says e (pw p)) -> all_ok [p] -> says e (said [p]).
Proof. intros H K. apply all_ok_cons in K as [K _]. unfold said. cbn [flat_map]. rewrite app_nil_r. auto. Qed.

(** parts one after the other *)
Lemma says_cons a b p l : (ok p = true -> says a (pw p)) -> (all_ok l -> says b (said l)) -> all_ok (p :: l) -> says (e_seq a b) (said (p :: l)).
Proof. intros A B K. apply all_ok_cons in K as [K1 K2]. change (said (p :: l)) with (pw p ++ said l). apply says_seq; auto. Qed.
Lemma says_apps a b l l' : (all_ok l -> says a (said l)) -> (all_ok l' -> says b (said l')) -> all_ok (l ++ l') -> says (e_seq a b) (said (l ++ l')).
Proof. intros A B K. apply all_ok_app in K as [K1 K2]. rewrite said_app. apply says_seq; auto. Qed.
Lemma says_unless s p e : (ok p = true -> says e (pw p)) -> all_ok (unless_empty s p) -> says (e_when (negb (is_empty s)) e) (said (unless_empty s p)).
Proof. unfold unless_empty. intros H K. destruct (is_empty s); [apply says_ret|]. now apply says_one. Qed.

Lemma says_synopsis m : all_ok (section "Synopsis" (map Text (synopsis_texts m))) ->
  says (e_when (nonempty (m_synopsis m)) (e_seq (q_section Q "Synopsis") (e_map (e_synopsis Q) (m_synopsis m))))
       (said (section "Synopsis" (map Text (synopsis_texts m)))).
Proof.
  unfold synopsis_texts. rewrite map_map, <- flat_single. apply (says_section "Synopsis"); [reflexivity| |discriminate].
  intros s _ K. apply says_one; [|exact K]. clear K. intros K. unfold e_synopsis. rewrite synopsis_line_eq.
  destruct (has_blank s); [|intros X; discriminate X]. apply H_line. exact K.
Qed.

Lemma says_lines t l b : all_ok (section t (map Text l)) ->
  says (e_when (nonempty l) (e_seq (q_section Q t) (e_map (fun d => q_line Q d b) l))) (said (section t (map Text l))).
Proof.
  rewrite <- flat_single. apply says_section; [reflexivity| |discriminate].
  intros s _ K. apply says_one; [|exact K]. intros K'. now apply H_line.
Qed.

Lemma says_subcommands m subs : all_ok (subcommand_parts m subs) -> says (e_subcommands Q m subs) (said (subcommand_parts m subs)).
Proof.
  unfold subcommand_parts, e_subcommands. destruct subs as [|s0 l]; [intros _; apply says_ret|]. cbn [app].
  apply says_cons; [apply H_section|]. apply says_cons; [apply H_line|].
  apply (says_apps _ _ (map (fun s => Text ("- " +s+ bold s)) (s0 :: l))).
  - generalize (s0 :: l). intros k. induction k as [|a k IH]; intros K; [apply says_ret|]. cbn [map e_map].
    apply says_cons; [exact (H_line ("- " +s+ bold a) false)|exact IH|exact K].
  - apply says_cons; [apply H_line|]. apply says_one. apply (H_line ("The following options belong to the top-level parser and need to be "
                +s+ "specified \fBbefore\fP the subcommand key word. Every argument after the "
                +s+ "subcommand key word is passed on to the corresponding sub-parser.") true).
Qed.

Lemma says_arguments vs l : forall n, all_ok (argument_parts (S n) vs l) ->
  says (e_map (q_print Q) (positional_calls vs n l)) (said (argument_parts (S n) vs l)).
Proof.
  induction l as [|o l IH]; intros n; [intros _; apply says_ret|].
  destruct o as [[x t c|x c|x t c]|s a|s a|s b a|k d a]; cbn [positional_calls argument_parts]; try apply IH.
  cbn [e_map]. apply says_cons; [|apply IH]. unfold positional_item. cbn [q_print].
  assert (E1 : "\fBARGUMENT-" +s+ nat_to_string (S n) +s+ "\fP " +s+ type_info t
     = bold ("ARGUMENT-" +s+ nat_to_string (S n)) +s+ " " +s+ marked_type t).
  { unfold bold. rewrite marked_type_eq, !app_assoc_s. reflexivity. }
  assert (E2 : (if is_container t then default_of_value t (vs x) else "")
     = match t with ListOf _ => " Default: " +s+ value_text t (vs x) | Scalar _ => "" end).
  { destruct t; [reflexivity|]. apply value_text_eq. }
  rewrite E1, E2. apply H_item.
Qed.

Lemma says_positionals vs l : all_ok (section "Positional Arguments" (argument_parts 1 vs l)) ->
  says (e_seq (e_when (nonempty (positional_calls vs 0 l)) (q_section Q "Positional Arguments")) (e_map (q_print Q) (positional_calls vs 0 l)))
       (said (section "Positional Arguments" (argument_parts 1 vs l))).
Proof.
  pose proof (says_arguments vs l 0) as X.
  assert (E : argument_parts 1 vs l = [] <-> positional_calls vs 0 l = []).
  { generalize 0 as n. clear. induction l as [|o l IH]; intros n; [split; reflexivity|].
    destruct o as [[x t c|x c|x t c]|s a|s a|s b a|k d a]; cbn [positional_calls argument_parts]; try apply IH. split; discriminate. }
  destruct (positional_calls vs 0 l) as [|i k] eqn:P.
  - rewrite (proj2 E eq_refl). intros _. cbn [nonempty e_when section said flat_map]. exact (says_seq _ _ _ _ says_ret says_ret).
  - destruct (argument_parts 1 vs l) as [|p q]; [destruct E as [E _]; discriminate (E eq_refl)|]. cbn [nonempty e_when section].
    apply says_cons; [apply H_section|exact X].
Qed.

Lemma listed_shown adv l : filter (fun o => negb (is_positional o) && shown adv o) l = filter (listed adv) l.
Proof. apply filter_ext. intros o. unfold listed, shown, on_advanced_help, on_help. destruct (is_positional o), (is_hidden o), (is_advanced o), adv; reflexivity. Qed.

Lemma says_options adv vs l : all_ok (flat_map (option_part vs) (filter (listed adv) l)) ->
  says (e_map (q_print Q) (set_up_calls adv vs l)) (said (flat_map (option_part vs) (filter (listed adv) l))).
Proof.
  rewrite set_up_map, listed_shown. assert (P : forall o, In o (filter (listed adv) l) -> is_positional o = false).
  { intros o Ho. apply filter_In in Ho as [_ Ho]. unfold listed in Ho. now destruct (is_positional o). }
  revert P. generalize (filter (listed adv) l). clear l. intros l P. induction l as [|o l IH]; [intros _; apply says_ret|].
  cbn [flat_map map e_map]. apply says_apps; [|apply IH; intros x Hx; apply P; now right]. specialize (P o (or_introl eq_refl)).
  destruct o as [[x t c|x c|x t c]|s a|s a|s b a|k d a]; cbn [the_item item_of q_print option_part]; try discriminate P; apply says_one; auto.
  - rewrite marked_names_eq, marked_type_eq, default_text_eq. apply H_item.
  - rewrite marked_names_eq. apply H_item.
Qed.

Lemma says_common e dev : all_ok (common_parts (given (pe_tdl e)) dev) ->
  says (e_common Q (exports e) dev) (said (common_parts (given (pe_tdl e)) dev)).
Proof.
  unfold common_parts, e_common. cbn [app]. repeat (apply says_cons; [first [apply H_subsection|apply H_item]|]).
  apply says_cons.
  - unfold exports. destruct (pe_tdl e); cbn [given]; apply H_item.
  - destruct dev; [|intros _; apply says_ret]. apply says_one. apply H_item.
Qed.

Lemma says_version m : all_ok (version_parts m) -> says (e_version Q m) (said (version_parts m)).
Proof.
  unfold version_parts, e_version. cbn [app]. apply says_cons; [apply H_section|].
  apply says_cons; [apply (H_label "Last update:")|].
  apply says_cons; [|].
  { intros K. pose proof (H_label (m_app_name m +s+ " version:") (m_version m) K) as X. rewrite app_assoc_s in X. exact X. }
  apply says_cons; [apply (H_label "Sharg version:")|].
  unfold unless_empty. destruct (is_empty (m_url m)); [intros _; apply says_ret|]. cbn [negb e_when section].
  apply says_cons; [apply H_section|]. apply says_one, H_line.
Qed.

Lemma says_legal m : all_ok (legal_parts m) -> says (e_legal Q m) (said (legal_parts m)).
Proof.
  unfold legal_parts, e_legal.
  assert (E : negb (is_empty (m_short_copyright m)) || negb (is_empty (m_long_copyright m)) || negb (is_empty (m_citation m))
     || negb (is_empty (m_author m)) || negb (is_empty (m_email m)) =
     negb (is_empty (m_short_copyright m) && is_empty (m_long_copyright m) && is_empty (m_citation m) && is_empty (m_author m) && is_empty (m_email m))).
  { now rewrite !negb_andb. }
  rewrite E. destruct (_ && _); [intros _; apply says_ret|]. cbn [negb e_when].
  apply (says_apps _ _ [Title "Legal"]); [apply says_one, H_section|].
  apply says_apps.
  { apply says_unless. intros K. pose proof (H_label (m_app_name m +s+ " Copyright:") (m_short_copyright m) K) as X. rewrite app_assoc_s in X. exact X. }
  apply says_apps; [apply says_unless, (H_label "Author:")|]. apply says_apps; [apply says_unless, (H_label "Contact:")|].
  apply says_apps; [apply says_one, (H_label "SeqAn Copyright:")|].
  apply says_apps; [apply says_unless, (H_label "In your academic works please cite:")|]. apply says_unless. intros _. exact H_hint.
Qed.

Lemma page_says e adv r hw : says (q_header Q (pr_info r)) hw -> says (q_footer Q) [] ->
  let o := outline (given (pe_tdl e)) adv r in
  all_ok o -> says (e_page Q (exports e) adv r) (hw ++ said o).
Proof.
  intros HH HF o. unfold o, outline. cbv zeta. set (m := pr_info r) in *. intros K.
  apply all_ok_app in K as [K1 K]. apply all_ok_app in K as [K2 K]. apply all_ok_app in K as [K3 K]. apply all_ok_app in K as [K4 K].
  apply all_ok_app in K as [K5 K]. apply all_ok_app in K as [K6 K]. apply all_ok_app in K as [K7 K]. apply all_ok_app in K as [K8 K].
  apply all_ok_app in K as [K9 K].
  unfold e_page, e_before, e_after. cbv zeta. fold m. rewrite !said_app.
  assert (A : forall a b c u v w, says a u -> says b v -> says c w -> says (e_seq a (e_seq b c)) (u ++ v ++ w))
    by (intros; apply says_seq; [assumption|apply says_seq; assumption]).
  pose proof (says_seq _ _ _ _ HH (says_seq _ _ _ _ (says_synopsis m K1) (says_seq _ _ _ _ (says_lines "Description" _ true K2)
    (says_seq _ _ _ _ (says_subcommands m _ K3) (says_positionals _ _ K4))))) as B.
  pose proof (says_seq _ _ _ _ (says_common e (pr_dev r) K7) (says_seq _ _ _ _ (says_lines "Examples" _ true K8)
    (says_seq _ _ _ _ (says_version m K9) (says_seq _ _ _ _ (says_legal m K) HF)))) as C.
  pose proof (says_seq _ _ _ _ B (says_seq _ _ _ _ (says_one _ _ (H_section "Options") K5)
    (says_seq _ _ _ _ (says_options adv (pr_vars r) (pr_ops r) K6) C))) as D.
  rewrite app_nil_r in D. rewrite <- !app_assoc in D. exact D.
Qed.

End saying.

(** ** The terminal *)

Definition t_reads (a : string) (ws : list string) : Prop := exists a', dsgr a a' /\ forall x, words (a' +s+ x) = ws ++ words x.

Lemma t_reads_nil : t_reads "" [].
Proof. exists "". split; [intros b; reflexivity|reflexivity]. Qed.
Lemma t_reads_app a b u v : t_reads a u -> t_reads b v -> t_reads (a +s+ b) (u ++ v).
Proof.
  intros (a' & A & WA) (b' & B & WB). exists (a' +s+ b'). split; [now apply dsgr_app|]. intros x.
  now rewrite app_assoc_s, WA, WB, app_assoc.
Qed.
Lemma t_reads_app0 a b v : t_reads a [] -> t_reads b v -> t_reads (a +s+ b) v.
Proof. exact (t_reads_app a b [] v). Qed.
Lemma t_reads_end a ws : t_reads a ws -> words (drop_sgr a) = ws.
Proof.
  intros (a' & A & W). rewrite (dsgr_end _ _ A). specialize (W ""). rewrite app_nil_r_s in W. rewrite W.
  change (words "") with (@nil string). apply app_nil_r.
Qed.
(** a text followed by a line break *)
Lemma t_reads_nl a a' : dsgr a a' -> t_reads (a +s+ nl) (words a').
Proof.
  intros A. exists (a' +s+ nl). split; [apply dsgr_app; [exact A|now apply dsgr_plain]|]. intros x. rewrite app_assoc_s.
  now apply words_app.
Qed.
Lemma t_reads_blank s : scontains "027" s = false -> (forall x, words (s +s+ x) = words x) -> t_reads s [].
Proof. intros E H. exists s. split; [now apply dsgr_plain|exact H]. Qed.
Lemma t_reads_spaces n : t_reads (spaces n) [].
Proof. apply t_reads_blank; [apply no_esc_spaces|apply words_spaces]. Qed.
Lemma t_reads_par p : t_reads (par_nl p) [].
Proof. apply t_reads_blank; [apply no_esc_par|intros x; apply words_par]. Qed.

Section terminal.
Variables (nd tty : bool) (width : nat).
Let L := layout_of width.
Let Q := text_effects nd tty L.

(** a token is shown as a word without white space *)
Definition shown_as (t u : string) : Prop := dsgr (conv nd tty t) u /\ solid u = true.

Lemma t_reads_wrap l us tab : Forall2 shown_as l us -> Forall (fun t => solid t = true) l ->
  t_reads (wrap_all L (conv nd tty) tab l) (flat_map words us).
Proof.
  intros H S. set (g := fun t : string => let u := drop_sgr (conv nd tty t) in if solid u then u else "").
  assert (G : forall t u, shown_as t u -> g t = u).
  { intros t u [D E]. unfold g. cbv zeta. rewrite (dsgr_end _ _ D). now rewrite E. }
  assert (SG : forall t, solid t = true -> solid (g t) = true).
  { intros t _. unfold g. cbv zeta. destruct (solid (drop_sgr _)) eqn:E; [exact E|reflexivity]. }
  assert (RR : forall l us, Forall2 shown_as l us -> forall pos, dsgr (wrap_rest L (conv nd tty) tab pos l) (wrap_rest L g tab pos l)).
  { clear -G. intros l us. induction 1 as [|t u l us Ht Hl IH]; intros pos; cbn [wrap_rest]; [intros b; reflexivity|]. pose proof (G _ _ Ht) as E. rewrite E.
    destruct Ht as [D _]. destruct (_ <? _)%nat; repeat apply dsgr_app; try exact D; try apply IH; now (apply dsgr_plain; try apply no_esc_spaces). }
  exists (wrap_all L g tab l). split.
  - destruct H as [|t u l us Ht Hl]; [intros b; reflexivity|]. cbn [wrap_all]. rewrite (G _ _ Ht). destruct Ht as [D _].
    apply dsgr_app; [exact D|]. apply dsgr_app; [|now apply dsgr_plain]. pose proof (RR _ _ Hl) as X.
    destruct (_ <? _)%nat; [|apply X]. apply dsgr_app; [now apply dsgr_plain|]. apply dsgr_app; [apply dsgr_plain, no_esc_spaces|apply X].
  - intros x. assert (W : words (wrap_all L g tab l +s+ x) = words (wrap_all L g tab l) ++ words x).
    { destruct l as [|t l]; [reflexivity|]. cbn [wrap_all]. match goal with |- context [g t +s+ ?z +s+ nl] => set (y := z) end.
      rewrite !app_assoc_s.
      replace (g t +s+ y +s+ nl +s+ x) with ((g t +s+ y) +s+ String "010" x) by (now rewrite app_assoc_s).
      rewrite words_app by reflexivity. f_equal. rewrite <- app_assoc_s. now rewrite words_end_nl. }
    rewrite W. f_equal. rewrite (words_wrap_all L g SG) by exact S.
    clear -G H. induction H as [|t u l us Ht Hl IH]; [reflexivity|]. cbn [flat_map]. now rewrite (G _ _ Ht), IH.
Qed.

Lemma tokens_solid_only s : Forall (fun t => solid t = true) (tokens s).
Proof. eapply Forall_impl; [|apply tokens_solid]. now intros t [St _]. Qed.

Lemma plain_shown l : forallb closed l = true -> Forall (fun t => solid t = true) l -> Forall (fun t => scontains "027" t = false) l ->
  Forall2 shown_as l (map strip l).
Proof.
  induction l as [|t l IH]; intros C S E; [constructor|]. cbn [forallb] in C. apply andb_prop in C as [C1 C2].
  inversion_clear S as [|? ? S1 S2]. inversion_clear E as [|? ? E1 E2]. cbn [map]. constructor; [|now apply IH].
  split; [now apply dsgr_conv|now apply strip_solid].
Qed.

Lemma flat_map_map {A B C} (f : A -> B) (g : B -> list C) l : flat_map g (map f l) = flat_map (fun a => g (f a)) l.
Proof. induction l as [|a l IH]; [reflexivity|]. cbn. now rewrite IH. Qed.

Lemma words_no_esc s : scontains "027" s = false -> Forall (fun t => scontains "027" t = false) (words s).
Proof.
  intros E. apply Forall_forall. intros t Ht. unfold words in Ht. apply filter_In in Ht as [Ht _]. now apply (fields_chars _ _ _ Ht).
Qed.

Lemma words_are_solid s : Forall (fun t => solid t = true) (words s).
Proof.
  revert s. apply (str_ind_len (fun s => Forall (fun t => solid t = true) (words s))). intros s IH.
  destruct (split_space s) as [S|(w & c & r & -> & W & Sc & Lr)].
  - rewrite (words_solid s S). destruct (is_empty s); repeat constructor. exact S.
  - rewrite (words_app _ _ _ Sc). apply Forall_app. split; [|now apply IH]. rewrite (words_solid w W). destruct (is_empty w); repeat constructor. exact W.
Qed.

Lemma t_reads_text s tab : text_ok s = true -> scontains "027" s = false ->
  t_reads (wrap_all L (conv nd tty) tab (tokens s)) (words (strip (until_nul s))).
Proof.
  intros T E. unfold text_ok in T. rewrite (words_strip (until_nul s)) by (now rewrite <- tokens_words).
  rewrite <- tokens_words, <- flat_map_map. apply t_reads_wrap; [|apply tokens_solid_only].
  apply plain_shown; [exact T|apply tokens_solid_only|]. rewrite tokens_words. now apply words_no_esc, until_chars.
Qed.

(** a prefix without white space is part of the first word *)
Lemma words_prefixed p a : solid p = true -> is_empty p = false ->
  exists w r, solid w = true /\ words (p +s+ a) = (p +s+ w) :: r /\ words a = words w ++ r.
Proof.
  intros P N. assert (E : forall w, solid w = true -> words (p +s+ w) = [p +s+ w]).
  { intros w W. rewrite words_solid; [|unfold solid in *; rewrite sall_app, P; exact W]. destruct p; [discriminate N|reflexivity]. }
  destruct (split_space a) as [S|(w & c & r & -> & W & Sc & Lr)].
  - exists a, []. rewrite app_nil_r. auto.
  - exists w, (words r). split; [exact W|]. rewrite <- app_assoc_s, !(words_app _ _ _ Sc). now rewrite E.
Qed.

Definition sgr (c : chr) : string := esc (String "[" (String c "m")).

Lemma bland_sgr c : is_space c = false -> c <> "\"%char -> c <> nul -> bland (sgr c) = true /\ solid (sgr c) = true.
Proof.
  intros A B C. unfold bland, sgr, esc, solid. cbn [scontains sall].
  rewrite (proj2 (Ascii.eqb_neq "\" c)) by congruence. rewrite (proj2 (Ascii.eqb_neq nul c)) by congruence. rewrite A. split; reflexivity.
Qed.

Lemma conv_prefixed c t : is_space c = false -> c <> "\"%char -> c <> nul -> closed t = true -> conv nd tty (sgr c +s+ t) = sgr c +s+ conv nd tty t.
Proof.
  intros A B C D. unfold conv, sgr, esc. cbn [String.append to_text].
  change (Ascii.eqb "027" "\") with false. change (Ascii.eqb "[" "\") with false. change (Ascii.eqb "m" "\") with false.
  rewrite (proj2 (Ascii.eqb_neq c "\")) by congruence. rewrite (to_text_conv nd tty t D). reflexivity.
Qed.

Lemma sgr_shown c t u : is_space c = false -> c <> "\"%char -> c <> nul -> closed t = true -> shown_as t u -> shown_as (sgr c +s+ t) u.
Proof.
  intros A B C D [H S]. split; [|exact S]. rewrite conv_prefixed by assumption. change u with ("" +s+ u). apply dsgr_app; [|exact H].
  intros b. reflexivity.
Qed.

(** the words of a text that starts with a font being switched *)
Lemma prefixed_shown c a : is_space c = false -> c <> "\"%char -> c <> nul -> forallb closed (words (sgr c +s+ a)) = true ->
  scontains "027" a = false ->
  exists us, Forall2 shown_as (words (sgr c +s+ a)) us /\ flat_map words us = words (strip a) /\ forallb closed (words a) = true.
Proof.
  intros A B C K E. destruct (bland_sgr c A B C) as [BL SO].
  destruct (words_prefixed (sgr c) a SO eq_refl) as (w & r & W & E1 & E2). rewrite E1 in *.
  cbn [forallb] in K. apply andb_prop in K as [K1 K2]. rewrite (closed_plain (sgr c) w BL) in K1.
  assert (CA : forallb closed (words a) = true).
  { rewrite E2, forallb_app, K2, andb_true_r, (words_solid w W). destruct (is_empty w); [reflexivity|]. cbn. now rewrite K1. }
  pose proof (words_no_esc a E) as Es. pose proof (words_are_solid a) as Ss. rewrite E2 in Es, Ss. apply Forall_app in Es as [Ew Er], Ss as [_ Sr].
  assert (Ew' : scontains "027" w = false).
  { rewrite (words_solid w W) in Ew. destruct w; [reflexivity|]. now inversion_clear Ew. }
  exists (strip w :: map strip r). split; [|split; [|exact CA]].
  - constructor; [|now apply plain_shown]. apply sgr_shown; try assumption. split; [now apply dsgr_conv|now apply strip_solid].
  - cbn [flat_map]. rewrite (words_strip a CA), E2, flat_map_app, flat_map_map. f_equal.
    rewrite (words_solid w W). destruct w; [reflexivity|]. cbn [is_empty flat_map]. now rewrite app_nil_r.
Qed.

Lemma until_nul_plain a s : scontains nul a = false -> until_nul (a +s+ s) = a +s+ until_nul s.
Proof.
  induction a as [|c a IH]; [reflexivity|]. cbn [scontains]. intros H. apply orb_false_elim in H as [H1 H2].
  cbn [String.append]. unfold until_nul in *. cbn [sfind]. rewrite H1. specialize (IH H2).
  destruct (sfind nul (a +s+ s)) as [n|]; cbn [option_map]; [cbn [stake]; now rewrite IH|now rewrite IH].
Qed.

Lemma no_backslash_strip l : scontains "\" l = false -> strip l = l.
Proof. intros H. rewrite <- (app_nil_r_s l) at 1. rewrite (strip_plain_app l "" H). apply app_nil_r_s. Qed.

Lemma t_reads_label l s tab : text_ok (in_bold tty (l +s+ " ") +s+ s) = true -> plain_label l = true -> scontains "027" s = false ->
  t_reads (wrap_all L (conv nd tty) tab (tokens (in_bold tty (l +s+ " ") +s+ s))) (words l ++ words (strip (until_nul s))).
Proof.
  intros T P E. unfold plain_label, no_escape, no_backslash, no_nul in P. rewrite !andb_true_iff, !negb_true_iff in P. destruct P as ((P1 & P2) & P3).
  assert (WL : forall x, words (strip (until_nul ((l +s+ " ") +s+ x))) = words l ++ words (strip (until_nul x))).
  { intros x. rewrite app_assoc_s, until_nul_plain by exact P3. rewrite strip_plain_app by exact P2.
    change (until_nul (" " +s+ x)) with (until_nul (" " +s+ x)). rewrite (until_nul_plain " " x) by reflexivity.
    change (strip (" " +s+ until_nul x)) with (String " " (strip (until_nul x))). now apply words_app. }
  unfold in_bold, on_tty in *. destruct tty eqn:TT.
  - assert (TK : tokens ((esc "[1m" +s+ (l +s+ " ") +s+ esc "[0m") +s+ s) = words (sgr "1" +s+ l) ++ words (sgr "0" +s+ until_nul s)).
    { rewrite tokens_words, !app_assoc_s. change (esc "[1m") with (sgr "1"). change (esc "[0m") with (sgr "0").
      rewrite until_nul_plain by reflexivity. rewrite until_nul_plain by exact P3. rewrite (until_nul_plain " ") by reflexivity.
      rewrite until_nul_plain by reflexivity. rewrite <- app_assoc_s. now apply words_app. }
    unfold text_ok in T. rewrite TK in *. rewrite forallb_app in T. apply andb_prop in T as [T1 T2].
    assert (D : (is_space "1" = false /\ "1"%char <> "\"%char /\ "1"%char <> nul) /\ (is_space "0" = false /\ "0"%char <> "\"%char /\ "0"%char <> nul))
      by (repeat split; discriminate). destruct D as ((D1 & D2 & D3) & (D4 & D5 & D6)).
    destruct (prefixed_shown "1" l D1 D2 D3 T1 P1) as (u1 & F1 & W1 & _).
    destruct (prefixed_shown "0" (until_nul s) D4 D5 D6 T2 (until_chars _ _ E)) as (u2 & F2 & W2 & _).
    rewrite <- (f_equal words (no_backslash_strip l P2)). rewrite <- W1, <- W2, <- flat_map_app. replace (conv nd true) with (conv nd tty) by (now rewrite TT). apply t_reads_wrap; [now apply Forall2_app|].
    apply Forall_app. split; apply words_are_solid.
  - cbn [String.append] in *. rewrite app_nil_r_s in *. rewrite <- WL. replace (conv nd false) with (conv nd tty) by (now rewrite TT). apply t_reads_text; [exact T|].
    now rewrite !scontains_app, P1, E.
Qed.

Lemma says_terminal_header m : no_escape (header_line m) = true ->
  exists n, (no_backslash (header_line m) = true -> n = String.length (header_line m)) /\
  says t_reads (q_header Q m) (words (header_line m) ++ words (equal_signs n)).
Proof.
  unfold no_escape, no_backslash. rewrite negb_true_iff. intros E.
  exists (text_width (m_app_name m) + (if is_empty (m_short_description m) then 0 else 3) + text_width (m_short_description m)). split.
  - rewrite negb_true_iff. unfold header_line. assert (TW : forall s, scontains "\" s = false -> text_width s = String.length s).
    { induction s as [|c s IH]; [reflexivity|]. cbn [scontains text_width String.length]. intros H. apply orb_false_elim in H as [H1 H2].
      rewrite Ascii.eqb_sym, H1. cbn [negb]. now rewrite (IH H2). }
    rewrite scontains_app. intros H. apply orb_false_elim in H as [H1 H2]. rewrite length_app_s, (TW _ H1).
    destruct (is_empty (m_short_description m)) eqn:Z0.
    + destruct (m_short_description m); [cbn; lia|discriminate Z0].
    + rewrite scontains_app in H2. apply orb_false_elim in H2 as [_ H2]. rewrite length_app_s, (TW _ H2). cbn. lia.
  - intros _ f. cbn [Q q_header text_effects fst snd]. rewrite <- !app_assoc_s, app_assoc_s.
    set (k := _ + _ + _). clearbody k.
    assert (S1 : srep k "=" = equal_signs k) by (induction k as [|k IH]; [reflexivity|]; cbn; now rewrite IH). rewrite S1.
    assert (S2 : scontains "027" (equal_signs k) = false) by (clear; induction k as [|k IH]; [reflexivity|]; exact IH).
    change (m_app_name m +s+ ?x) with (m_app_name m +s+ x).
    apply t_reads_app; apply t_reads_nl; now apply dsgr_plain.
Qed.

Ltac split_ok H := unfold no_escape in H; rewrite ?andb_true_iff, ?negb_true_iff in H.

Lemma says_terminal_section s : terminal_shows (Title s) = true -> says t_reads (q_section Q s) (terminal_words (Title s)).
Proof.
  intros H _ f. cbn [terminal_shows terminal_words] in *. split_ok H. cbn [Q q_section text_effects fst snd].
  apply (t_reads_app nl _ []); [now apply t_reads_blank|]. rewrite <- !app_assoc_s. rewrite <- upper_smap.
  apply t_reads_nl. replace (smap to_upper s) with (("" +s+ smap to_upper s) +s+ "") at 2 by (cbn [String.append]; apply app_nil_r_s).
  apply dsgr_app; [|apply dsgr_tty]. apply dsgr_app; [apply dsgr_tty|now apply dsgr_plain, no_esc_upper].
Qed.

Lemma says_terminal_subsection s : terminal_shows (Subtitle s) = true -> says t_reads (q_subsection Q s) (terminal_words (Subtitle s)).
Proof.
  intros H _ f. cbn [terminal_shows terminal_words] in *. split_ok H. cbn [Q q_subsection text_effects fst snd]. unfold in_bold.
  apply (t_reads_app nl _ []); [now apply t_reads_blank|]. apply (t_reads_app _ _ []); [apply t_reads_spaces|].
  apply t_reads_nl. replace s with ("" +s+ s +s+ "") at 2 by (cbn [String.append]; apply app_nil_r_s).
  apply dsgr_app; [apply dsgr_tty|]. apply dsgr_app; [now apply dsgr_plain|apply dsgr_tty].
Qed.

Lemma says_terminal_line s b : terminal_shows (Text s) = true -> says t_reads (q_line Q s b) (terminal_words (Text s)).
Proof.
  intros H K f. cbn [terminal_shows terminal_words] in *. split_ok H. cbn [Q q_line text_effects fst snd] in *.
  apply (t_reads_app _ _ []); [apply t_reads_par|]. apply (t_reads_app _ _ []); [apply t_reads_spaces|]. now apply t_reads_text.
Qed.

Lemma says_terminal_label l s : terminal_shows (Labelled l s) = true ->
  says t_reads (q_line Q (q_bold Q (l +s+ " ") +s+ s) false) (terminal_words (Labelled l s)).
Proof.
  intros H K f. cbn [terminal_shows terminal_words] in *. apply andb_prop in H as [H1 H2]. split_ok H2. cbn [Q q_line q_bold text_effects fst snd] in *.
  apply (t_reads_app _ _ []); [apply t_reads_par|]. apply (t_reads_app _ _ []); [apply t_reads_spaces|]. now apply t_reads_label.
Qed.

Lemma says_terminal_item k d : terminal_shows (Entry k d) = true -> says t_reads (q_item Q k d) (terminal_words (Entry k d)).
Proof.
  intros H K f. cbn [terminal_shows terminal_words] in *. split_ok H. destruct H as [E1 E2]. cbn [Q q_item text_effects fst snd] in *.
  apply andb_prop in K as [K1 K2].
  apply (t_reads_app _ _ []); [apply t_reads_par|]. apply (t_reads_app _ _ []); [apply t_reads_spaces|].
  rewrite <- app_assoc_s. apply t_reads_app; [|now apply t_reads_text].
  exists (strip k +s+ term_gap L k). split; [apply dsgr_app; [now apply dsgr_conv|apply dsgr_plain, no_esc_gap]|].
  intros x. rewrite app_assoc_s. now apply words_gap.
Qed.

Lemma t_reads_hint tab : t_reads (wrap_all L (conv nd tty) tab (tokens ("For full copyright and/or warranty information see " +s+ in_bold tty "--copyright" +s+ ".")))
  (words (strip (until_nul "For full copyright and/or warranty information see --copyright."))).
Proof.
  assert (E : words (strip (until_nul "For full copyright and/or warranty information see --copyright."))
     = flat_map words (words "For full copyright and/or warranty information see --copyright.")) by (vm_compute; reflexivity).
  rewrite E. clear E. apply t_reads_wrap; [|apply tokens_solid_only].
  assert (P : forall l, forallb closed l = true -> forallb solid l = true -> forallb (fun t => negb (scontains "027" t)) l = true -> Forall2 shown_as l (map strip l)).
  { intros l C S E. rewrite forallb_forall in S, E. apply plain_shown; [exact C|now apply Forall_forall|]. apply Forall_forall. intros t Ht. now apply negb_true_iff, E. }
  destruct tty eqn:T.
  - set (l := ["For"; "full"; "copyright"; "and/or"; "warranty"; "information"; "see"]).
    assert (TK : tokens ("For full copyright and/or warranty information see " +s+ in_bold true "--copyright" +s+ ".")
       = l ++ [(sgr "1" +s+ "--copyright") +s+ sgr "0" +s+ "."]) by (vm_compute; reflexivity).
    assert (WK : words "For full copyright and/or warranty information see --copyright." = map strip l ++ [("" +s+ "--copyright") +s+ "" +s+ "."])
      by (vm_compute; reflexivity).
    rewrite TK, WK.
    apply Forall2_app; [apply P; vm_compute; reflexivity|]. constructor; [|constructor]. split; [|vm_compute; reflexivity].
    assert (CK : conv nd tty ((sgr "1" +s+ "--copyright") +s+ sgr "0" +s+ ".") = (sgr "1" +s+ "--copyright") +s+ sgr "0" +s+ ".")
      by (rewrite T; vm_compute; reflexivity).
    rewrite CK. repeat apply dsgr_app; try (now apply dsgr_plain); intros b; reflexivity.
  - assert (TK : tokens ("For full copyright and/or warranty information see " +s+ in_bold false "--copyright" +s+ ".")
       = words "For full copyright and/or warranty information see --copyright.") by (vm_compute; reflexivity).
    assert (WK : words "For full copyright and/or warranty information see --copyright."
       = map strip (words "For full copyright and/or warranty information see --copyright.")) by (vm_compute; reflexivity).
    rewrite TK. rewrite WK at 2. apply P; vm_compute; reflexivity.
Qed.

Lemma says_terminal_hint : says t_reads (q_line Q ("For full copyright and/or warranty information see " +s+ q_bold Q "--copyright" +s+ ".") false)
  (terminal_words (Text "For full copyright and/or warranty information see --copyright.")).
Proof.
  intros _ f. exact (t_reads_app0 _ _ _ (t_reads_par f) (t_reads_app0 _ _ _ (t_reads_spaces (left_padding L)) (t_reads_hint (left_padding L)))).
Qed.

Lemma terminal_page e r adv hw : says t_reads (q_header Q (pr_info r)) hw ->
  let o := outline (given (pe_tdl e)) adv r in
  forallb terminal_shows o = true -> says t_reads (e_page Q (exports e) adv r) (hw ++ flat_map terminal_words o).
Proof.
  intros HH o HO. apply (page_says Q t_reads terminal_words terminal_shows t_reads_nil t_reads_app
    says_terminal_section says_terminal_subsection says_terminal_line says_terminal_label says_terminal_item says_terminal_hint).
  - exact HH.
  - intros _ f. apply t_reads_nil.
  - exact HO.
Qed.

Lemma terminal_version m hw : says t_reads (q_header Q m) hw -> forallb terminal_shows (version_parts m) = true ->
  says t_reads (e_seq (q_header Q m) (e_version Q m)) (hw ++ flat_map terminal_words (version_parts m)).
Proof.
  intros HH HO. apply (says_seq t_reads t_reads_app); [exact HH|].
  exact (says_version Q t_reads terminal_words terminal_shows t_reads_nil t_reads_app says_terminal_section says_terminal_line
    says_terminal_label m HO).
Qed.

Lemma terminal_short m hw : says t_reads (q_header Q m) hw -> forallb terminal_shows (map Text (synopsis_texts m)) = true ->
  says t_reads (e_seq (q_header Q m) (e_seq (e_when (nonempty (m_synopsis m)) (e_map (e_synopsis Q) (m_synopsis m)))
     (q_line Q ("Try -h or --help for more information." +s+ nl) true)))
    (hw ++ flat_map terminal_words (map Text (synopsis_texts m) ++ [Text "Try -h or --help for more information."])).
Proof.
  intros HH HO. apply (says_seq t_reads t_reads_app); [exact HH|]. rewrite flat_map_app. apply (says_seq t_reads t_reads_app).
  - unfold synopsis_texts in *. rewrite map_map in *. revert HO. generalize (m_synopsis m).
    intros l HO K. replace (if nonempty l then e_map (e_synopsis Q) l else e_ret) with (e_map (e_synopsis Q) l) in K by (destruct l; reflexivity).
    replace (e_when (nonempty l) (e_map (e_synopsis Q) l)) with (e_map (e_synopsis Q) l) in * by (destruct l; reflexivity).
    revert K. change (says t_reads (e_map (e_synopsis Q) l) (flat_map terminal_words (map (fun x => Text (bold (to_blank x) +s+ from_blank x)) l))).
    rewrite flat_map_map. apply (says_map t_reads t_reads_nil t_reads_app). intros s Hs.
    unfold e_synopsis. rewrite synopsis_line_eq. destruct (has_blank s); [|intros X; discriminate X]. apply says_terminal_line.
    rewrite forallb_mapped in HO. rewrite forallb_forall in HO. exact (HO s Hs).
  - pose proof (says_terminal_line ("Try -h or --help for more information." +s+ nl) true eq_refl) as X. exact X.
Qed.
End terminal.

Lemma help_page_says e r adv out : pr_format r = FHelp adv -> page e r = Ret out -> no_escape (header_line (pr_info r)) = true ->
  forallb terminal_shows (outline (given (pe_tdl e)) adv r) = true ->
  exists n, (no_backslash (header_line (pr_info r)) = true -> n = String.length (header_line (pr_info r))) /\
  words (drop_sgr out) = words (header_line (pr_info r)) ++ words (equal_signs n)
    ++ flat_map terminal_words (outline (given (pe_tdl e)) adv r).
Proof.
  intros HF HP HE HO. pose proof (help_page_eff e r adv HF) as X. cbn zeta in X.
  destruct (fst (e_page _ _ _ _)) eqn:OK; [|rewrite HP in X; discriminate]. rewrite X in HP. apply Ret_inj in HP. subst out.
  destruct (says_terminal_header (pe_ndebug e) (pe_tty e) (pe_width e) (pr_info r) HE) as (n & Hn & HH). exists n. split; [exact Hn|].
  pose proof (terminal_page (pe_ndebug e) (pe_tty e) (pe_width e) e r adv _ HH HO OK false) as Y.
  apply t_reads_end in Y. rewrite <- app_assoc in Y. exact Y.
Qed.

Lemma version_page_says e r out : pr_format r = FVersion -> page e r = Ret out -> no_escape (header_line (pr_info r)) = true ->
  forallb terminal_shows (version_parts (pr_info r)) = true ->
  exists n, (no_backslash (header_line (pr_info r)) = true -> n = String.length (header_line (pr_info r))) /\
  words (drop_sgr out) = words (header_line (pr_info r)) ++ words (equal_signs n) ++ flat_map terminal_words (version_parts (pr_info r)).
Proof.
  intros HF HP HE HO. unfold page in HP. rewrite HF in HP. set (L := layout_of (pe_width e)) in *. set (m := pr_info r) in *.
  pose proof (text_implements (pe_ndebug e) (pe_tty e) L) as HI. set (Q := text_effects (pe_ndebug e) (pe_tty e) L) in *.
  assert (D : does mk_text (version_page (pe_ndebug e) (pe_tty e) L m) (e_seq (q_header Q m) (e_version Q m))).
  { unfold version_page. apply does_bind; [apply HI|]. now apply does_version. }
  assert (K : fst (e_seq (q_header Q m) (e_version Q m)) = true).
  { apply (page_of_eff_iff mk_text t_out (version_page (pe_ndebug e) (pe_tty e) L m) _ false (fun _ _ => eq_refl) D). exists out. exact HP. }
  pose proof (page_of_eff mk_text t_out _ _ false (fun _ _ => eq_refl) D K) as X. change (mk_text "" false) with text_init in X.
  rewrite HP in X. apply Ret_inj in X. subst out.
  destruct (says_terminal_header (pe_ndebug e) (pe_tty e) (pe_width e) m HE) as (n & Hn & HH). exists n. split; [exact Hn|].
  pose proof (terminal_version (pe_ndebug e) (pe_tty e) (pe_width e) m _ HH HO K false) as Y.
  apply t_reads_end in Y. rewrite <- app_assoc in Y. exact Y.
Qed.

Lemma short_page_says e r out : pr_format r = FShortHelp -> page e r = Ret out -> no_escape (header_line (pr_info r)) = true ->
  forallb no_escape (synopsis_texts (pr_info r)) = true ->
  exists n, (no_backslash (header_line (pr_info r)) = true -> n = String.length (header_line (pr_info r))) /\
  words (drop_sgr out) = words (header_line (pr_info r)) ++ words (equal_signs n)
    ++ flat_map terminal_words (map Text (synopsis_texts (pr_info r)) ++ [Text "Try -h or --help for more information."]).
Proof.
  intros HF HP HE HO. unfold page in HP. rewrite HF in HP. set (L := layout_of (pe_width e)) in *. set (m := pr_info r) in *.
  pose proof (text_implements (pe_ndebug e) (pe_tty e) L) as HI. set (Q := text_effects (pe_ndebug e) (pe_tty e) L) in *.
  set (E := e_seq (q_header Q m) (e_seq (e_when (nonempty (m_synopsis m)) (e_map (e_synopsis Q) (m_synopsis m)))
     (q_line Q ("Try -h or --help for more information." +s+ nl) true))).
  assert (D : does mk_text (short_help_page (pe_ndebug e) (pe_tty e) L m) E).
  { unfold short_help_page. destruct HI as (H1 & H2 & H3 & H4 & H5 & H6 & H7). apply does_bind; [apply H1|]. apply does_bind; [|apply H4].
    apply (does_when mk_text (nonempty (m_synopsis m))). apply does_map. intros s _. apply does_synopsis. repeat split; assumption. }
  assert (K : fst E = true).
  { apply (page_of_eff_iff mk_text t_out (short_help_page (pe_ndebug e) (pe_tty e) L m) _ false (fun _ _ => eq_refl) D). exists out. exact HP. }
  pose proof (page_of_eff mk_text t_out _ _ false (fun _ _ => eq_refl) D K) as X. change (mk_text "" false) with text_init in X.
  rewrite HP in X. apply Ret_inj in X. subst out.
  destruct (says_terminal_header (pe_ndebug e) (pe_tty e) (pe_width e) m HE) as (n & Hn & HH). exists n. split; [exact Hn|].
  assert (HO' : forallb terminal_shows (map Text (synopsis_texts m)) = true) by (rewrite forallb_mapped; exact HO).
  pose proof (terminal_short (pe_ndebug e) (pe_tty e) (pe_width e) m _ HH HO' K false) as Y.
  apply t_reads_end in Y. rewrite <- app_assoc in Y. exact Y.
Qed.

(** ** HTML *)

Definition h_reads (a : string) (ws : list string) : Prop :=
  exists a', dtag a a' /\ scontains "&" a' = false /\ forall x, words (a' +s+ x) = ws ++ words x.

Lemma h_reads_nil : h_reads "" [].
Proof. exists "". split; [intros b; reflexivity|]. split; reflexivity. Qed.
Lemma h_reads_app a b u v : h_reads a u -> h_reads b v -> h_reads (a +s+ b) (u ++ v).
Proof.
  intros (a' & A & NA & WA) (b' & B & NB & WB). exists (a' +s+ b'). split; [now apply dtag_app|]. split; [now rewrite scontains_app, NA|].
  intros x. now rewrite app_assoc_s, WA, WB, app_assoc.
Qed.
Lemma h_reads_app0 a b v : h_reads a [] -> h_reads b v -> h_reads (a +s+ b) v.
Proof. exact (h_reads_app a b [] v). Qed.
Lemma h_reads_app1 a b u : h_reads a u -> h_reads b [] -> h_reads (a +s+ b) u.
Proof. intros A B. rewrite <- (app_nil_r u). now apply h_reads_app. Qed.
Lemma h_reads_end a ws : h_reads a ws -> words (browser_shows a) = ws.
Proof.
  intros (a' & A & N & W). rewrite (browser_of a a' A N). specialize (W ""). rewrite app_nil_r_s in W. rewrite W.
  change (words "") with (@nil string). apply app_nil_r.
Qed.
(** a text between tags, followed by a line break *)
Lemma h_reads_nl a a' : dtag a a' -> scontains "&" a' = false -> h_reads (a +s+ nl) (words a').
Proof.
  intros A N. exists (a' +s+ nl). split; [apply dtag_app; [exact A|now apply dtag_plain]|]. split; [now rewrite scontains_app, N|].
  intros x. rewrite app_assoc_s. now apply words_app.
Qed.

Lemma dtag_between p q a a' : dtag p "" -> dtag q "" -> dtag a a' -> dtag (p +s+ a +s+ q) a'.
Proof. intros P Q A. replace a' with ("" +s+ a' +s+ "") by (cbn [String.append]; apply app_nil_r_s). now apply dtag_app, dtag_app. Qed.

Section browser.
Variable nd : bool.
Let Q := html_effects nd.

Lemma says_flags (e : eff (bool * bool)) : In e [e_close_list; e_close_p; e_open_p; e_open_list; e_put ("<br>" +s+ nl)] -> says h_reads e [].
Proof.
  intros H _ f. destruct (blank_flags e H f) as (b & D & B). exists b. split; [exact D|]. split; [now apply blank_amp|].
  intros x. now apply words_blank.
Qed.

Lemma html_free_iff s : html_free s = true <-> scontains "<" s = false /\ scontains "&" s = false.
Proof. unfold html_free. now rewrite andb_true_iff, !negb_true_iff. Qed.

Lemma says_html s k p q : html_free s = true -> (forall t, k t = (p +s+ t +s+ q) +s+ nl) -> dtag p "" -> dtag q "" ->
  says h_reads (e_html nd s k) (words (strip s)).
Proof.
  intros H K P Q0 OK f. apply html_free_iff in H as [H1 H2]. cbn [e_html fst snd] in *. rewrite K.
  apply h_reads_nl; [|apply strip_chars; [discriminate|exact H2]]. apply dtag_between; [exact P|exact Q0|now apply dtag_hconv].
Qed.

Lemma says_seq0 (a b : eff (bool * bool)) v : says h_reads a [] -> says h_reads b v -> says h_reads (e_seq a b) v.
Proof. exact (says_seq h_reads h_reads_app a b [] v). Qed.
Lemma says_seq1 (a b : eff (bool * bool)) u : says h_reads a u -> says h_reads b [] -> says h_reads (e_seq a b) u.
Proof. intros A B. rewrite <- (app_nil_r u). now apply (says_seq h_reads h_reads_app). Qed.

Ltac flag := apply says_flags; cbn [In]; tauto.
Ltac tag := intros ?; reflexivity.

Lemma says_browser_section s : browser_can_show (Title s) = true -> says h_reads (q_section Q s) (browser_words (Title s)).
Proof.
  intros H. cbn [browser_words browser_can_show Q q_section html_effects] in *. apply says_seq0; [flag|]. apply says_seq0; [flag|].
  apply (says_html s _ "<h2>" "</h2>"); [exact H|intros t; now rewrite !app_assoc_s|tag|tag].
Qed.
Lemma says_browser_subsection s : browser_can_show (Subtitle s) = true -> says h_reads (q_subsection Q s) (browser_words (Subtitle s)).
Proof.
  intros H. cbn [browser_words browser_can_show Q q_subsection html_effects] in *. apply says_seq0; [flag|]. apply says_seq0; [flag|].
  apply (says_html s _ "<h3>" "</h3>"); [exact H|intros t; now rewrite !app_assoc_s|tag|tag].
Qed.

Lemma says_browser_item k d : browser_can_show (Entry k d) = true -> says h_reads (q_item Q k d) (browser_words (Entry k d)).
Proof.
  intros H. cbn [browser_words browser_can_show Q q_item html_effects] in *. apply andb_prop in H as [H1 H2].
  apply says_seq0; [flag|]. apply says_seq0; [flag|]. apply (says_seq h_reads h_reads_app).
  - apply (says_html k _ "<dt>" "</dt>"); [exact H1|intros t; now rewrite !app_assoc_s|tag|tag].
  - apply (says_html d _ "<dd>" "</dd>"); [exact H2|intros t; now rewrite !app_assoc_s|tag|tag].
Qed.

(** a text printed as a line, given what a browser shows of it *)
Lemma says_html_line s b ws : says h_reads (e_html nd s (fun t => t +s+ nl)) ws -> says h_reads (q_line Q s b) ws.
Proof.
  intros H. cbn [Q q_line html_effects]. apply says_seq0; [flag|]. apply says_seq0; [flag|]. apply says_seq1; [exact H|]. destruct b; flag.
Qed.

Lemma says_browser_line s b : browser_can_show (Text s) = true -> says h_reads (q_line Q s b) (browser_words (Text s)).
Proof.
  intros H. apply says_html_line. apply (says_html s _ "" ""); [exact H|intros t; now rewrite app_nil_r_s|tag|tag].
Qed.

Lemma html_from_plain p s tags : scontains "\" p = false ->
  html_from nd tags (p +s+ s) = lift_res (html_from nd tags s) (fun r => Ret (p +s+ r)).
Proof.
  induction p as [|c p IH]; intros H; [cbn; now destruct (html_from nd tags s)|]. cbn [scontains] in H. apply orb_false_elim in H as [H1 H2].
  cbn [String.append html_from]. rewrite Ascii.eqb_sym, H1, (IH H2). destruct (html_from nd tags s); reflexivity.
Qed.

Lemma hconv_plain p s : scontains "\" p = false -> hok nd (p +s+ s) = true -> hok nd s = true /\ hconv nd (p +s+ s) = p +s+ hconv nd s.
Proof.
  unfold hok, hconv, to_html. intros H. rewrite (html_from_plain p s [] H). destruct (html_from nd [] s); cbn; try discriminate. auto.
Qed.

Lemma dtag_strong l : scontains "<" l = false -> dtag ("<strong>" +s+ l +s+ "</strong>") l.
Proof. intros H. apply dtag_between; [tag|tag|now apply dtag_plain]. Qed.

Lemma says_browser_label l s : browser_can_show (Labelled l s) = true ->
  says h_reads (q_line Q (q_bold Q (l +s+ " ") +s+ s) false) (browser_words (Labelled l s)).
Proof.
  intros H. apply says_html_line. cbn [browser_words browser_can_show Q q_bold html_effects] in *. rewrite !andb_true_iff in H. destruct H as ((B & H1) & H2).
  unfold no_backslash in B. rewrite negb_true_iff in B.
  apply html_free_iff in H1 as [L1 L2], H2 as [S1 S2]. intros OK f. cbn [e_html fst snd] in *.
  destruct (hconv_plain ("<strong>" +s+ (l +s+ " ") +s+ "</strong>") s) as [O E]; [now rewrite !scontains_app, B|exact OK|].
  rewrite E. rewrite <- (words_app l " " (strip s)) by reflexivity.
  change (l +s+ String " " (strip s)) with (l +s+ " " +s+ strip s). rewrite <- (app_assoc_s l " ").
  apply h_reads_nl.
  - apply dtag_app; [|now apply dtag_hconv]. apply dtag_strong. now rewrite scontains_app, L1.
  - rewrite !scontains_app, L2. apply strip_chars; [discriminate|exact S2].
Qed.

Lemma says_browser_hint : says h_reads (q_line Q ("For full copyright and/or warranty information see " +s+ q_bold Q "--copyright" +s+ ".") false)
  (browser_words (Text "For full copyright and/or warranty information see --copyright.")).
Proof.
  apply says_html_line. cbn [browser_words Q q_bold html_effects]. intros OK f. cbn [e_html fst snd] in *.
  replace (hconv nd _) with ("For full copyright and/or warranty information see " +s+ ("<strong>" +s+ "--copyright" +s+ "</strong>") +s+ ".") by (vm_compute; reflexivity).
  replace (strip _) with ("For full copyright and/or warranty information see " +s+ "--copyright" +s+ ".") by (vm_compute; reflexivity).
  apply h_reads_nl; [|vm_compute; reflexivity]. apply dtag_app; [now apply dtag_plain|]. apply dtag_app; [now apply dtag_strong|now apply dtag_plain].
Qed.

Lemma says_browser_footer : says h_reads (q_footer Q) [].
Proof.
  cbn [Q q_footer html_effects]. apply says_seq0; [flag|]. intros _ f. cbn [e_put fst snd]. exists "". split; [tag|]. split; reflexivity.
Qed.

(** the part of the header after the start of the body *)
Definition body_header (m : meta) : eff (bool * bool) :=
  e_seq (e_html nd (m_app_name m) (fun a => "<h1>" +s+ a +s+ "</h1>" +s+ nl))
        (e_html nd (m_short_description m) (fun d => "<div>" +s+ d +s+ "</div>" +s+ nl)).
Definition body_effects : @effects (bool * bool) :=
  {| q_header := body_header; q_section := q_section Q; q_subsection := q_subsection Q; q_line := q_line Q; q_item := q_item Q;
     q_footer := q_footer Q; q_bold := q_bold Q |}.
Definition html_head (m : meta) : string :=
  "<!DOCTYPE html PUBLIC ""-//W3C//DTD HTML 4.01//EN"" "
            +s+ "http://www.w3.org/TR/html4/strict.dtd"">" +s+ nl
            +s+ "<html lang=""en"">" +s+ nl
            +s+ "<head>" +s+ nl
            +s+ "<meta http-equiv=""content-type"" content=""text/html; charset=utf-8"">" +s+ nl
            +s+ "<title>" +s+ xml_escape (m_app_name m) +s+ " &mdash; " +s+ xml_escape (m_short_description m) +s+ "</title>" +s+ nl
            +s+ "</head>" +s+ nl
            +s+ "<body>" +s+ nl.

Lemma page_head ex adv r f : fst (e_page Q ex adv r) = fst (e_page body_effects ex adv r) /\
  fst (snd (e_page Q ex adv r) f) = html_head (pr_info r) +s+ fst (snd (e_page body_effects ex adv r) f).
Proof.
  split; [reflexivity|]. unfold e_page at 1, e_before at 1.
  set (rest := e_seq (q_section Q "Options") _).
  set (rest2 := e_seq (e_when _ _) (e_seq _ (e_seq _ _))).
  assert (E : forall h (x y z : eff (bool * bool)) g, fst (snd (e_seq (e_seq (e_seq (e_put h) x) y) z) g) = h +s+ fst (snd (e_seq (e_seq x y) z) g)).
  { intros h x y z g. cbn [e_seq e_put fst snd]. now rewrite !app_assoc_s. }
  exact (E (html_head (pr_info r)) (body_header (pr_info r)) rest2 rest f).
Qed.

Lemma browser_page e r adv : html_free (m_app_name (pr_info r)) = true -> html_free (m_short_description (pr_info r)) = true ->
  forallb browser_can_show (outline (given (pe_tdl e)) adv r) = true ->
  says h_reads (e_page body_effects (exports e) adv r)
    ((words (strip (m_app_name (pr_info r))) ++ words (strip (m_short_description (pr_info r))))
     ++ flat_map browser_words (outline (given (pe_tdl e)) adv r)).
Proof.
  intros A B HO. apply (page_says body_effects h_reads browser_words browser_can_show h_reads_nil h_reads_app
    says_browser_section says_browser_subsection says_browser_line says_browser_label says_browser_item says_browser_hint); [|exact says_browser_footer|exact HO].
  apply (says_seq h_reads h_reads_app).
  - apply (says_html (m_app_name (pr_info r)) _ "<h1>" "</h1>"); [exact A|intros t; now rewrite !app_assoc_s|tag|tag].
  - apply (says_html (m_short_description (pr_info r)) _ "<div>" "</div>"); [exact B|intros t; now rewrite !app_assoc_s|tag|tag].
Qed.

End browser.

Lemma html_page_says e r out : pr_format r = FHtml -> page e r = Ret out ->
  html_free (m_app_name (pr_info r)) = true -> html_free (m_short_description (pr_info r)) = true ->
  forallb browser_can_show (outline (given (pe_tdl e)) false r) = true ->
  exists body, out = html_head (pr_info r) +s+ body
  /\ words (browser_shows body) = words (strip (m_app_name (pr_info r))) ++ words (strip (m_short_description (pr_info r)))
       ++ flat_map browser_words (outline (given (pe_tdl e)) false r).
Proof.
  intros HF HP A B HO. pose proof (html_page_eff e r HF) as X. cbn zeta in X.
  destruct (fst (e_page _ _ _ _)) eqn:OK; [|rewrite HP in X; discriminate]. rewrite X in HP. apply Ret_inj in HP. subst out.
  destruct (page_head (pe_ndebug e) (exports e) false r (false, false)) as [E1 E2]. rewrite E1 in OK. rewrite E2.
  eexists. split; [reflexivity|]. rewrite app_assoc. apply h_reads_end. now apply browser_page.
Qed.

(** ** Man pages *)

Definition m_reads (a : string) (ws : list string) : Prop := forall x, roff_words (a +s+ x) = ws ++ roff_words x.

Lemma m_reads_nil : m_reads "" [].
Proof. intros x. reflexivity. Qed.
Lemma m_reads_app a b u v : m_reads a u -> m_reads b v -> m_reads (a +s+ b) (u ++ v).
Proof. intros A B x. now rewrite app_assoc_s, A, B, app_assoc. Qed.
Lemma m_reads_app0 a b v : m_reads a [] -> m_reads b v -> m_reads (a +s+ b) v.
Proof. exact (m_reads_app a b [] v). Qed.

Lemma m_reads_line a : one_line a = true -> m_reads (a +s+ nl) (words (roff (if is_request a then title_of a else a))).
Proof. intros H x. unfold roff_words. rewrite app_assoc_s. now rewrite (lines_app a x H). Qed.
Lemma m_reads_text a : one_line a = true -> is_request a = false -> m_reads (a +s+ nl) (words (roff a)).
Proof. intros H R. pose proof (m_reads_line a H) as X. now rewrite R in X. Qed.
Lemma m_reads_title t s : t = ".SH " \/ t = ".SS " -> one_line s = true -> m_reads (t +s+ s +s+ nl) (words (roff s)).
Proof.
  intros T H. rewrite <- app_assoc_s. pose proof (m_reads_line (t +s+ s)) as X. rewrite (title_line t s T) in X. apply X.
  rewrite one_line_app, H. destruct T as [-> | ->]; reflexivity.
Qed.
Lemma m_reads_request a : one_line a = true -> is_request a = true -> title_of a = "" -> m_reads (a +s+ nl) [].
Proof. intros H R T. pose proof (m_reads_line a H) as X. rewrite R, T in X. exact X. Qed.

Lemma roff_plain a b : scontains "\" a = false -> roff (a +s+ b) = a +s+ roff b.
Proof.
  induction a as [|c a IH]; [reflexivity|]. cbn [scontains]. intros H. apply orb_false_elim in H as [H1 H2].
  cbn [String.append roff]. rewrite Ascii.eqb_sym, H1. now rewrite (IH H2).
Qed.

Section manual.
Let Q := man_effects.

Lemma says_manual_section s : manual_shows (Title s) = true -> says m_reads (q_section Q s) (manual_words (Title s)).
Proof.
  intros H _ f. cbn [manual_shows manual_words Q q_section man_effects fst snd] in *. rewrite <- upper_smap.
  apply m_reads_title; [now left|now apply upper_one_line].
Qed.
Lemma says_manual_subsection s : manual_shows (Subtitle s) = true -> says m_reads (q_subsection Q s) (manual_words (Subtitle s)).
Proof. intros H _ f. cbn [manual_shows manual_words Q q_subsection man_effects fst snd] in *. apply m_reads_title; [now right|exact H]. Qed.

Lemma m_reads_before (f b : bool) : m_reads (if f then "" else if b then ".sp" +s+ nl else ".br" +s+ nl) [].
Proof. destruct f; [apply m_reads_nil|]. destruct b; apply m_reads_request; reflexivity. Qed.

Lemma says_manual_line s b : manual_shows (Text s) = true -> says m_reads (q_line Q s b) (manual_words (Text s)).
Proof.
  intros H _ f. cbn [manual_shows manual_words Q q_line man_effects fst snd] in *. apply andb_prop in H as [H1 H2]. rewrite negb_true_iff in H2.
  apply m_reads_app0; [apply m_reads_before|now apply m_reads_text].
Qed.

Lemma says_manual_label l s : manual_shows (Labelled l s) = true ->
  says m_reads (q_line Q (q_bold Q (l +s+ " ") +s+ s) false) (manual_words (Labelled l s)).
Proof.
  intros H _ f. cbn [manual_shows manual_words Q q_line q_bold man_effects fst snd] in *. rewrite !andb_true_iff in H. destruct H as ((B & H1) & H2).
  unfold no_backslash in B. rewrite negb_true_iff in B.
  apply m_reads_app0; [apply (m_reads_before f false)|].
  replace (words l ++ words (roff s)) with (words (roff (("\fB" +s+ (l +s+ " ") +s+ "\fR") +s+ s))).
  - apply m_reads_text; [|reflexivity]. now rewrite !one_line_app, H1, H2.
  - rewrite !app_assoc_s. change (roff ("\fB" +s+ ?x)) with (roff x). rewrite (roff_plain l _ B).
    change (roff (" " +s+ "\fR" +s+ s)) with (String " " (roff s)). now apply words_app.
Qed.

Lemma says_manual_item k d : manual_shows (Entry k d) = true -> says m_reads (q_item Q k d) (manual_words (Entry k d)).
Proof.
  intros H _ f. cbn [manual_shows manual_words Q q_item man_effects fst snd] in *. rewrite !andb_true_iff, !negb_true_iff in H.
  destruct H as (((K & D) & RK) & RD). rewrite <- (app_assoc_s ".TP"). apply m_reads_app0; [now apply m_reads_request|].
  rewrite <- app_assoc_s. apply m_reads_app; now apply m_reads_text.
Qed.

Lemma says_manual_hint : says m_reads (q_line Q ("For full copyright and/or warranty information see " +s+ q_bold Q "--copyright" +s+ ".") false)
  (manual_words (Text "For full copyright and/or warranty information see --copyright.")).
Proof.
  intros _ f. cbn [manual_words Q q_line q_bold man_effects fst snd]. apply m_reads_app0; [apply (m_reads_before f false)|].
  replace (roff _) with (roff ("For full copyright and/or warranty information see " +s+ ("\fB" +s+ "--copyright" +s+ "\fR") +s+ ".")) by (vm_compute; reflexivity).
  apply m_reads_text; vm_compute; reflexivity.
Qed.

Lemma lower_smap s : smap to_lower s = lower_case s.
Proof.
  unfold lower_case. induction s as [|c s IH]; [reflexivity|]. cbn [smap chars list_ascii_of_string map of_chars string_of_list_ascii].
  unfold chars, of_chars in IH. rewrite IH. f_equal. unfold to_lower, code. destruct (is_upper c); [|reflexivity].
  unfold ascii_of_nat, nat_of_ascii. f_equal. lia.
Qed.

Lemma header_text m : ".TH " +s+ smap to_upper (m_app_name m) +s+ " " +s+ Z_to_string (Z.of_N (m_man_page_section m))
           +s+ " """ +s+ m_date m +s+ """ """ +s+ smap to_lower (m_app_name m) +s+ " " +s+ m_version m +s+ """ """
           +s+ m_man_page_title m +s+ """" = manual_header m.
Proof.
  unfold manual_header, in_quotes, nat_to_string. rewrite upper_smap, lower_smap, N_nat_Z, !app_assoc_s. reflexivity.
Qed.

Lemma says_manual_header m : one_line (manual_header m) = true -> one_line (m_app_name m) = true -> is_request (m_app_name m) = false ->
  m_app_name m <> "" -> one_line (m_short_description m) = true ->
  says m_reads (q_header Q m) ("NAME" :: words (roff (m_app_name m +s+ " \- " +s+ m_short_description m))).
Proof.
  intros H A RA NA D _ f. cbn [Q q_header man_effects fst snd].
  match goal with |- m_reads ?x _ => replace x with ((manual_header m +s+ nl) +s+ (".SH " +s+ "NAME" +s+ nl) +s+ ((m_app_name m +s+ " \- " +s+ m_short_description m) +s+ nl)) end.
  2:{ rewrite <- header_text, !app_assoc_s. reflexivity. }
  apply m_reads_app0; [apply m_reads_request; [exact H|reflexivity|reflexivity]|].
  apply (m_reads_app _ _ ["NAME"]); [apply (m_reads_title ".SH " "NAME"); [now left|reflexivity]|].
  apply m_reads_text; [now rewrite !one_line_app, A, D|]. destruct (m_app_name m); [congruence|exact RA].
Qed.

Lemma manual_page e r adv hw : says m_reads (q_header Q (pr_info r)) hw ->
  forallb manual_shows (outline (given (pe_tdl e)) adv r) = true ->
  says m_reads (e_page Q (exports e) adv r) (hw ++ flat_map manual_words (outline (given (pe_tdl e)) adv r)).
Proof.
  intros HH HO. apply (page_says Q m_reads manual_words manual_shows m_reads_nil m_reads_app
    says_manual_section says_manual_subsection says_manual_line says_manual_label says_manual_item says_manual_hint); [exact HH| |exact HO].
  intros _ f. exact m_reads_nil.
Qed.
End manual.

Lemma man_page_says e r out : pr_format r = FMan -> page e r = Ret out ->
  forallb one_line [m_app_name (pr_info r); m_short_description (pr_info r); m_date (pr_info r); m_version (pr_info r); m_man_page_title (pr_info r)] = true ->
  m_app_name (pr_info r) <> "" -> is_request (m_app_name (pr_info r)) = false ->
  forallb manual_shows (outline (given (pe_tdl e)) false r) = true ->
  (exists rest, out = manual_header (pr_info r) +s+ nl +s+ rest) /\
  roff_words out = "NAME" :: words (roff (m_app_name (pr_info r) +s+ " \- " +s+ m_short_description (pr_info r)))
    ++ flat_map manual_words (outline (given (pe_tdl e)) false r).
Proof.
  intros HF HP HL NA RA HO. pose proof (man_page_eff e r HF) as X. cbn zeta in X.
  destruct (fst (e_page _ _ _ _)) eqn:OK; [|rewrite HP in X; discriminate]. rewrite X in HP. apply Ret_inj in HP.
  set (m := pr_info r) in *. cbn [forallb] in HL. rewrite !andb_true_iff in HL. destruct HL as (L1 & L2 & L3 & L4 & L5 & _).
  assert (H : one_line (manual_header m) = true).
  { rewrite <- header_text. rewrite !one_line_app, L3, L4, L5, (upper_one_line _ L1).
    assert (A : forall s, one_line s = true -> one_line (smap to_lower s) = true).
    { intros s. induction s as [|c s IH]; [reflexivity|]. cbn [one_line sall smap]. intros K. apply andb_prop in K as [Hc K].
      fold (one_line (smap to_lower s)). rewrite (IH K), andb_true_r. revert Hc. clear. destruct c as [[] [] [] [] [] [] [] []]; vm_compute; auto. }
    rewrite (A _ L1). assert (D : one_line (Z_to_string (Z.of_N (m_man_page_section m))) = true).
    { unfold Z_to_string, DecimalString.NilZero.string_of_int, DecimalString.NilZero.string_of_uint.
      assert (U : forall d, one_line (DecimalString.NilEmpty.string_of_uint d) = true)
        by (induction d as [|d IH|d IH|d IH|d IH|d IH|d IH|d IH|d IH|d IH|d IH]; cbn; auto).
      destruct (Z.to_int _) as [d|d]; destruct d; try reflexivity; apply U. }
    rewrite D. reflexivity. }
  pose proof (manual_page e r false _ (says_manual_header m H L1 RA NA L2) HO OK true) as Y. rewrite HP in Y. split.
  - rewrite <- HP. unfold e_page, e_before. cbn [e_seq man_effects q_header fst snd]. fold m.
    eexists. rewrite <- header_text, !app_assoc_s. reflexivity.
  - specialize (Y ""). rewrite app_nil_r_s in Y. rewrite Y. change (roff_words "") with (@nil string). now rewrite app_nil_r.
Qed.

(** ** The copyright page *)

Lemma srep_equal n : srep n "=" = equal_signs n.
Proof. induction n as [|n IH]; [reflexivity|]. cbn. now rewrite IH. Qed.
Lemma srep_minus n : srep n "-" = minus_signs n.
Proof. induction n as [|n IH]; [reflexivity|]. cbn. now rewrite IH. Qed.
Lemma no_esc_equal n : scontains "027" (equal_signs n) = false.
Proof. induction n as [|n IH]; [reflexivity|]. exact IH. Qed.
Lemma no_esc_minus n : scontains "027" (minus_signs n) = false.
Proof. induction n as [|n IH]; [reflexivity|]. exact IH. Qed.

Lemma dsgr_bold tty s : scontains "027" s = false -> dsgr (in_bold tty s) s.
Proof.
  intros H. unfold in_bold. replace s with ("" +s+ s +s+ "") at 2 by (cbn [String.append]; apply app_nil_r_s).
  apply dsgr_app; [apply dsgr_tty|]. apply dsgr_app; [now apply dsgr_plain|apply dsgr_tty].
Qed.

Lemma copyright_page_says e r : pr_format r = FCopyright ->
  forallb no_escape [m_app_name (pr_info r); m_long_copyright (pr_info r); m_short_copyright (pr_info r); pe_license e] = true ->
  exists out, page e r = Ret out /\ drop_sgr out = copyright_text (pr_info r) (pe_license e).
Proof.
  intros HF HE. set (m := pr_info r) in *. cbn [forallb] in HE. unfold no_escape in HE. rewrite !andb_true_iff, !negb_true_iff in HE. destruct HE as (E1 & E2 & E3 & E4 & _).
  unfold page. rewrite HF. unfold copyright_page, put_text, modify, bind, printed, text_init. cbn [fst snd t_out t_par lift_res]. eexists. split; [reflexivity|]. fold m.
  assert (P : forall s, scontains "027" s = false -> dsgr s s) by exact dsgr_plain.
  assert (B : forall x, scontains "027" x = false -> dsgr (srep 80 "=" +s+ nl +s+ in_bold (pe_tty e) (x +s+ nl) +s+ srep 80 "-" +s+ nl) (between_rules x)).
  { intros x Hx. unfold between_rules. rewrite srep_equal, srep_minus. apply dsgr_app; [apply P, no_esc_equal|]. apply dsgr_app; [now apply P|].
    rewrite <- (app_assoc_s x). apply dsgr_app; [apply dsgr_bold; now rewrite scontains_app, Hx|]. apply dsgr_app; [apply P, no_esc_minus|now apply P]. }
  assert (D1 : dsgr (srep 80 "=" +s+ nl +s+ in_bold (pe_tty e) ("Copyright information for " +s+ m_app_name m +s+ ":" +s+ nl) +s+ srep 80 "-" +s+ nl)
     (between_rules ("Copyright information for " +s+ m_app_name m +s+ ":"))).
  { specialize (B ("Copyright information for " +s+ m_app_name m +s+ ":")). rewrite !app_assoc_s in B. apply B. now rewrite !scontains_app, E1. }
  pose proof (B "This program contains SeqAn code licensed under the following terms:" eq_refl) as D3. clear B.
  assert (D4 : dsgr (pe_license e +s+ nl) (pe_license e +s+ nl)) by (apply P; now rewrite scontains_app, E4).
  assert (Z0 : dsgr (on_tty (pe_tty e) (esc "[0m")) "") by exact (dsgr_tty (pe_tty e) "0").
  apply dsgr_end. unfold copyright_text.
  match goal with |- context [if ?x then on_tty ?t ?u +s+ ?v else ?w] => set (body := if x then on_tty t u +s+ v else w) end.
  match goal with |- context [if negb (is_empty ?x) then ?x +s+ nl else ?w] => set (body' := if negb (is_empty x) then x +s+ nl else w) end.
  assert (D2 : dsgr body body').
  { subst body body'. destruct (negb (is_empty (m_long_copyright m))).
    - change (dsgr (on_tty (pe_tty e) (esc "[0m") +s+ m_long_copyright m +s+ nl) ("" +s+ m_long_copyright m +s+ nl)).
      apply dsgr_app; [exact Z0|]. apply P. now rewrite scontains_app, E2.
    - destruct (negb (is_empty (m_short_copyright m))).
      + match goal with |- dsgr (?a +s+ ?b) ?c => replace c with ((m_app_name m +s+ " full copyright information not available. "
           +s+ "Displaying short copyright information instead:" +s+ nl) +s+ b) by (now rewrite !app_assoc_s) end.
        apply dsgr_app; [apply dsgr_bold; now rewrite !scontains_app, E1|]. apply P. now rewrite scontains_app, E3.
      + change (dsgr (on_tty (pe_tty e) (esc "[0m") +s+ m_app_name m +s+ " copyright information not available." +s+ nl)
          ("" +s+ m_app_name m +s+ " copyright information not available." +s+ nl)).
        apply dsgr_app; [exact Z0|]. apply P. now rewrite !scontains_app, E1. }
  clearbody body body'. cbn [String.append].
  pose proof (dsgr_app _ _ _ _ D1 (dsgr_app _ _ _ _ D2 (dsgr_app _ _ _ _ D3 D4))) as X. intros b. specialize (X b). rewrite !app_assoc_s in X |- *. exact X.
Qed.

(** ** Tool descriptions *)

Lemma tool_names_lemma tags vs l : map nd_name (tdl_positionals 0 vs l ++ map fst (tdl_options tags vs l)) = tool_names l.
Proof.
  unfold tool_names. rewrite map_app. f_equal.
  - generalize 0 as n. induction l as [|o l IH]; intros n; [reflexivity|].
    destruct o as [[x t c|x c|x t c]| | | |]; cbn [tdl_positionals filter is_positional]; try apply IH. cbn [map List.length seq nd_name tdl_positional]. f_equal. apply IH.
  - induction l as [|o l IH]; [reflexivity|]. destruct o as [[x t c|x c|x t c]| | | |]; cbn [tdl_options filter in_tool]; try apply IH.
    + destruct (c_hidden c); cbn [negb map]; [exact IH|]. rewrite IH. f_equal. unfold tdl_option. destruct t as [[]|]; reflexivity.
    + destruct (c_hidden c); cbn [negb map]; [exact IH|]. now rewrite IH.
Qed.

Lemma tool_texts_lemma tags vs l : map nd_description (tdl_positionals 0 vs l ++ map fst (tdl_options tags vs l)) = tool_texts vs l.
Proof.
  unfold tool_texts. rewrite map_app. f_equal.
  - generalize 0 at 1 as n. generalize 1 as k. induction l as [|o l IH]; intros k n; [reflexivity|].
    destruct o as [[x t c|x c|x t c]| | | |]; cbn [tdl_positionals argument_parts]; try apply IH. cbn [map flat_map explanation nd_description tdl_positional app].
    rewrite (IH (S k)). f_equal. f_equal. f_equal. destruct t; [reflexivity|]. apply value_text_eq.
  - induction l as [|o l IH]; [reflexivity|]. destruct o as [[x t c|x c|x t c]| | | |]; cbn [tdl_options filter in_tool]; try apply IH.
    + destruct (c_hidden c); cbn [negb map]; [exact IH|]. rewrite IH. cbn [flat_map option_part app explanation]. f_equal.
      unfold tdl_option. destruct t as [[]|]; cbn [fst nd_description]; apply default_text_eq.
    + destruct (c_hidden c); cbn [negb map]; [exact IH|]. now rewrite IH.
Qed.

Lemma tool_page_says e r cwl conv : pr_format r = FTdl cwl -> pe_tdl e = Some conv -> exists info params,
  page e r = Ret (conv cwl info +s+ (if cwl then nl else ""))
  /\ ti_name info = m_app_name (pr_info r) /\ ti_version info = m_version (pr_info r) /\ ti_docurl info = m_url (pr_info r)
  /\ ti_description info = sconcat (map (fun d => d +s+ nl) (m_description (pr_info r)))
  /\ ti_executable info = List.hd "" (pr_executable r)
  /\ TdlSpec.innermost (ti_params info) (List.tl (pr_executable r)) params
  /\ map nd_name params = tool_names (pr_ops r) /\ map nd_description params = tool_texts (pr_vars r) (pr_ops r).
Proof.
  intros HF HT. unfold page. rewrite HF, HT. eexists _, _. split; [reflexivity|]. unfold tool_info_of. cbn [ti_name ti_version ti_docurl ti_description ti_executable ti_params].
  do 5 (split; [reflexivity|]). split.
  - rewrite <- (rev_involutive (List.tl (pr_executable r))) at 2. apply wrap_innermost.
  - split; [apply tool_names_lemma|apply tool_texts_lemma].
Qed.

Lemma html_body_says e r out : pr_format r = FHtml -> page e r = Ret out ->
  html_free (m_app_name (pr_info r)) = true -> html_free (m_short_description (pr_info r)) = true ->
  forallb browser_can_show (outline (given (pe_tdl e)) false r) = true ->
  exists before body, out = before +s+ "<body>" +s+ nl +s+ body
  /\ words (browser_shows body) = words (strip (m_app_name (pr_info r))) ++ words (strip (m_short_description (pr_info r)))
       ++ flat_map browser_words (outline (given (pe_tdl e)) false r).
Proof.
  intros HF HP A B HO. destruct (html_page_says e r out HF HP A B HO) as (body & -> & H). exists (
  "<!DOCTYPE html PUBLIC ""-//W3C//DTD HTML 4.01//EN"" "
            +s+ "http://www.w3.org/TR/html4/strict.dtd"">" +s+ nl
            +s+ "<html lang=""en"">" +s+ nl
            +s+ "<head>" +s+ nl
            +s+ "<meta http-equiv=""content-type"" content=""text/html; charset=utf-8"">" +s+ nl
            +s+ "<title>" +s+ xml_escape (m_app_name (pr_info r)) +s+ " &mdash; " +s+ xml_escape (m_short_description (pr_info r)) +s+ "</title>" +s+ nl
            +s+ "</head>" +s+ nl), body. split; [|exact H].
  unfold html_head. now rewrite !app_assoc_s.
Qed.
