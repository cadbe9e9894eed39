(** Pages of an application whose texts are all good, for any notion of good closed under concatenation. *)
From Verif Require Import Base StrLib Fs Values Validators FormatParse Parser HelpBase HelpSpec HelpPage.

(** one line, without characters that mean something to a terminal, to the markup or to HTML *)
Definition plain_text (s : string) : bool := sall (fun c => negb (existsb (Ascii.eqb c) ["\"%char; "<"%char; "&"%char; "010"%char; "027"%char])) s.

Lemma plain_text_not c s : In c ["\"%char; "<"%char; "&"%char; "010"%char; "027"%char] -> plain_text s = true -> scontains c s = false.
Proof.
  intros I. induction s as [|d s IH]; [reflexivity|]. cbn [plain_text sall scontains]. intros H. apply andb_prop in H as [Hd H].
  rewrite (IH H), orb_false_r. apply negb_true_iff in Hd. destruct (Ascii.eqb_spec c d) as [->|]; [|reflexivity].
  exfalso. rewrite (proj2 (existsb_exists _ _)) in Hd; [discriminate|]. exists d. split; [exact I|apply Ascii.eqb_refl].
Qed.

Section good.
Context {F : Type} (Q : @effects F) (good : string -> Prop) (Pe : eff F -> Prop).
Hypothesis good_app : forall a b, good a -> good b -> good (a +s+ b).
Hypothesis good_in_bold : forall s, good s -> good ("\fB" +s+ s +s+ "\fP").
Hypothesis good_in_italic : forall s, good s -> good ("\fI" +s+ s +s+ "\fP").
Hypothesis good_plain : forall s, plain_text s = true -> good s.
Hypothesis good_bold : forall s, good s -> good (q_bold Q s).
Hypothesis Pe_ret : Pe e_ret.
Hypothesis Pe_seq : forall a b, Pe a -> Pe b -> Pe (e_seq a b).
Hypothesis Pe_section : forall s, good s -> Pe (q_section Q s).
Hypothesis Pe_subsection : forall s, good s -> Pe (q_subsection Q s).
Hypothesis Pe_line : forall s b, good s -> Pe (q_line Q s b).
Hypothesis Pe_item : forall k d, good k -> good d -> Pe (q_item Q k d).

Lemma Pe_map {A} (h : A -> eff F) l : (forall a, In a l -> Pe (h a)) -> Pe (e_map h l).
Proof.
  induction l as [|a l IH]; intros H; [exact Pe_ret|]. cbn. apply Pe_seq; [apply H; now left|]. apply IH. intros b Hb. apply H. now right.
Qed.

Lemma Pe_when b e : Pe e -> Pe (e_when b e).
Proof. destruct b; [auto|intros; exact Pe_ret]. Qed.

Ltac good := repeat first [assumption | apply good_app | apply good_bold | now apply good_plain ].

Lemma good_nil : good "".
Proof. now apply good_plain. Qed.

Lemma digits_plain d : plain_text (DecimalString.NilEmpty.string_of_uint d) = true.
Proof. induction d as [|d IH|d IH|d IH|d IH|d IH|d IH|d IH|d IH|d IH|d IH]; cbn; auto. Qed.

Lemma good_Z z : good (Z_to_string z).
Proof.
  apply good_plain. unfold Z_to_string, DecimalString.NilZero.string_of_int, DecimalString.NilZero.string_of_uint.
  destruct (Z.to_int z) as [d|d]; destruct d; try reflexivity; apply digits_plain.
Qed.

Lemma good_join l : Forall good l -> good (join_comma l).
Proof.
  induction 1 as [|a l Ha Hl IH]; [apply good_nil|]. destruct l as [|b l]; [exact Ha|].
  change (join_comma (a :: b :: l)) with (a +s+ ", " +s+ join_comma (b :: l)). good. 
Qed.

Lemma good_bracket l : Forall good l -> good (bracket l).
Proof. intros H. unfold bracket. apply good_app; [now apply good_plain|]. apply good_app; [now apply good_join|now apply good_plain]. Qed.

Lemma good_default t v : Forall good (default_texts t v) -> good (default_of_value t v).
Proof.
  unfold default_of_value, default_texts. intros H. apply good_app; [now apply good_plain|].
  destruct t as [e|e]; destruct e; try (inversion_clear H; assumption). now apply good_bracket.
Qed.

Lemma good_default_message t m : good (message_text t m) -> good (default_of_message t m).
Proof. intros H. unfold default_of_message. apply good_app; [now apply good_plain|exact H]. Qed.

Lemma good_validator_info c : good (c_vhelp c) -> good (validator_info c).
Proof. intros H. unfold validator_info. destruct (is_empty _); [apply good_nil|]. apply good_app; [now apply good_plain|exact H]. Qed.

Lemma good_type t : good (type_name (elem_ty t)) -> good (type_info t).
Proof.
  intros H. destruct t as [e|e]; cbn [elem_ty type_info] in *.
  - change ("(\fI" +s+ type_name e +s+ "\fP)") with ("(" +s+ ("\fI" +s+ type_name e +s+ "\fP)")).
    replace ("\fI" +s+ type_name e +s+ "\fP)") with (("\fI" +s+ type_name e +s+ "\fP") +s+ ")") by (now rewrite !app_assoc_s).
    apply good_app; [now apply good_plain|]. apply good_app; [now apply good_in_italic|now apply good_plain].
  - change ("(\fIList\fP of \fI" +s+ type_name e +s+ "\fP)") with ("(" +s+ ("\fI" +s+ "List" +s+ "\fP") +s+ " of " +s+ ("\fI" +s+ type_name e +s+ "\fP)")).
    replace ("\fI" +s+ type_name e +s+ "\fP)") with (("\fI" +s+ type_name e +s+ "\fP") +s+ ")") by (now rewrite !app_assoc_s).
    apply good_app; [now apply good_plain|]. apply good_app; [apply good_in_italic; now apply good_plain|].
    apply good_app; [now apply good_plain|]. apply good_app; [now apply good_in_italic|now apply good_plain].
Qed.

Lemma good_prep s l : good (str1 s) -> good l -> good (prep_id s l).
Proof.
  intros Hs Hl. unfold prep_id. apply good_app; [|apply good_app].
  - destruct (Ascii.eqb s nul); [apply good_nil|]. change ("\fB-" +s+ str1 s +s+ "\fP") with ("\fB" +s+ ("-" +s+ str1 s) +s+ "\fP").
    apply good_in_bold. good.
  - destruct (_ && _); [now apply good_plain|apply good_nil].
  - destruct (is_empty l); [apply good_nil|].
    change ("\fB--" +s+ l +s+ "\fP") with ("\fB" +s+ ("--" +s+ l) +s+ "\fP"). apply good_in_bold. good.
Qed.

Definition good_item (i : item) : Prop :=
  match i with ISection s | ISubsection s | ILine s _ => good s | IItem k d => good k /\ good d end.

Lemma good_print i : good_item i -> Pe (q_print Q i).
Proof. destruct i as [s|s|s b|k d]; cbn; auto. intros [H1 H2]; auto. Qed.

Lemma good_items adv vs l : Forall good (flat_map (op_texts vs) l) -> Forall good_item (set_up_calls adv vs l).
Proof.
  induction l as [|o l IH]; [constructor|]. cbn [flat_map set_up_calls]. intros H. apply Forall_app in H as [Ho Hl]. specialize (IH Hl).
  destruct o as [[x t c|x c|x t c]|s a|s a|s b a|k d a]; cbn [item_of op_texts app] in *;
    repeat match goal with H : Forall good (_ :: _) |- _ => inversion_clear H end; try destruct (stored _ _ _); try assumption; constructor; try assumption; cbn [good_item]; auto.
  - split; [apply good_app; [now apply good_prep|]; apply good_app; [now apply good_plain|now apply good_type]|].
    unfold option_info. apply good_app; [assumption|]. apply good_app; [|now apply good_validator_info].
    destruct (is_empty _); [destruct (c_required c); [apply good_nil|now apply good_default]|now apply good_default_message].
  - split; [now apply good_prep|assumption].
Qed.

Lemma good_positionals vs l : Forall good (flat_map (op_texts vs) l) -> forall n, Forall good_item (positional_calls vs n l).
Proof.
  induction l as [|o l IH]; [constructor|]. cbn [flat_map]. intros H n. apply Forall_app in H as [Ho Hl]. specialize (IH Hl).
  destruct o as [[x t c|x c|x t c]|s a|s a|s b a|k d a]; cbn [positional_calls]; auto. constructor; [|apply IH].
  cbn [op_texts app] in Ho. repeat match goal with H : Forall good (_ :: _) |- _ => inversion_clear H end. cbn [positional_item good_item]. split.
  - replace ("\fBARGUMENT-" +s+ nat_to_string (S n) +s+ "\fP " +s+ type_info t)
      with (("\fB" +s+ ("ARGUMENT-" +s+ nat_to_string (S n)) +s+ "\fP") +s+ " " +s+ type_info t) by (now rewrite ?app_assoc_s).
    apply good_app; [apply good_in_bold, good_app; [now apply good_plain|apply good_Z]|]. apply good_app; [now apply good_plain|now apply good_type].
  - apply good_app; [assumption|]. apply good_app; [|now apply good_validator_info].
    destruct (is_container t); [now apply good_default|apply good_nil].
Qed.

Lemma synopsis_split s n : find_blank s = Some n -> stake n s = to_blank s /\ sdrop n s = from_blank s.
Proof.
  revert n; induction s as [|c s IH]; intros n; cbn [find_blank to_blank from_blank]; [discriminate|]. unfold is_blank.
  destruct (Ascii.eqb c " " || Ascii.eqb c "009").
  - intros [= <-]. split; reflexivity.
  - destruct (find_blank s) as [m|]; [|discriminate]. intros [= <-]. destruct (IH m eq_refl) as [A B]. cbn. now rewrite A, B.
Qed.

Lemma find_blank_some s : has_blank s = true -> exists n, find_blank s = Some n.
Proof.
  unfold has_blank. induction s as [|c s IH]; cbn [find_blank from_blank]; [discriminate|]. unfold is_blank.
  destruct (Ascii.eqb c " " || Ascii.eqb c "009"); [now exists O|]. intros H. destruct (IH H) as [n ->]. now exists (S n).
Qed.

Lemma find_blank_none s : has_blank s = false -> find_blank s = None.
Proof.
  unfold has_blank. induction s as [|c s IH]; cbn [find_blank from_blank]; [reflexivity|]. unfold is_blank.
  destruct (Ascii.eqb c " " || Ascii.eqb c "009"); [discriminate|]. intros H. now rewrite (IH H).
Qed.

Lemma synopsis_line_eq s : synopsis_line s = if has_blank s then Ret (("\fB" +s+ to_blank s +s+ "\fP") +s+ from_blank s)
  else Throw (Exn KStdOutOfRange "basic_string::insert").
Proof.
  unfold synopsis_line. change (find_blank ("\fB" +s+ s)) with (option_map S (option_map S (option_map S (find_blank s)))).
  destruct (has_blank s) eqn:H.
  - destruct (find_blank_some s H) as [n E]. rewrite E. cbn [option_map].
    change (stake (S (S (S n))) ("\fB" +s+ s)) with ("\fB" +s+ stake n s). change (sdrop (S (S (S n))) ("\fB" +s+ s)) with (sdrop n s).
    destruct (synopsis_split s n E) as [-> ->]. now rewrite !app_assoc_s.
  - now rewrite (find_blank_none s H).
Qed.

Lemma Pe_page_before_footer exports adv r :
  has_commands (pr_info r) = true -> Forall good (page_texts r) -> good exports ->
  Pe (q_header Q (pr_info r)) -> Pe (q_footer Q) -> Pe (e_page Q exports adv r).
Proof.
  unfold page_texts, meta_texts. intros HC H HX HH HF.
  apply Forall_app in H as [Hm H]. apply Forall_app in H as [Hsub Hops].
  apply Forall_app in Hm as [Hm H]. apply Forall_app in H as [Hdesc H]. apply Forall_app in H as [Hsyn1 H]. apply Forall_app in H as [Hsyn2 Hex].
  repeat match goal with H : Forall good (_ :: _) |- _ => inversion_clear H end.
  rewrite Forall_forall in Hsub, Hdesc, Hsyn1, Hsyn2, Hex.
  assert (B : forall s, good s -> good (q_bold Q s)) by exact good_bold.
  assert (S : forall s, In s (m_synopsis (pr_info r)) -> Pe (e_synopsis Q s)).
  { intros s Hs. unfold e_synopsis. rewrite synopsis_line_eq. unfold has_commands in HC. rewrite forallb_forall in HC. rewrite (HC s Hs).
    apply Pe_line, good_app; [apply good_in_bold, Hsyn1, in_map, Hs|apply Hsyn2, in_map, Hs]. }
  assert (L : forall s b, good s -> Pe (q_line Q s b)) by exact Pe_line.
  assert (K : forall x, good x -> good ("- \fB" +s+ x +s+ "\fP")).
  { intros x Hx. change ("- \fB" +s+ x +s+ "\fP") with ("- " +s+ ("\fB" +s+ x +s+ "\fP")). apply good_app; [now apply good_plain|now apply good_in_bold]. }
  assert (C1 : good "\fB-h\fP, \fB--help\fP") by exact (good_app _ _ (good_in_bold "-h" (good_plain "-h" eq_refl))
      (good_app ", " _ (good_plain ", " eq_refl) (good_in_bold "--help" (good_plain "--help" eq_refl)))).
  assert (C2 : good "\fB-hh\fP, \fB--advanced-help\fP") by exact (good_app _ _ (good_in_bold "-hh" (good_plain "-hh" eq_refl))
      (good_app ", " _ (good_plain ", " eq_refl) (good_in_bold "--advanced-help" (good_plain "--advanced-help" eq_refl)))).
  assert (C3 : good "\fB--version\fP") by exact (good_in_bold "--version" (good_plain "--version" eq_refl)).
  assert (C4 : good "\fB--copyright\fP") by exact (good_in_bold "--copyright" (good_plain "--copyright" eq_refl)).
  assert (C5 : good "\fB--export-help\fP (std::string)") by exact (good_app _ " (std::string)" (good_in_bold "--export-help" (good_plain "--export-help" eq_refl)) (good_plain " (std::string)" eq_refl)).
  assert (C6 : good "\fB--version-check\fP (bool)") by exact (good_app _ " (bool)" (good_in_bold "--version-check" (good_plain "--version-check" eq_refl)) (good_plain " (bool)" eq_refl)).
  assert (C7 : good ("The following options belong to the top-level parser and need to be "
                +s+ "specified \fBbefore\fP the subcommand key word. Every argument after the "
                +s+ "subcommand key word is passed on to the corresponding sub-parser.")).
  { exact (good_app "The following options belong to the top-level parser and need to be specified " _ (good_plain "The following options belong to the top-level parser and need to be specified " eq_refl)
      (good_app _ " the subcommand key word. Every argument after the subcommand key word is passed on to the corresponding sub-parser."
         (good_in_bold "before" (good_plain "before" eq_refl)) (good_plain " the subcommand key word. Every argument after the subcommand key word is passed on to the corresponding sub-parser." eq_refl))). }
  assert (E : Pe (e_subcommands Q (pr_info r) (pr_subcommands r))).
  { unfold e_subcommands. destruct (pr_subcommands r) as [|s0 subs] eqn:Es; [exact Pe_ret|].
    assert (G0 : good s0) by (apply Hsub; now left).
    apply Pe_seq; [apply Pe_section; now apply good_plain|]. apply Pe_seq; [apply Pe_line; now apply good_plain|].
    apply Pe_seq; [apply Pe_map; intros a Ha; apply Pe_line, K, Hsub, Ha|]. apply Pe_seq; apply Pe_line; [good|exact C7]. }
  unfold e_page, e_before, e_after, e_version, e_legal, e_common.
  repeat first
    [ exact E | apply Pe_seq | apply Pe_when | exact HH | exact HF | exact Pe_ret
    | apply Pe_section; now apply good_plain | apply Pe_subsection; now apply good_plain
    | apply Pe_map; intros i Hi; apply good_print; revert i Hi; rewrite <- Forall_forall; first [apply good_items; assumption | apply good_positionals; assumption]
    | apply Pe_map; intros i Hi; solve [auto]
    | apply Pe_item; good | apply Pe_line; good ].
Qed.

End good.
