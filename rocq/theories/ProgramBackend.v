(** Outcomes of the pages, the version check and all calls. *)
From Verif Require Import Base StrLib Fs Values Validators FormatParse Invocation ScanSpec ScanOutcomes
  Parser ParserSpec HelpBase HelpText HelpExport VersionCheck ProgramSpec ProgramProofs.

(** no exit, no exhausted loop bound *)
Definition tame {A} (r : res A) : Prop := match r with Exit _ | OutOfFuel => False | _ => True end.
Definition tidy {St A} (m : M St A) : Prop := forall st, tame (snd (m st)).

Lemma tidy_bind {St A B} (m : M St A) (k : A -> M St B) : tidy m -> (forall a, tidy (k a)) -> tidy (bind m k).
Proof. intros H K st. unfold bind. specialize (H st). destruct (m st) as [st' [a|e|o| | |]]; cbn in *; auto. apply K. Qed.
Lemma tidy_ret {St A} (a : A) : tidy (@ret St A a). Proof. intros st. exact Logic.I. Qed.
Lemma tidy_throw {St A} k m : tidy (@throw St A k m). Proof. intros st. exact Logic.I. Qed.
Lemma tidy_modify {St} f : tidy (@modify St f). Proof. intros st. exact Logic.I. Qed.
Lemma tidy_res {St A} (r : res A) : tame r -> tidy (fun st : St => (st, r)). Proof. intros H st. exact H. Qed.
Lemma tidy_map {St A} (g : A -> M St unit) l : (forall a, tidy (g a)) -> tidy (mapM_ g l).
Proof. intros H. induction l as [|a l IH]; [apply tidy_ret|]. cbn [mapM_]. apply tidy_bind; auto. Qed.
Lemma tame_lift {A B} (r : res A) (k : A -> res B) : tame r -> (forall a, tame (k a)) -> tame (lift_res r k).
Proof. destruct r; cbn; auto. Qed.

Lemma tidy_if {St A} (b : bool) (m n : M St A) : tidy m -> tidy n -> tidy (if b then m else n).
Proof. now destruct b. Qed.

Ltac tidy_go := repeat first
  [ solve [auto] | apply tidy_ret | apply tidy_throw | apply tidy_modify | apply tidy_if | assumption
  | apply tidy_bind; [|intros] | apply tidy_map; intros | apply tidy_res ].

(** ** Pages *)

Record tidy_printer {St} (P : printer St) : Prop := {
  tp_header : forall m, tidy (p_header P m);
  tp_section : forall s, tidy (p_section P s);
  tp_subsection : forall s, tidy (p_subsection P s);
  tp_line : forall s b, tidy (p_line P s b);
  tp_item : forall k d, tidy (p_item P k d);
  tp_footer : tidy (p_footer P) }.

Section driver.
Context {St : Type} (P : printer St) (T : tidy_printer P).

Lemma tidy_item i : tidy (print_item P i).
Proof. destruct T, i; cbn; auto. Qed.
Lemma tidy_synopsis m : tidy (print_synopsis P m).
Proof.
  unfold print_synopsis. apply tidy_map. intros s. apply tidy_bind; [|intros; apply (tp_line P T)].
  apply tidy_res. unfold synopsis_line. now destruct (find_blank _).
Qed.
Lemma tidy_version m : tidy (print_version P m).
Proof. destruct T. unfold print_version, when. tidy_go; auto. Qed.
Lemma tidy_page exports adv r : tidy (print_page P exports adv r).
Proof.
  pose proof tidy_item as H1. pose proof tidy_synopsis as H2. pose proof tidy_version as H3. destruct T.
  assert (H4 : tidy (print_subcommands P (pr_info r) (pr_subcommands r))).
  { unfold print_subcommands. destruct (pr_subcommands r); tidy_go; auto. }
  unfold print_page, when, print_common, print_legal, when. tidy_go; auto.
Qed.
End driver.

Lemma tame_dangling {A} nd : tame (@dangling nd A).
Proof. now destruct nd. Qed.

Lemma tame_text nd tty s : tame (to_text nd tty s).
Proof.
  remember (String.length s) as n eqn:E. assert (H : String.length s <= n) by lia. clear E. revert s H.
  induction n as [|n IH]; intros s H; [destruct s; [exact Logic.I|cbn in H; lia]|].
  destruct s as [|c s1]; [exact Logic.I|]. cbn [to_text]. cbn in H. destruct (Ascii.eqb c "\").
  - destruct s1 as [|d s2]; [apply tame_dangling|]. cbn in H. destruct (Ascii.eqb d "-"); [apply tame_lift; [apply IH; lia|easy]|].
    destruct (Ascii.eqb d "f"); [|apply tame_lift; [apply IH; lia|easy]].
    destruct s2 as [|e s3]; [apply tame_dangling|]. cbn in H. apply tame_lift; [apply IH; lia|easy].
  - apply tame_lift; [apply IH; lia|easy].
Qed.

Lemma tame_html nd : forall n s tags, String.length s <= n -> tame (html_from nd tags s).
Proof.
  induction n as [|n IH]; intros s tags H; [destruct s; [exact Logic.I|cbn in H; lia]|].
  destruct s as [|c s1]; [exact Logic.I|]. cbn [html_from]. cbn in H. destruct (Ascii.eqb c "\").
  - destruct s1 as [|d s2]; [apply tame_dangling|]. cbn in H. destruct (Ascii.eqb d "-"); [apply tame_lift; [apply IH; lia|easy]|].
    destruct (Ascii.eqb d "f"); [|apply tame_lift; [apply IH; lia|easy]].
    destruct s2 as [|e s3]; [apply tame_dangling|]. cbn in H.
    destruct (Ascii.eqb e "I"); [apply tame_lift; [apply IH; lia|easy]|].
    destruct (Ascii.eqb e "B"); [apply tame_lift; [apply IH; lia|easy]|].
    destruct (Ascii.eqb e "P"); [|apply tame_lift; [apply IH; lia|easy]].
    destruct tags; [apply tame_dangling|apply tame_lift; [apply IH; lia|easy]].
  - apply tame_lift; [apply IH; lia|easy].
Qed.

Section text.
Variables (nd tty : bool) (L : layout).

Lemma tidy_put_to s : tidy (put_to_text nd tty s).
Proof. unfold put_to_text. tidy_go. apply tame_text. Qed.
Lemma tidy_tokens tab l : forall pos, tidy (print_tokens nd tty L tab pos l).
Proof.
  induction l as [|t l IH]; intros pos; cbn [print_tokens]; [apply tidy_ret|]. pose proof tidy_put_to. unfold put_text. tidy_go; auto.
Qed.
Lemma tidy_text s tab : tidy (print_text nd tty L s tab).
Proof.
  unfold print_text. destruct (tokens s) as [|t l]; [apply tidy_ret|]. pose proof tidy_put_to. pose proof tidy_tokens. unfold put_text. tidy_go; auto.
Qed.
Lemma text_tidy : tidy_printer (text_printer nd tty L).
Proof.
  pose proof tidy_put_to. pose proof tidy_text.
  constructor; intros; cbn [text_printer p_header p_section p_subsection p_line p_item p_footer];
    unfold print_header, print_section, print_subsection, print_line, print_list_item, put_text, set_par, get_par; cbv zeta; tidy_go; auto;
    intros st; exact Logic.I.
Qed.
End text.

Lemma html_tidy nd : tidy_printer (html_printer nd).
Proof.
  assert (H : forall s, tidy (to_html_m nd s)) by (intros s st; apply (tame_html nd _ s [] (le_n _))).
  constructor; intros; cbn [html_printer p_header p_section p_subsection p_line p_item p_footer];
    unfold html_header, html_section, html_subsection, html_line, html_item, html_footer, close_list, close_paragraph, open_paragraph, open_list, put_html;
    tidy_go; auto.
Qed.
Lemma man_tidy : tidy_printer man_printer.
Proof.
  constructor; intros; cbn [man_printer p_header p_section p_subsection p_line p_item p_footer];
    unfold man_header, man_section, man_subsection, man_line, man_item, put_man, set_first; tidy_go; auto; intros st; exact Logic.I.
Qed.

Lemma tame_printed {St} out (m : M St unit) st : tidy m -> tame (printed out (m st)).
Proof. intros H. unfold printed. apply tame_lift; [apply H|easy]. Qed.

Lemma tame_page e r : tame (page e r).
Proof.
  pose proof (text_tidy (pe_ndebug e) (pe_tty e) (layout_of (pe_width e))) as T.
  unfold page. destruct (pr_format r); try exact Logic.I; try apply tame_printed.
  - now apply tidy_page.
  - pose proof (tidy_synopsis _ T). destruct T. unfold short_help_page, print_header, put_text. tidy_go; auto.
  - pose proof (tidy_version _ T). unfold version_page, print_header, put_text. tidy_go; auto.
  - apply tidy_page, html_tidy.
  - apply tidy_page, man_tidy.
  - now destruct (pe_tdl e).
Qed.

(** ** The version check *)

Lemma tidy_on_fs {A} (g : fs -> fs * A) : tidy (on_fs g).
Proof. intros st. unfold on_fs. destruct (g (vs_fs st)). exact Logic.I. Qed.
Lemma tidy_fail {St A} (r : res A) : tame r -> tidy (@fail St A r).
Proof. intros H st. exact H. Qed.

Lemma tidy_check e m on user : tidy (version_check e m on user).
Proof.
  assert (Hp : tidy (get_path e)).
  { unfold get_path. destruct (ve_home e); [|now apply tidy_fail]. cbv zeta.
    assert (Hf : forall A (g : fs -> fs * A), tidy (on_fs g)) by (intros; apply tidy_on_fs).
    assert (Ht : tidy (temp_directory_path e)) by (intros st; unfold temp_directory_path; destruct (is_directory _ _); exact Logic.I).
    tidy_go; exact Logic.I. }
  assert (Hc : forall k msg, tidy (write_cookie e k msg)) by (intros; unfold write_cookie; tidy_go; apply tidy_on_fs).
  assert (Ha : forall k, tidy (ask_or_default e k)).
  { intros k. unfold ask_or_default, ask_user, log. cbv zeta. tidy_go; auto. }
  assert (Hd : forall k, tidy (decide e k on user)).
  { intros k st. unfold decide. destruct (negb on); [exact Logic.I|]. destruct (ve_opt_out e); [exact Logic.I|]. destruct user; [exact Logic.I|].
    destruct (if exists_ _ _ then _ else _) as [content|]; [|apply Ha].
    destruct (getline (Some content) "") as [stream line]. destruct (ve_recent e line (ve_now e)); [exact Logic.I|].
    destruct (getline stream line) as [? line2]. destruct (String.eqb line2 "NEVER"); [exact Logic.I|]. destruct (String.eqb line2 "ALWAYS"); [exact Logic.I|]. apply Ha. }
  assert (Hk : forall k, tidy (check e k)).
  { intros k. unfold check. apply tidy_bind; [|intros _; apply tidy_bind].
    - unfold show_messages. apply tidy_bind.
      + intros st. destruct (read_file _ _) as [content|]; [|exact Logic.I]. destruct (getline (Some content) "") as [stream line].
        destruct (getline stream line) as [? line2]. match goal with |- tame (snd (?m st)) => cut (tidy m); [intros T; apply T|] end.
        unfold log. tidy_go.
      + intros [a b]. unfold log. tidy_go.
    - unfold get_program, log. cbv zeta. tidy_go.
    - intros p. unfold log. tidy_go. }
  unfold version_check, version_checker. tidy_go. exact Logic.I.
Qed.

Lemma backend_tame pe ve : no_early_exit (backend_of pe ve).
Proof.
  split.
  - intros m dev user f out. cbn. pose proof (tidy_check ve m dev user {| vs_fs := f; vs_log := [] |}) as H.
    destruct (version_check _ _ _ _ _) as [st r]. cbn in *. intros ->. exact H.
  - intros r out H. pose proof (tame_page pe r) as T. cbn in H. rewrite H in T. exact T.
Qed.

(** ** All calls *)

Lemma tidy_on_parser {A} (m : M parser A) : tidy m -> tidy (on_parser m).
Proof. intros H w. unfold on_parser. specialize (H (w_parser w)). destruct (m (w_parser w)). exact H. Qed.

Lemma tidy_not_called fn : tidy (check_parse_not_called fn).
Proof. intros p. unfold check_parse_not_called. now destruct (parse_was_called p). Qed.
Lemma tidy_id i : tidy (id_exists i).
Proof. intros p. unfold id_exists. destruct (is_empty_id i); [exact Logic.I|]. cbv zeta. destruct (mem _ _); exact Logic.I. Qed.
Lemma tidy_identifiers c l : tidy (verify_identifiers c l).
Proof. pose proof tidy_id. unfold verify_identifiers, verify_short, verify_long, design. tidy_go. Qed.
Lemma tidy_option x t c : tidy (add_option x t c).
Proof. pose proof tidy_not_called. pose proof tidy_identifiers. unfold add_option, verify_option_config, register, defer, design. tidy_go. Qed.
Lemma tidy_flag b x c : tidy (add_flag b x c).
Proof. pose proof tidy_not_called. pose proof tidy_identifiers. unfold add_flag, verify_flag_config, defer, design. tidy_go. Qed.
Lemma tidy_positional x t c : tidy (add_positional_option x t c).
Proof.
  pose proof tidy_not_called. assert (H1 : tidy (verify_positional_option_config c)).
  { intros p. unfold verify_positional_option_config, design. repeat match goal with |- context [if ?b then _ else _] => destruct b end; exact Logic.I. }
  unfold add_positional_option, defer. tidy_go.
Qed.

Section calls.
Variables (nd : bool) (bk : backend).

Lemma tidy_scan_args : forall n l, List.length l <= n -> tidy (scan_arguments bk l).
Proof.
  assert (He : forall v, tidy (export_format bk v)) by (intros v; unfold export_format, select; tidy_go).
  assert (Hv : forall v, tidy (version_check_value v)) by (intros v; unfold version_check_value; tidy_go).
  induction n as [|n IH]; intros l H; [destruct l; [apply tidy_ret|cbn in H; lia]|].
  destruct l as [|a l]; [apply tidy_ret|]. cbn [List.length] in H. intros p. cbn [scan_arguments]. destruct (mem a (options p)).
  - match goal with |- tame (snd (?m p)) => cut (tidy m); [intros T; apply T|] end. unfold push_arg. destruct l as [|v l]; tidy_go. apply IH. cbn in H. lia.
  - match goal with |- tame (snd (?m p)) => cut (tidy m); [intros T; apply T|] end.
    assert (Hf : tidy (found_subcommand a (a :: l))).
    { intros q. unfold found_subcommand. destruct (subcommands q); [exact Logic.I|]. destruct (mem a _); [exact Logic.I|].
      destruct (negb (starts_with "-" a)); exact Logic.I. }
    assert (H1 : tidy (scan_arguments bk l)) by (apply IH; lia). unfold select, push_arg.
    destruct l as [|v l]; tidy_go; apply IH; cbn in H; lia.
Qed.

Lemma tidy_determine : tidy (determine_format_and_subcommand nd bk).
Proof.
  intros p. unfold determine_format_and_subcommand. destruct (arguments p) as [|a l]; [now destruct nd|].
  match goal with |- tame (snd (?m p)) => cut (tidy m); [intros T; apply T|] end.
  pose proof (tidy_scan_args _ l (le_n _)). unfold settle_format. tidy_go.
Qed.
Lemma tidy_names : tidy verify_app_and_subcommand_names.
Proof. intros p. unfold verify_app_and_subcommand_names, design. destruct (negb _); [exact Logic.I|]. destruct (negb _); exact Logic.I. Qed.
Lemma tame_operations i dead l : tame (apply_operations i dead l).
Proof.
  induction l as [|[j o] l IH]; [exact Logic.I|]. cbn [apply_operations]. destruct (Nat.eqb j i); [now apply tame_lift|].
  destruct (existsb _ _); [exact Logic.I|exact IH].
Qed.

Definition well_backed : Prop :=
  (forall m dev user f, tame (snd (bk_version_check bk m dev user f))) /\ (forall r, tame (bk_page bk r)).

(** results that are no exhausted loop bound *)
Definition ended {St A} (m : M St A) : Prop := forall st, snd (m st) <> OutOfFuel.
Lemma tidy_ended {St A} (m : M St A) : tidy m -> ended m.
Proof. intros H st E. specialize (H st). now rewrite E in H. Qed.
Lemma ended_bind {St A B} (m : M St A) (k : A -> M St B) : ended m -> (forall a, ended (k a)) -> ended (bind m k).
Proof. intros H K st. unfold bind. specialize (H st). destruct (m st) as [st' [a|e|o| | |]]; try discriminate; [apply K|now destruct H]. Qed.

Lemma calls_end c : well_backed -> forall w, snd (step nd bk c w) <> OutOfFuel.
Proof.
  intros [W1 W2].
  assert (R : forall m : M world unit, ended m -> ended (m ;; ret true)) by (intros m Hm; apply ended_bind; [exact Hm|intros _; apply tidy_ended, tidy_ret]).
  assert (S : forall m : M parser unit, tidy m -> ended (on_parser m ;; ret true)).
  { intros m Hm. apply R, tidy_ended, tidy_on_parser, Hm. }
  pose proof tidy_not_called as N.
  induction c; cbn [step]; intros w.
  - apply S, tidy_option.
  - apply S, tidy_flag.
  - apply S, tidy_positional.
  - apply S. unfold add_section, defer. tidy_go.
  - apply S. unfold add_subsection, defer. tidy_go.
  - apply S. unfold add_line, defer. tidy_go.
  - apply S. unfold add_list_item, defer. tidy_go.
  - apply S, tidy_modify.
  - apply R. intros w'. unfold parse. destruct (parse_was_called (w_parser w')); [discriminate|]. revert w'.
    match goal with |- forall w', snd (?m w') <> _ => change (ended m) end.
    apply ended_bind; [apply tidy_ended, tidy_on_parser, tidy_modify|intros _].
    apply ended_bind; [apply tidy_ended, tidy_on_parser, tidy_names|intros _].
    apply ended_bind; [apply tidy_ended, tidy_on_parser, tidy_determine|intros _].
    apply ended_bind; [apply tidy_ended; intros w'; apply tame_operations|intros l].
    apply ended_bind.
    + apply tidy_ended. intros w'. unfold run_version_check. specialize (W1 (info (w_parser w')) (dev_decision (w_parser w')) (user_decision (w_parser w')) (w_fs w')).
      cbv zeta. destruct (bk_version_check _ _ _ _ _). exact W1.
    + intros _ w'. unfold parse_format. cbv zeta.
      assert (G : forall r, lift_res (bk_page bk r) (fun out => @Exit unit out) <> OutOfFuel).
      { intros r E. specialize (W2 r). destruct (bk_page bk r); try discriminate E. exact W2. }
      destruct (fmt (w_parser w')); try apply G.
      pose proof (terminates_lemma nd (ops_decls l) (format_arguments (w_parser w')) (w_vars w') (w_fs w')) as K.
      destruct (parse_args _ _ _ _ _). exact K.
  - revert w. apply tidy_ended, tidy_on_parser. intros p. unfold is_option_set, design.
    repeat match goal with |- context [if ?b then _ else _] => destruct b end; exact Logic.I.
  - unfold get_sub_parser. destruct (sub_parser (w_parser w)) as [q|]; [|discriminate].
    specialize (IHc {| w_parser := q; w_vars := w_vars w; w_fs := w_fs w |}). destruct (step nd bk c _). exact IHc.
  - apply S, tidy_modify.
  - apply S, tidy_modify.
  - apply R, tidy_ended, tidy_modify.
  - apply R, tidy_ended, tidy_modify.
Qed.

Lemma exits_parse c : well_backed -> forall w out, snd (step nd bk c w) = Exit out -> innermost c = CParse.
Proof.
  intros [W1 W2].
  assert (R : forall (m : M world unit) w out, tidy m -> snd ((m ;; ret true) w) = Exit out -> False).
  { intros m w out Hm E. assert (T : tidy (m ;; ret true)) by tidy_go. specialize (T w). rewrite E in T. exact T. }
  assert (S : forall (m : M parser unit) w out, tidy m -> snd ((on_parser m ;; ret true) w) = Exit out -> False).
  { intros m w out Hm. apply R, tidy_on_parser, Hm. }
  pose proof tidy_not_called as N.
  induction c; cbn [step innermost]; intros w out E; try reflexivity; try (exfalso; revert E; first [apply S; solve [apply tidy_option|apply tidy_flag|apply tidy_positional|apply tidy_modify|unfold add_section, add_subsection, add_line, add_list_item, defer; tidy_go]|apply R, tidy_modify]).
  - exfalso. assert (T : tidy (on_parser (is_option_set i))).
    { apply tidy_on_parser. intros p. unfold is_option_set, design. repeat match goal with |- context [if ?b then _ else _] => destruct b end; exact Logic.I. }
    specialize (T w). rewrite E in T. exact T.
  - unfold get_sub_parser in E. destruct (sub_parser (w_parser w)) as [q|]; [|discriminate E].
    apply (IHc {| w_parser := q; w_vars := w_vars w; w_fs := w_fs w |} out). destruct (step nd bk c _). exact E.
Qed.


End calls.

Lemma backend_well pe ve : well_backed (backend_of pe ve).
Proof.
  split.
  - intros m dev user f. cbn. pose proof (tidy_check ve m dev user {| vs_fs := f; vs_log := [] |}) as H.
    destruct (version_check ve m dev user {| vs_fs := f; vs_log := [] |}) as [st r]. exact H.
  - intros r. apply tame_page.
Qed.
