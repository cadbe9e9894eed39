(** The statements of PropHelp.v derived from the lemmas about pages. *)
From Verif Require Import Base StrLib Fs Values ValuesSpec ValuesProofs ValuesProps Validators FormatParse Parser HelpBase HelpText HelpExport HelpSpec TdlSpec
  HelpTextProofs HelpPage HelpGood HelpLayout HelpExportProofs HelpEntries HelpOther.

Lemma listed_shown adv o : negb (is_positional o) && shown adv o = listed adv o.
Proof. unfold listed, shown, on_advanced_help, on_help. destruct adv; cbn [orb]; now rewrite ?andb_true_r. Qed.

Lemma filter_listed adv l : filter (fun o => negb (is_positional o) && shown adv o) l = filter (listed adv) l.
Proof. apply filter_ext. intros o. apply listed_shown. Qed.

Lemma help_entries_lemma e r adv out : pr_format r = FHelp adv -> page e r = Ret out ->
  forallb (fun s => negb (scontains "027" s)) (flat_map (op_texts (pr_vars r)) (pr_ops r)) = true ->
  forallb no_backslash (flat_map op_names (pr_ops r)) = true ->
  exists before blocks after,
    out = before +s+ nl +s+ heading (pe_tty e) "OPTIONS" +s+ nl +s+ sconcat blocks
          +s+ nl +s+ "  " +s+ heading (pe_tty e) "Common options" +s+ nl +s+ after
    /\ Forall2 (fun o b => entry_words terminal_view o (words (drop_sgr b))) (filter (listed adv) (pr_ops r)) blocks.
Proof. intros. rewrite <- filter_listed. now apply (help_page_entries e r adv out). Qed.

Lemma html_entries_lemma e r out : pr_format r = FHtml -> page e r = Ret out ->
  forallb html_free (flat_map (op_texts (pr_vars r)) (pr_ops r)) = true ->
  forallb no_backslash (flat_map op_names (pr_ops r)) = true ->
  exists before blocks closing after,
    out = before +s+ "<h2>Options</h2>" +s+ nl +s+ sconcat blocks +s+ closing +s+ "<h3>Common options</h3>" +s+ nl +s+ after
    /\ words (browser_shows closing) = []
    /\ Forall2 (fun o b => entry_words html_view o (words (browser_shows b))) (filter (listed false) (pr_ops r)) blocks.
Proof. intros. rewrite <- filter_listed. now apply (html_page_entries e r out). Qed.

Lemma man_entries_lemma e r out : pr_format r = FMan -> page e r = Ret out ->
  forallb one_line (flat_map (op_texts (pr_vars r)) (pr_ops r)) = true ->
  forallb no_request (pr_ops r) = true ->
  forallb no_backslash (flat_map op_names (pr_ops r)) = true ->
  exists before blocks after,
    out = before +s+ ".SH OPTIONS" +s+ nl +s+ sconcat blocks +s+ ".SS Common options" +s+ nl +s+ after
    /\ Forall2 (fun o b => entry_words man_view o (man_words b)) (filter (listed false) (pr_ops r)) blocks.
Proof. intros. rewrite <- filter_listed. now apply (man_page_entries e r out). Qed.

Lemma unlisted_lemma e r : match pr_format r with FHelp _ | FHtml | FMan => True | _ => False end ->
  let advanced := match pr_format r with FHelp adv => adv | _ => false end in
  page e r = page e (with_ops r (filter (fun o => is_positional o || listed advanced o) (pr_ops r))).
Proof.
  intros HF. cbn zeta.
  assert (X : forall adv, filter (fun o => is_positional o || listed adv o) (pr_ops r) = filter (fun o => is_positional o || shown adv o) (pr_ops r)).
  { intros adv. apply filter_ext. intros o. rewrite <- listed_shown. now destruct (is_positional o), (shown adv o). }
  rewrite X. unfold page. cbn [with_ops pr_format]. destruct (pr_format r) as [|adv| | | | | |]; try destruct HF; f_equal; apply print_page_filter.
Qed.

(** ** Defaults *)

Lemma default_shown_lemma x t c (vs : store) v : c_default_message c = "" -> c_required c = false -> vs x = v ->
  exists d rest, option_info t (vs x) c = c_desc c +s+ " Default: " +s+ d +s+ rest
    /\ (rest = "" \/ exists r, rest = String "." r)
    /\ forall old, match t, v with
       | Scalar (TInt sg bits), VInt z => in_type sg bits z -> parse_elem (TInt sg bits) old d = POk v PSuccess
       | Scalar TBool, VBool _ => parse_elem TBool old d = POk v PSuccess
       | Scalar (TEnum name names), VEnum z => NoDup (map fst names) -> In z (map snd names) -> parse_elem (TEnum name names) old d = POk v PSuccess
       | Scalar TString, VStr s => d = quoted s
       | Scalar TPath, VPath s => d = quoted s
       | _, _ => True
       end.
Proof.
  intros HM HR <-. exists (match t with ListOf TString => bracket (map (fun x => quoted (print_stream TString x)) (elems (vs x)))
     | Scalar TString => quoted (print_stream TString (vs x)) | _ => to_string t (vs x) end), (validator_info c).
  split; [|split].
  - unfold option_info, default_of_value. rewrite HM, HR. cbn [is_empty]. now rewrite !app_assoc_s.
  - unfold validator_info. destruct (is_empty _); [now left|right]. eexists. reflexivity.
  - intros old. destruct t as [e|e]; [|exact I]. destruct (vs x) as [z|b|s|s|z|fl|l|s]; destruct e; try exact I.
    + intros H. now apply integer_round_trip_lemma.
    + destruct b; reflexivity.
    + reflexivity.
    + reflexivity.
    + intros ND H. apply in_map_iff in H as ((k & z') & E & Hi). cbn in E. subst z'. eapply enum_round_trip_lemma; eauto.
Qed.

Lemma html_title_lemma e r out : pr_format r = FHtml -> page e r = Ret out ->
  exists before after, out = before +s+ "<title>" +s+ xml_escape (m_app_name (pr_info r)) +s+ " &mdash; " +s+ xml_escape (m_short_description (pr_info r))
    +s+ "</title>" +s+ nl +s+ after.
Proof.
  intros HF HP. pose proof (html_page_eff e r HF) as X. cbn zeta in X.
  destruct (fst (e_page _ _ _ _)); [|rewrite HP in X; discriminate].
  rewrite X in HP. apply Ret_inj in HP. subst out. clear X. rewrite page_around.
  match goal with |- context [e_seq (q_header _ _) ?x] => generalize x end. intros rest.
  cbn [q_header html_effects]. unfold e_seq, e_put. cbn [fst snd]. rewrite !app_assoc_s.
  match goal with |- exists _ _, ?a +s+ ?b +s+ ?c +s+ ?d +s+ ?f +s+ ?g +s+ ?h +s+ ?i +s+ ?j +s+ ?t1 +s+ ?t2 +s+ ?t3 +s+ ?t4 +s+ ?t5 +s+ ?t6 +s+ ?after = _ =>
    exists (a +s+ b +s+ c +s+ d +s+ f +s+ g +s+ h +s+ i +s+ j), after; generalize after end.
  intros after. rewrite !app_assoc_s. reflexivity.
Qed.

Lemma tdl_cli_lemma tags r : ti_cli (tool_info_of tags r) =
  flat_map (fun o => match o with OpDecl (DOption _ _ c) => if c_hidden c then [] else [("--" +s+ c_long c, c_long c)] | _ => [] end) (pr_ops r).
Proof.
  unfold tool_info_of. cbn [ti_cli]. induction (pr_ops r) as [|o l IH]; [reflexivity|].
  destruct o as [[x t c|x c|x t c]| | | |]; cbn [tdl_options flat_map]; try exact IH.
  - destruct (c_hidden c); [exact IH|]. cbn [map snd somes app]. rewrite IH. reflexivity.
  - destruct (c_hidden c); [exact IH|]. cbn [map snd somes]. exact IH.
Qed.
