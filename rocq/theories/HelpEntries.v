(** Entries of the exported pages. *)
From Verif Require Import Base StrLib Fs Values Validators FormatParse Parser HelpBase HelpText HelpExport HelpSpec HelpTextProofs HelpPage HelpGood HelpLayout HelpExportProofs.

(** ** HTML *)

Lemma items_html_free adv vs l : forallb html_free (flat_map (op_texts vs) l) = true ->
  Forall (good_item (fun s => scontains "<" s = false /\ scontains "&" s = false)) (set_up_calls adv vs l).
Proof.
  intros H. apply good_items.
  - intros a b [A1 A2] [B1 B2]. now rewrite !scontains_app, A1, A2, B1, B2.
  - intros s [A1 A2]. rewrite !scontains_app, A1, A2. split; reflexivity.
  - intros s [A1 A2]. rewrite !scontains_app, A1, A2. split; reflexivity.
  - intros s A. split; [apply (plain_text_not "<" s)|apply (plain_text_not "&" s)]; cbn; tauto.
  - apply Forall_forall. intros s Hs. rewrite forallb_forall in H. specialize (H s Hs). unfold html_free in H.
    apply andb_prop in H as [H1 H2]. split; now apply negb_true_iff.
Qed.

Section html_shows.
Variable nd : bool.
Let Q := html_effects nd.

Lemma browser_of a a' : dtag a a' -> scontains "&" a' = false -> browser_shows a = a'.
Proof. intros H N. unfold browser_shows. apply dtag_end in H. rewrite <- H in N. now rewrite browser_plain. Qed.

Lemma dtag_hconv s : hok nd s = true -> scontains "<" s = false -> dtag (hconv nd s) (strip s).
Proof.
  unfold hok, hconv. intros H N. destruct (to_html nd s) as [r| | | | |] eqn:E; try discriminate.
  exact (html_from_shows nd s [] r E N (Forall_nil _)).
Qed.

(** a list or paragraph closed or opened *)
Lemma dtag_tag t : scontains ">" t = false -> dtag ("<" +s+ t +s+ ">" +s+ nl) nl.
Proof.
  intros N b. cbn [String.append drop_tags]. change (Ascii.eqb "<" "<") with true. cbn iota.
  induction t as [|c t IH]; [reflexivity|]. cbn [scontains] in N. apply orb_false_elim in N as [Nc N].
  cbn [String.append drop_tags]. rewrite Ascii.eqb_sym, Nc. now apply IH.
Qed.

(** flags that are printed before a text: white space only *)
Lemma blank_flags (e : eff (bool * bool)) : In e [e_close_list; e_close_p; e_open_p; e_open_list; e_put ("<br>" +s+ nl)] -> forall f,
  exists b, dtag (fst (snd e f)) b /\ (b = "" \/ b = nl).
Proof.
  intros H f. cbn [In] in H.
  repeat (destruct H as [<-|H]; [cbn [e_close_list e_close_p e_open_p e_open_list e_put snd];
    repeat match goal with |- context [if ?c then _ else _] => destruct c end; cbn [fst];
    first [exists ""; split; [intros x; reflexivity|now left] | exists nl; split; [intros x; reflexivity|now right]]|]).
  destruct H.
Qed.

Lemma words_blank b x : b = "" \/ b = nl -> words (b +s+ x) = words x.
Proof. intros [-> | ->]; [reflexivity|apply words_nl]. Qed.

Lemma words_blank_end b x : b = "" \/ b = nl -> words (x +s+ b) = words x.
Proof. intros [-> | ->]; [now rewrite app_nil_r_s|apply words_end_nl]. Qed.

Lemma blank_amp b : b = "" \/ b = nl -> scontains "&" b = false.
Proof. now intros [-> | ->]. Qed.

Lemma dtag_lit a a' : (forall b, drop_tags false (a +s+ b) = a' +s+ drop_tags false b) -> dtag a a'.
Proof. auto. Qed.

Ltac tags := match goal with |- dtag ?a ?b => first [ apply (dtag_lit a b); intros; reflexivity | assumption ] end.

Lemma title_html (h : string) s f : hok nd s = true -> scontains "<" s = false -> scontains "&" s = false -> h = "h2" \/ h = "h3" ->
  words (browser_shows (fst (snd (e_seq e_close_list (e_seq e_close_p (e_html nd s (fun t => "<" +s+ h +s+ ">" +s+ t +s+ "</" +s+ h +s+ ">" +s+ nl)))) f))) = words (strip s).
Proof.
  intros K N A Hh. cbn [e_seq e_html fst snd].
  destruct (blank_flags e_close_list ltac:(cbn; tauto) f) as (b1 & D1 & B1).
  destruct (blank_flags e_close_p ltac:(cbn; tauto) (snd (snd e_close_list f))) as (b2 & D2 & B2).
  rewrite (browser_of _ (b1 +s+ b2 +s+ strip s +s+ nl)).
  - rewrite words_blank, words_blank, words_end_nl by assumption. reflexivity.
  - apply dtag_app; [exact D1|]. apply dtag_app; [exact D2|].
    replace ("<" +s+ h +s+ ">" +s+ hconv nd s +s+ "</" +s+ h +s+ ">" +s+ nl) with (("<" +s+ h +s+ ">") +s+ hconv nd s +s+ ("</" +s+ h +s+ ">" +s+ nl))
      by now rewrite !app_assoc_s.
    change (strip s +s+ nl) with ("" +s+ strip s +s+ nl). apply dtag_app; [destruct Hh as [-> | ->]; intros b; reflexivity|].
    apply dtag_app; [now apply dtag_hconv|destruct Hh as [-> | ->]; intros b; reflexivity].
  - rewrite !scontains_app, (blank_amp b1 B1), (blank_amp b2 B2), strip_chars by (auto; discriminate). reflexivity.
Qed.

Lemma line_html s b f : hok nd s = true -> scontains "<" s = false -> scontains "&" s = false ->
  words (browser_shows (fst (snd (q_line Q s b) f))) = words (strip s).
Proof.
  intros K N A. cbn [Q q_line html_effects e_seq e_html fst snd].
  destruct (blank_flags e_close_list ltac:(cbn; tauto) f) as (b1 & D1 & B1). set (f1 := snd (snd e_close_list f)) in *.
  destruct (blank_flags e_open_p ltac:(cbn; tauto) f1) as (b2 & D2 & B2). set (f2 := snd (snd e_open_p f1)) in *.
  destruct (blank_flags (if b then e_close_p else e_put ("<br>" +s+ nl)) ltac:(destruct b; cbn; tauto) f2) as (b3 & D3 & B3).
  rewrite (browser_of _ (b1 +s+ b2 +s+ (strip s +s+ nl) +s+ b3)).
  - rewrite words_blank, words_blank, words_blank_end, words_end_nl by assumption. reflexivity.
  - apply dtag_app; [exact D1|]. apply dtag_app; [exact D2|]. apply dtag_app; [|exact D3]. apply dtag_app; [now apply dtag_hconv|intros x; reflexivity].
  - rewrite !scontains_app, (blank_amp b1 B1), (blank_amp b2 B2), (blank_amp b3 B3), strip_chars by (auto; discriminate). reflexivity.
Qed.

Lemma item_html k d f : hok nd k = true -> hok nd d = true -> scontains "<" k = false -> scontains "&" k = false ->
  scontains "<" d = false -> scontains "&" d = false ->
  words (browser_shows (fst (snd (q_item Q k d) f))) = words (strip k) ++ words (strip d).
Proof.
  intros Kk Kd Nk Ak Nd Ad. cbn [Q q_item html_effects e_seq e_html fst snd].
  destruct (blank_flags e_close_p ltac:(cbn; tauto) f) as (b1 & D1 & B1). set (f1 := snd (snd e_close_p f)) in *.
  destruct (blank_flags e_open_list ltac:(cbn; tauto) f1) as (b2 & D2 & B2). set (f2 := snd (snd e_open_list f1)) in *.
  rewrite (browser_of _ (b1 +s+ b2 +s+ ("" +s+ strip k +s+ nl) +s+ ("" +s+ strip d +s+ nl))).
  - rewrite words_blank, words_blank by assumption. cbn [String.append]. rewrite app_assoc_s. unfold nl at 1. cbn [String.append].
    rewrite words_app by reflexivity. now rewrite words_end_nl.
  - apply dtag_app; [exact D1|]. apply dtag_app; [exact D2|]. apply dtag_app.
    + apply dtag_app; [intros x; reflexivity|]. apply dtag_app; [now apply dtag_hconv|intros x; reflexivity].
    + apply dtag_app; [intros x; reflexivity|]. apply dtag_app; [now apply dtag_hconv|intros x; reflexivity].
  - rewrite !scontains_app, (blank_amp b1 B1), (blank_amp b2 B2), !strip_chars by (auto; discriminate). reflexivity.
Qed.

Lemma op_html vs o f : is_positional o = false -> fst (q_print Q (the_item vs o)) = true ->
  good_item (fun s => scontains "<" s = false /\ scontains "&" s = false) (the_item vs o) -> forallb no_backslash (op_names o) = true ->
  entry_words html_view o (words (browser_shows (fst (snd (q_print Q (the_item vs o)) f)))).
Proof.
  destruct o as [[x t c|x c|x t c]|s a|s a|s b a|k d a]; intros HP H1 H2 HN; try discriminate HP;
    unfold the_item in *; cbn [item_of q_print good_item op_names forallb] in *; unfold entry_words; cbn [html_view v_title v_subtitle v_text].
  - rewrite !andb_true_iff in HN. destruct HN as (N1 & N2 & N3 & _). cbn [Q q_item html_effects e_seq e_close_p e_open_list e_html fst andb] in H1. apply andb_prop in H1 as [K D].
    destruct H2 as [[E1 E2] [E3 E4]]. rewrite item_html by assumption. rewrite (strip_prep c N1 N2).
    change (strip (" " +s+ type_info t)) with (" " +s+ strip (type_info t)). rewrite (strip_type t N3). eexists. reflexivity.
  - rewrite !andb_true_iff in HN. destruct HN as (N1 & N2 & _). cbn [Q q_item html_effects e_seq e_close_p e_open_list e_html fst andb] in H1. apply andb_prop in H1 as [K D].
    destruct H2 as [[E1 E2] [E3 E4]]. rewrite item_html by assumption. pose proof (strip_prep c N1 N2 "") as X. rewrite !app_nil_r_s in X. now rewrite X.
  - destruct H2. apply (title_html "h2" s f); auto.
  - destruct H2. apply (title_html "h3" s f); auto.
  - destruct H2. apply line_html; auto. cbn [Q q_line html_effects e_seq e_close_list e_open_p e_html fst andb] in H1. now apply andb_prop in H1 as [K _].
  - cbn [Q q_item html_effects e_seq e_close_p e_open_list e_html fst andb] in H1. apply andb_prop in H1 as [K D]. destruct H2 as [[E1 E2] [E3 E4]]. now apply item_html.
Qed.

End html_shows.

Lemma names_of l o : forallb no_backslash (flat_map op_names l) = true -> In o l -> forallb no_backslash (op_names o) = true.
Proof.
  intros HN Ho. apply forallb_forall. intros s Hs. rewrite forallb_forall in HN. apply HN. apply in_flat_map. now exists o.
Qed.

Lemma html_page_entries e r out : pr_format r = FHtml -> page e r = Ret out ->
  forallb html_free (flat_map (op_texts (pr_vars r)) (pr_ops r)) = true ->
  forallb no_backslash (flat_map op_names (pr_ops r)) = true ->
  exists before blocks closing after,
    out = before +s+ "<h2>Options</h2>" +s+ nl +s+ sconcat blocks +s+ closing +s+ "<h3>Common options</h3>" +s+ nl +s+ after
    /\ words (browser_shows closing) = []
    /\ Forall2 (fun o b => entry_words html_view o (words (browser_shows b)))
         (filter (fun o => negb (is_positional o) && shown false o) (pr_ops r)) blocks.
Proof.
  intros HF HP HE HN. pose proof (html_page_eff e r HF) as X. cbn zeta in X.
  destruct (fst (e_page _ _ _ _)) eqn:OK; [|rewrite HP in X; discriminate].
  rewrite X in HP. apply Ret_inj in HP. subst out.
  destruct (page_blocks (html_effects (pe_ndebug e)) (exports e) false r (false, false) OK) as (before & bs & after & f1 & f2 & E & Hbs & Hok).
  exists (before +s+ fst (snd e_close_list f1) +s+ fst (snd e_close_p (snd (snd e_close_list f1)))), bs,
    (fst (snd e_close_list f2) +s+ fst (snd e_close_p (snd (snd e_close_list f2)))), after. split; [|split].
  - rewrite E. cbn [q_section q_subsection html_effects e_seq e_html fst snd].
    change (hconv (pe_ndebug e) "Options") with "Options". change (hconv (pe_ndebug e) "Common options") with "Common options".
    rewrite !app_assoc_s. reflexivity.
  - destruct f2 as [[] []]; reflexivity.
  - pose proof (items_html_free false _ _ HE) as HI. rewrite set_up_map in HI.
    apply (entries_from (html_effects (pe_ndebug e)) (pr_vars r)); [exact Hbs|]. intros o f Ho. apply filter_In in Ho as [Ho Hs].
    apply andb_prop in Hs as [Hp Hs]. apply op_html.
    + apply negb_true_iff, Hp.
    + rewrite forallb_forall in Hok. apply Hok, in_map, filter_In. rewrite Hp, Hs. exact (conj Ho eq_refl).
    + rewrite Forall_forall in HI. apply HI, in_map, filter_In. rewrite Hp, Hs. exact (conj Ho eq_refl).
    + apply (names_of (pr_ops r)); assumption.
Qed.

(** ** Man pages *)

Definition mk_man (s : string) (f : bool) : mstate := {| n_out := s; n_first := f |}.

Definition man_effects : @effects bool :=
  {| q_header := fun m => (true, fun f =>
       (".TH " +s+ smap to_upper (m_app_name m) +s+ " " +s+ Z_to_string (Z.of_N (m_man_page_section m))
           +s+ " """ +s+ m_date m +s+ """ """ +s+ smap to_lower (m_app_name m) +s+ " " +s+ m_version m +s+ """ """
           +s+ m_man_page_title m +s+ """" +s+ nl
           +s+ ".SH NAME" +s+ nl +s+ m_app_name m +s+ " \- " +s+ m_short_description m +s+ nl, f));
     q_section := fun s => (true, fun _ => (".SH " +s+ smap to_upper s +s+ nl, true));
     q_subsection := fun s => (true, fun _ => (".SS " +s+ s +s+ nl, true));
     q_line := fun s b => (true, fun f : bool => ((if f then "" else if b then ".sp" +s+ nl else ".br" +s+ nl) +s+ s +s+ nl, false));
     q_item := fun k d => (true, fun _ => (".TP" +s+ nl +s+ k +s+ nl +s+ d +s+ nl, false));
     q_footer := e_ret; q_bold := fun s => "\fB" +s+ s +s+ "\fR" |}.

Lemma man_implements : implements mk_man man_printer man_effects.
Proof.
  refine (conj _ (conj _ (conj _ (conj _ (conj _ (conj _ _))))));
    cbn [p_header p_section p_subsection p_line p_item p_footer p_bold q_header q_section q_subsection q_line q_item q_footer q_bold man_effects man_printer].
  - intros m s f. reflexivity.
  - intros s a f. reflexivity.
  - intros s a f. reflexivity.
  - intros s b a f. unfold man_line, put_man, set_first, modify, bind, mk_man. cbn [fst snd n_out n_first]. now rewrite app_assoc_s.
  - intros k d a f. reflexivity.
  - apply does_ret.
  - reflexivity.
Qed.

Lemma man_page_eff e r : pr_format r = FMan ->
  let E := e_page man_effects (exports e) false r in
  if fst E then page e r = Ret (fst (snd E true)) else is_ret (page e r) = false.
Proof.
  intros HF. cbn zeta. unfold page. rewrite HF.
  pose proof (does_page mk_man _ _ (exports e) false r man_implements "" true) as X.
  destruct (fst (e_page _ _ _ _)).
  - unfold printed. change man_init with (mk_man "" true). rewrite X. reflexivity.
  - unfold printed. change man_init with (mk_man "" true).
    destruct (print_page _ _ _ _ _) as [st []]; cbn in *; try discriminate; reflexivity.
Qed.

(** the man page fails only for a synopsis line without blank *)
Lemma man_page_succeeds e r : pr_format r = FMan -> has_commands (pr_info r) = true -> exists out, page e r = Ret out.
Proof.
  intros HF HC. pose proof (man_page_eff e r HF) as X. cbn zeta in X.
  enough (P : fst (e_page man_effects (exports e) false r) = true) by (rewrite P in X; eexists; exact X).
  apply (Pe_page_before_footer _ (fun s => True) (fun a => fst a = true)); try (intros; exact I); try reflexivity.
  - intros a b Ha Hb. cbn. now rewrite Ha, Hb.
  - exact HC.
  - apply Forall_forall. intros; exact I.
Qed.

Lemma one_line_scontains s : one_line s = negb (scontains "010" s).
Proof.
  induction s as [|c s IH]; [reflexivity|]. cbn [one_line sall scontains]. fold (one_line s). rewrite IH, (Ascii.eqb_sym c "010").
  now destruct (Ascii.eqb "010" c), (scontains "010" s).
Qed.

Lemma items_one_line adv vs l : forallb one_line (flat_map (op_texts vs) l) = true ->
  Forall (good_item (fun s => one_line s = true)) (set_up_calls adv vs l).
Proof.
  intros H. apply good_items.
  - intros a b A B. now rewrite one_line_app, A, B.
  - intros s A. now rewrite !one_line_app, A.
  - intros s A. now rewrite !one_line_app, A.
  - intros s A. rewrite one_line_scontains, (plain_text_not "010" s); [reflexivity|cbn; tauto|exact A].
  - apply Forall_forall. now apply forallb_forall.
Qed.

Lemma man_words_line a b : one_line a = true ->
  man_words (a +s+ nl +s+ b) = words (strip (if is_request a then title_of a else a)) ++ man_words b.
Proof. intros H. unfold man_words. now rewrite (lines_app a b H). Qed.

Lemma man_words_text a b : one_line a = true -> is_request a = false -> man_words (a +s+ nl +s+ b) = words (strip a) ++ man_words b.
Proof. intros H R. now rewrite (man_words_line a b H), R. Qed.

Lemma prep_request s l b : is_request (prep_id s l +s+ " " +s+ b) = false.
Proof. unfold prep_id. destruct (Ascii.eqb s nul), (is_empty l); reflexivity. Qed.

Lemma prep_request_flag s l : is_request (prep_id s l) = false.
Proof. unfold prep_id. destruct (Ascii.eqb s nul), (is_empty l); reflexivity. Qed.

Lemma upper_one_line s : one_line s = true -> one_line (smap to_upper s) = true.
Proof.
  induction s as [|c s IH]; [reflexivity|]. cbn [one_line sall smap]. intros H. apply andb_prop in H as [Hc H].
  fold (one_line (smap to_upper s)). rewrite (IH H), andb_true_r. revert Hc. clear. destruct c as [[] [] [] [] [] [] [] []]; vm_compute; auto.
Qed.

Lemma title_line t s : t = ".SH " \/ t = ".SS " -> (if is_request (t +s+ s) then title_of (t +s+ s) else t +s+ s) = s.
Proof.
  intros Ht. assert (P : String.prefix t (t +s+ s) = true) by (apply prefix_iff; now exists s).
  unfold title_of. destruct Ht as [-> | ->]; [rewrite P; reflexivity|]. rewrite P, orb_true_r. reflexivity.
Qed.

Lemma op_man vs o f : is_positional o = false -> good_item (fun s => one_line s = true) (the_item vs o) ->
  no_request o = true -> forallb no_backslash (op_names o) = true ->
  entry_words man_view o (man_words (fst (snd (q_print man_effects (the_item vs o)) f))).
Proof.
  assert (IT : forall k d, one_line k = true -> one_line d = true -> is_request k = false -> is_request d = false ->
    man_words (fst (snd (q_item man_effects k d) f)) = words (strip k) ++ words (strip d)).
  { intros k d K D RK RD. cbn [man_effects q_item fst snd]. rewrite (man_words_line ".TP") by reflexivity.
    change (words (strip (if is_request ".TP" then title_of ".TP" else ".TP"))) with (@nil string). cbn [app].
    rewrite (man_words_text k), <- (app_nil_r_s nl), (man_words_text d) by assumption.
    change (man_words "") with (@nil string). now rewrite app_nil_r. }
  destruct o as [[x t c|x c|x t c]|s a|s a|s b a|k d a]; intros HP H2 HR HN; try discriminate HP;
    unfold the_item in *; cbn [item_of q_print good_item op_names forallb no_request] in *; unfold entry_words; cbn [man_view v_title v_subtitle v_text].
  - rewrite !andb_true_iff in HN. destruct HN as (N1 & N2 & N3 & _). destruct H2 as [K D]. apply andb_prop in HR as [RE RD]. rewrite negb_true_iff in RE, RD.
    rewrite IT; auto; [|apply prep_request|unfold option_info; destruct (c_desc c); [discriminate RE|exact RD]]. rewrite (strip_prep c N1 N2).
    change (strip (" " +s+ type_info t)) with (" " +s+ strip (type_info t)). rewrite (strip_type t N3). eexists. reflexivity.
  - rewrite !andb_true_iff in HN. destruct HN as (N1 & N2 & _). destruct H2 as [K D]. rewrite negb_true_iff in HR.
    rewrite IT; auto; [|apply prep_request_flag]. pose proof (strip_prep c N1 N2 "") as X. rewrite !app_nil_r_s in X. now rewrite X.
  - cbn [man_effects q_section fst snd]. rewrite <- (app_nil_r_s nl), <- app_assoc_s. rewrite man_words_line by (rewrite one_line_app, upper_one_line; auto).
    change (man_words "") with (@nil string). rewrite app_nil_r. rewrite <- upper_smap. now rewrite title_line by auto.
  - cbn [man_effects q_subsection fst snd]. rewrite <- (app_nil_r_s nl), <- app_assoc_s. rewrite man_words_line by (rewrite one_line_app; auto).
    change (man_words "") with (@nil string). rewrite app_nil_r. now rewrite title_line by auto.
  - cbn [man_effects q_line fst snd]. rewrite negb_true_iff in HR.
    assert (X : man_words (s +s+ nl) = words (strip s)).
    { rewrite <- (app_nil_r_s nl), man_words_text by assumption. change (man_words "") with (@nil string). apply app_nil_r. }
    destruct f; [exact X|]. destruct b.
    + rewrite app_assoc_s. rewrite (man_words_line ".sp") by reflexivity. exact X.
    + rewrite app_assoc_s. rewrite (man_words_line ".br") by reflexivity. exact X.
  - destruct H2 as [K D]. apply andb_prop in HR as [RK RD]. rewrite negb_true_iff in RK, RD. now apply IT.
Qed.

Lemma man_page_entries e r out : pr_format r = FMan -> page e r = Ret out ->
  forallb one_line (flat_map (op_texts (pr_vars r)) (pr_ops r)) = true ->
  forallb no_request (pr_ops r) = true ->
  forallb no_backslash (flat_map op_names (pr_ops r)) = true ->
  exists before blocks after,
    out = before +s+ ".SH OPTIONS" +s+ nl +s+ sconcat blocks +s+ ".SS Common options" +s+ nl +s+ after
    /\ Forall2 (fun o b => entry_words man_view o (man_words b))
         (filter (fun o => negb (is_positional o) && shown false o) (pr_ops r)) blocks.
Proof.
  intros HF HP HE HR HN. pose proof (man_page_eff e r HF) as X. cbn zeta in X.
  destruct (fst (e_page _ _ _ _)) eqn:OK; [|rewrite HP in X; discriminate].
  rewrite X in HP. apply Ret_inj in HP. subst out.
  destruct (page_blocks man_effects (exports e) false r true OK) as (before & bs & after & f1 & f2 & E & Hbs & Hok).
  exists before, bs, after. split.
  - rewrite E. cbn [q_section q_subsection man_effects e_seq fst snd]. change (smap to_upper "Options") with "OPTIONS".
    rewrite !app_assoc_s. reflexivity.
  - pose proof (items_one_line false _ _ HE) as HI. rewrite set_up_map in HI.
    apply (entries_from man_effects (pr_vars r)); [exact Hbs|]. intros o f Ho. apply filter_In in Ho as [Ho Hs].
    apply andb_prop in Hs as [Hp Hs]. apply op_man.
    + apply negb_true_iff, Hp.
    + rewrite Forall_forall in HI. apply HI, in_map, filter_In. rewrite Hp, Hs. exact (conj Ho eq_refl).
    + rewrite forallb_forall in HR. apply HR, Ho.
    + apply (names_of (pr_ops r)); assumption.
Qed.
