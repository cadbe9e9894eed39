(** Proofs: exactly when a page is printed (C46). *)
From Verif Require Import Base StrLib Fs Values Validators FormatParse Parser HelpBase HelpText HelpExport HelpSpec HelpTextProofs
  HelpPage HelpGood HelpLayout HelpExportProofs HelpEntries HelpOther PageSpec.

Lemma printable_cons c s : c <> "\"%char -> c <> nul -> printable (String c s) = printable s.
Proof.
  intros Hb Hn. unfold printable.
  assert (U : until_nul (String c s) = String c (until_nul s)).
  { unfold until_nul. cbn [sfind]. rewrite Ascii.eqb_sym, (proj2 (Ascii.eqb_neq c nul) Hn). destruct (sfind nul s); reflexivity. }
  rewrite U. destruct (is_space c) eqn:Sp; [now rewrite words_cons_space|].
  destruct (split_space (until_nul s)) as [So|(w & d & r & -> & W & Sd & _)].
  - rewrite (words_solid _ So). rewrite (words_solid (String c (until_nul s))).
    + cbn [is_empty forallb closed]. rewrite (proj2 (Ascii.eqb_neq c "\") Hb). destruct (until_nul s); reflexivity.
    + unfold solid in *. cbn [sall]. now rewrite Sp, So.
  - change (String c (w +s+ String d r)) with (String c w +s+ String d r). rewrite !(words_app _ _ _ Sd), !forallb_app. f_equal.
    rewrite (words_solid w W), (words_solid (String c w)).
    + cbn [is_empty forallb closed]. rewrite (proj2 (Ascii.eqb_neq c "\") Hb). destruct w; reflexivity.
    + unfold solid in *. cbn [sall]. now rewrite Sp, W.
Qed.

Lemma forallb_mapped {A B} (f : B -> bool) (g : A -> B) l : forallb f (map g l) = forallb (fun a => f (g a)) l.
Proof. induction l as [|a l IH]; [reflexivity|]. cbn. now rewrite IH. Qed.

Definition bland (s : string) : bool := negb (scontains "\" s) && negb (scontains nul s).

Lemma bland_cons c s : bland (String c s) = true -> c <> "\"%char /\ c <> nul /\ bland s = true.
Proof.
  unfold bland. cbn [scontains]. rewrite !negb_orb, !andb_true_iff, !negb_true_iff. intros [[A B] [C D]].
  rewrite Ascii.eqb_neq in A, C. rewrite B, D. split; [congruence|]. split; [congruence|]. auto.
Qed.

Lemma printable_plain p s : bland p = true -> printable (p +s+ s) = printable s.
Proof.
  induction p as [|c p IH]; [reflexivity|]. intros H. apply bland_cons in H as (A & B & C). cbn [String.append].
  now rewrite printable_cons, IH.
Qed.

Lemma closed_plain p s : bland p = true -> closed (p +s+ s) = closed s.
Proof.
  induction p as [|c p IH]; [reflexivity|]. intros H. apply bland_cons in H as (A & B & C). cbn [String.append closed].
  rewrite (proj2 (Ascii.eqb_neq c "\") A). auto.
Qed.

Lemma opened_plain p s : bland p = true -> forall n, opened n (p +s+ s) = opened n s.
Proof.
  induction p as [|c p IH]; [reflexivity|]. intros H n. apply bland_cons in H as (A & B & C). cbn [String.append opened].
  rewrite (proj2 (Ascii.eqb_neq c "\") A). auto.
Qed.

(** the result of to_html *)
Lemma html_ok nd s : hok nd s = taggable s.
Proof.
  unfold hok, to_html, taggable. assert (G : forall tags, is_ret (html_from nd tags s) = opened (List.length tags) s).
  2:{ apply (G []). }
  revert s. apply (str_ind_len (fun s => forall tags, is_ret (html_from nd tags s) = opened (List.length tags) s)).
  assert (L : forall (r : res string) k, (forall x, is_ret (k x) = true) -> is_ret (lift_res (B := string) r k) = is_ret r).
  { intros [] k K; cbn; auto. }
  intros [|c s1] IH tags; [reflexivity|]. cbn [html_from opened]. destruct (Ascii.eqb c "\").
  2:{ rewrite L by reflexivity. apply IH. cbn; lia. }
  destruct s1 as [|d s2]; [now destruct nd|]. destruct (Ascii.eqb_spec d "-") as [->|Hd].
  { change (Ascii.eqb "-" "f") with false. rewrite L by reflexivity. apply IH. cbn; lia. }
  destruct (Ascii.eqb d "f").
  2:{ rewrite L by reflexivity. apply IH. cbn; lia. }
  destruct s2 as [|e s3]; [now destruct nd|].
  destruct (Ascii.eqb_spec e "I") as [->|].
  { change (Ascii.eqb "I" "B" || true) with true. rewrite L by reflexivity. rewrite IH by (cbn; lia). reflexivity. }
  destruct (Ascii.eqb_spec e "B") as [->|].
  { cbn [orb]. rewrite L by reflexivity. rewrite IH by (cbn; lia). reflexivity. }
  cbn [orb]. destruct (Ascii.eqb e "P").
  - destruct tags as [|t tags]; [now destruct nd|]. rewrite L by reflexivity. apply IH. cbn; lia.
  - rewrite L by reflexivity. apply IH. cbn; lia.
Qed.

(** and without tags *)
Definition bland1 (s : string) : bool := bland s && negb (scontains "<" s).
Lemma bland1_bland s : bland1 s = true -> bland s = true.
Proof. unfold bland1. now destruct (bland s). Qed.

(** ** Any page *)

Section exact.
Context {F : Type} (Q : @effects F) (fine term title : string -> bool) (name_ok : string -> Prop) (ex : string).

Hypothesis fine_nil : fine "" = true.
Hypothesis fine_plain : forall p s, bland1 p = true -> fine (p +s+ s) = fine s.
Hypothesis term_argument : forall n s, term ("\fBARGUMENT-" +s+ nat_to_string n +s+ "\fP " +s+ s) = term s.
Hypothesis term_known : forallb term ["\fB-h\fP, \fB--help\fP"; "\fB-hh\fP, \fB--advanced-help\fP"; "\fB--version\fP"; "\fB--copyright\fP";
  "\fB--export-help\fP (std::string)"; "\fB--version-check\fP (bool)"] = true.
Hypothesis title_known : forallb title ["Version"; "Url"; "Legal"; "Subcommands"; "Common options"; "Synopsis"; "Description";
  "Positional Arguments"; "Options"; "Examples"] = true.
Hypothesis fine_before : fine ("The following options belong to the top-level parser and need to be "
                +s+ "specified \fBbefore\fP the subcommand key word. Every argument after the "
                +s+ "subcommand key word is passed on to the corresponding sub-parser.") = true.
Hypothesis fine_bold : forall a s, bland1 a = true -> fine (q_bold Q a +s+ s) = fine s.
Hypothesis fine_copyright : fine (q_bold Q "--copyright" +s+ ".") = true.
Hypothesis fine_app : forall a v s, name_ok a -> bland1 v = true -> fine (q_bold Q (a +s+ " " +s+ v) +s+ s) = fine (a +s+ " " +s+ v +s+ s).
Hypothesis H_header : forall m, fst (q_header Q m) = title (m_app_name m) && title (m_short_description m).
Hypothesis H_section : forall s, fst (q_section Q s) = title s.
Hypothesis H_subsection : forall s, fst (q_subsection Q s) = title s.
Hypothesis H_line : forall s b, fst (q_line Q s b) = fine s.
Hypothesis H_item : forall k d, fst (q_item Q k d) = term k && fine d.
Hypothesis H_footer : fst (q_footer Q) = true.
Hypothesis ex_bland1 : bland1 ex = true.

Lemma fine_const p : bland1 p = true -> fine p = true.
Proof. intros H. rewrite <- (app_nil_r_s p), fine_plain by exact H. exact fine_nil. Qed.

Lemma fst_seq (a b : eff F) : fst (e_seq a b) = fst a && fst b.
Proof. reflexivity. Qed.

Lemma title_in s : In s ["Version"; "Url"; "Legal"; "Subcommands"; "Common options"; "Synopsis"; "Description";
  "Positional Arguments"; "Options"; "Examples"] -> title s = true.
Proof. exact (proj1 (forallb_forall title _) title_known s). Qed.
Lemma term_in s : In s ["\fB-h\fP, \fB--help\fP"; "\fB-hh\fP, \fB--advanced-help\fP"; "\fB--version\fP"; "\fB--copyright\fP";
  "\fB--export-help\fP (std::string)"; "\fB--version-check\fP (bool)"] -> term s = true.
Proof. exact (proj1 (forallb_forall term _) term_known s). Qed.

Ltac listing := cbn [In]; tauto.

Lemma ok_version m : name_ok (m_app_name m) -> fst (e_version Q m) = forallb fine (version_texts m).
Proof.
  intros NK. unfold e_version, version_texts. rewrite !fst_seq, H_section, !H_line, (title_in "Version") by listing. cbn [forallb andb].
  rewrite (fine_bold "Last update: "), (fine_bold "Sharg version: ") by reflexivity. rewrite (fine_const sharg_version) by reflexivity.
  assert (A : fine (q_bold Q (m_app_name m +s+ " version: ") +s+ m_version m) = fine (m_app_name m +s+ " version: " +s+ m_version m))
    by (apply (fine_app (m_app_name m) "version: "); [exact NK|reflexivity]).
  rewrite A. clear A.
  destruct (m_url m) as [|c u]; cbn [is_empty negb e_when].
  - rewrite fine_nil. cbn [e_ret fst andb]. now rewrite !andb_true_r.
  - rewrite fst_seq, H_section, H_line, (title_in "Url") by listing. cbn [andb]. now rewrite !andb_true_r.
Qed.

Lemma ok_legal m : name_ok (m_app_name m) -> fst (e_legal Q m) = forallb fine (legal_texts m).
Proof.
  intros NK.
  assert (W : forall s (x : eff F), fst (e_when (negb (is_empty s)) x) = if is_empty s then true else fst x) by (intros [|? ?] x; reflexivity).
  assert (T : forall s, (if is_empty s then true else fine s) = fine s) by (intros [|? ?]; [now rewrite fine_nil|reflexivity]).
  assert (A : forall s, fine (m_app_name m +s+ " Copyright: " +s+ s) = fine (q_bold Q (m_app_name m +s+ " Copyright: ") +s+ s)).
  { intros s. symmetry. apply (fine_app (m_app_name m) "Copyright: "); [exact NK|reflexivity]. }
  unfold legal_texts. rewrite forallb_app. cbn [forallb].
  assert (E : forallb fine (if is_empty (m_short_copyright m) then [] else [m_app_name m +s+ " Copyright: " +s+ m_short_copyright m])
     = if is_empty (m_short_copyright m) then true else fine (m_app_name m +s+ " Copyright: " +s+ m_short_copyright m)).
  { destruct (is_empty _); [reflexivity|]. cbn. now rewrite andb_true_r. }
  rewrite E. unfold e_legal.
  destruct (negb (is_empty (m_short_copyright m)) || _ || _ || _ || _) eqn:G.
  - cbn [e_when]. rewrite !fst_seq, !W, H_section, !H_line, (title_in "Legal") by listing. cbn [andb].
    rewrite (fine_bold "Author: "), (fine_bold "Contact: "), (fine_bold "SeqAn Copyright: "), (fine_bold "In your academic works please cite: ") by reflexivity.
    rewrite !T, A.
    rewrite (fine_const "2006-2024 Knut Reinert, FU-Berlin; released under the 3-clause BSDL.") by reflexivity. cbn [andb].
    rewrite (fine_plain "For full copyright and/or warranty information see ") by reflexivity. rewrite fine_copyright.
    destruct (is_empty (m_long_copyright m)); rewrite ?andb_true_r; reflexivity.
  - rewrite !orb_false_iff, !negb_false_iff in G. destruct G as ((((G1 & _) & G2) & G3) & G4). rewrite G1.
    rewrite <- (T (m_author m)), <- (T (m_email m)), <- (T (m_citation m)), G2, G3, G4. reflexivity.
Qed.

Lemma ok_subcommands m subs : fst (e_subcommands Q m subs) = forallb fine (subcommand_texts m subs).
Proof.
  unfold subcommand_texts. destruct subs as [|s0 l]; [reflexivity|]. unfold e_subcommands. rewrite forallb_app.
  rewrite !fst_seq, H_section, !H_line, e_map_ok, (title_in "Subcommands") by listing.
  rewrite (fine_const "This program must be invoked with one of the following subcommands:") by reflexivity.
  rewrite (fine_plain "See the respective help page for further details (e.g. by calling ") by reflexivity.
  rewrite fine_before. cbn [andb forallb]. rewrite !andb_true_r. f_equal.
  assert (G : forall s, fst (q_line Q ("- \fB" +s+ s +s+ "\fP") false) = fine (bold s)).
  { intros s. rewrite H_line. apply (fine_plain "- "). reflexivity. }
  rewrite G. change (forallb fine (map bold (s0 :: l))) with (fine (bold s0) && forallb fine (map bold l)). f_equal.
  rewrite forallb_mapped. clear -G. induction l as [|s l IH]; [reflexivity|]. cbn [forallb]. now rewrite G, IH.
Qed.

Lemma ok_common dev : fst (e_common Q ex dev) = true.
Proof.
  unfold e_common. rewrite !fst_seq, H_subsection, !H_item. rewrite !term_in by listing. rewrite (title_in "Common options") by listing.
  rewrite (fine_const "Prints the help page.") by reflexivity.
  rewrite (fine_const "Prints the help page including advanced options.") by reflexivity.
  rewrite (fine_const "Prints the version information.") by reflexivity.
  rewrite (fine_const "Prints the copyright/license information.") by reflexivity.
  rewrite (fine_plain "Export the help page information. Value must be one of ") by reflexivity.
  rewrite (fine_plain ex) by exact ex_bland1. rewrite (fine_const ".") by reflexivity.
  destruct dev; [|reflexivity]. cbn [e_when]. rewrite H_item, term_in by listing. cbn [andb]. now apply fine_const.
Qed.

Lemma marked_names_eq c : prep_id (c_short c) (c_long c) = marked_names c.
Proof.
  unfold prep_id, marked_names, bold. destruct (Ascii.eqb (c_short c) nul), (is_empty (c_long c)); cbn [negb andb];
    rewrite ?app_nil_r_s; reflexivity.
Qed.
Lemma marked_type_eq t : type_info t = marked_type t.
Proof. destruct t as [e|e]; unfold marked_type, slanted, type_info; rewrite ?app_assoc_s; reflexivity. Qed.
Lemma value_text_eq t v : default_of_value t v = " Default: " +s+ value_text t v.
Proof. destruct t as [[]|[]]; reflexivity. Qed.
Lemma default_text_eq t v c : option_info t v c = c_desc c +s+ default_text t v c +s+ checked_text c.
Proof.
  unfold option_info, default_text, checked_text, validator_info. rewrite value_text_eq. destruct (is_empty (c_default_message c)); [reflexivity|].
  destruct t as [[]|[]]; reflexivity.
Qed.

Definition item_ok (i : item) : bool := fst (q_print Q i).

Lemma ok_items adv vs l : fst (e_map (q_print Q) (set_up_calls adv vs l)) =
  forallb fine (flat_map (op_lines vs) (filter (listed adv) l)) && forallb term (flat_map op_terms (filter (listed adv) l))
  && forallb title (flat_map op_titles (filter (listed adv) l)).
Proof.
  rewrite e_map_ok, set_up_map.
  assert (E : filter (fun o => negb (is_positional o) && shown adv o) l = filter (listed adv) l).
  { apply filter_ext. intros o. unfold listed, shown, on_advanced_help, on_help. destruct (is_positional o), (is_hidden o), (is_advanced o), adv; reflexivity. }
  rewrite E. assert (P : forall o, In o (filter (listed adv) l) -> is_positional o = false).
  { intros o Ho. apply filter_In in Ho as [_ Ho]. unfold listed in Ho. now destruct (is_positional o). }
  revert P. generalize (filter (listed adv) l). clear l E. intros l P. induction l as [|o l IH]; [reflexivity|].
  cbn [map forallb flat_map]. rewrite !forallb_app, IH by (intros x Hx; apply P; now right).
  specialize (P o (or_introl eq_refl)).
  assert (G : fst (q_print Q (the_item vs o)) = forallb fine (op_lines vs o) && forallb term (op_terms o) && forallb title (op_titles o)).
  { destruct o as [[x t c|x c|x t c]|s a|s a|s b a|k d a]; cbn [the_item item_of q_print op_lines op_terms op_titles forallb andb] in *;
      rewrite ?H_item, ?H_section, ?H_subsection, ?H_line, ?andb_true_r; try reflexivity; try discriminate;
      rewrite ?marked_names_eq, ?marked_type_eq, ?default_text_eq, ?andb_true_r; try reflexivity; apply andb_comm. }
  rewrite G. clear. destruct (forallb fine (op_lines vs o)), (forallb term (op_terms o)), (forallb title (op_titles o)),
    (forallb fine (flat_map (op_lines vs) l)), (forallb term (flat_map op_terms l)), (forallb title (flat_map op_titles l)); reflexivity.
Qed.

Lemma ok_positionals vs l : forall n, fst (e_map (q_print Q) (positional_calls vs n l)) =
  forallb fine (flat_map (positional_text vs) l) && forallb term (flat_map positional_type l).
Proof.
  induction l as [|o l IH]; intros n; [reflexivity|].
  destruct o as [[x t c|x c|x t c]|s a|s a|s b a|k d a]; cbn [positional_calls flat_map positional_text positional_type app]; try apply IH.
  cbn [e_map]. rewrite fst_seq, IH. unfold positional_item. cbn [q_print]. rewrite H_item, term_argument, marked_type_eq. cbn [forallb].
  assert (E : (if is_container t then default_of_value t (vs x) else "") =
     match t with ListOf _ => " Default: " +s+ value_text t (vs x) | _ => "" end).
  { destruct t; [reflexivity|]. apply value_text_eq. }
  rewrite E. change (validator_info c) with (checked_text c). clear.
  destruct (fine _), (term _), (forallb fine _), (forallb term _); reflexivity.
Qed.

Lemma ok_synopsis m : forallb (fun s => fst (e_synopsis Q s)) (m_synopsis m) = has_commands m && forallb fine (synopsis_texts m).
Proof.
  unfold has_commands, synopsis_texts. rewrite forallb_mapped. induction (m_synopsis m) as [|s l IH]; [reflexivity|]. cbn [forallb]. rewrite IH.
  unfold e_synopsis. rewrite synopsis_line_eq. destruct (has_blank s); [|reflexivity]. rewrite H_line. fold (bold (to_blank s)). cbn [andb].
  generalize (fine (bold (to_blank s) +s+ from_blank s)), (forallb has_blank l),
    (forallb (fun a => fine (bold (to_blank a) +s+ from_blank a)) l). intros [] [] []; reflexivity.
Qed.

Lemma ok_lines p l : fst (e_map (fun d => q_line Q d p) l) = forallb fine l.
Proof. rewrite e_map_ok. induction l as [|d l IH]; [reflexivity|]. cbn [forallb]. now rewrite H_line, IH. Qed.

Lemma page_ok adv r : name_ok (m_app_name (pr_info r)) -> fst (e_page Q ex adv r) =
  has_commands (pr_info r) && forallb fine (all_lines adv r) && forallb term (all_terms adv r) && forallb title (all_titles adv r).
Proof.
  intros NK. unfold e_page, e_before, e_after, all_lines, all_terms, all_titles. cbv zeta.
  rewrite !fst_seq, ok_items, ok_positionals, ok_version, ok_legal, ok_subcommands, ok_common, H_footer, H_header, H_section, (title_in "Options") by (exact NK || listing).
  rewrite !forallb_app. cbn [forallb andb].
  assert (S1 : fst (e_when (nonempty (m_synopsis (pr_info r))) (e_seq (q_section Q "Synopsis") (e_map (e_synopsis Q) (m_synopsis (pr_info r)))))
      = has_commands (pr_info r) && forallb fine (synopsis_texts (pr_info r))).
  { rewrite <- ok_synopsis. destruct (m_synopsis (pr_info r)) as [|s l]; [reflexivity|]. cbn [nonempty e_when].
    rewrite fst_seq, H_section, (title_in "Synopsis"), e_map_ok by listing. reflexivity. }
  assert (S2 : forall t l p, title t = true -> fst (e_when (nonempty l) (e_seq (q_section Q t) (e_map (fun d => q_line Q d p) l))) = forallb fine l).
  { intros t l p Ht. destruct l as [|s l]; [reflexivity|]. cbn [nonempty e_when]. now rewrite fst_seq, H_section, Ht, ok_lines. }
  rewrite S1, (S2 "Description" (m_description (pr_info r)) true), (S2 "Examples" (m_examples (pr_info r)) true) by (apply title_in; listing).
  assert (S3 : forall A (l : list A), fst (e_when (nonempty l) (q_section Q "Positional Arguments")) = true).
  { intros A [|a l]; [reflexivity|]. cbn [nonempty e_when]. rewrite H_section. apply title_in. listing. }
  rewrite S3. rewrite !andb_true_r.
  repeat match goal with |- context [forallb ?f ?l] => let x := fresh "b" in generalize (forallb f l); intro x end.
  generalize (has_commands (pr_info r)), (title (m_app_name (pr_info r))), (title (m_short_description (pr_info r))).
  intros. repeat match goal with x : bool |- _ => destruct x; try reflexivity end.
Qed.

End exact.

(** ** The formats *)

Lemma bland_plain s : plain_text s = true -> scontains nul s = false -> bland s = true.
Proof. intros H N. unfold bland. rewrite N, (plain_text_not "\" s); [reflexivity|now left|exact H]. Qed.

Lemma bland_app a b : bland a = true -> bland b = true -> bland (a +s+ b) = true.
Proof.
  intros A B. induction a as [|c a IH]; [exact B|]. apply bland_cons in A as (A1 & A2 & A3). specialize (IH A3). unfold bland in *. cbn [String.append scontains].
  rewrite (proj2 (Ascii.eqb_neq "\" c)) by congruence. rewrite (proj2 (Ascii.eqb_neq nul c)) by congruence. exact IH.
Qed.

Lemma nat_bland n : bland (nat_to_string n) = true.
Proof.
  assert (D : forall d, bland (DecimalString.NilEmpty.string_of_uint d) = true).
  { induction d as [|d IH|d IH|d IH|d IH|d IH|d IH|d IH|d IH|d IH|d IH]; cbn; auto. }
  unfold nat_to_string, Z_to_string, DecimalString.NilZero.string_of_int, DecimalString.NilZero.string_of_uint.
  destruct (Z.to_int (Z.of_nat n)) as [d|d]; destruct d; try reflexivity; try apply D;
  match goal with |- bland (String ?c ?s) = true => exact (bland_app (str1 c) s eq_refl (D _)) end.
Qed.

Lemma exports_bland1 e : bland1 (exports e) = true.
Proof. unfold exports. now destruct (pe_tdl e). Qed.
Lemma exports_bland e : bland (exports e) = true.
Proof. unfold exports. now destruct (pe_tdl e). Qed.

Lemma printable_space a x : printable (a +s+ String " " x) = printable a && (scontains nul a || printable x).
Proof.
  unfold printable, until_nul. destruct (sfind nul a) as [n|] eqn:E.
  - pose proof E as E'. apply sfind_Some in E as (p & q & -> & -> & N & _).
    assert (S1 : sfind nul (p +s+ String nul q +s+ String " " x) = Some (String.length p)).
    { clear -N. induction p as [|c p IH]; [reflexivity|]. cbn [scontains] in N. apply orb_false_elim in N as [N1 N2].
      cbn [String.append sfind String.length]. rewrite N1. change (option_map S (sfind nul (p +s+ String nul q +s+ String " " x)) = Some (S (String.length p))).
      now rewrite IH. }
    rewrite app_assoc_s. cbn [String.append] in S1 |- *. rewrite S1, !stake_app.
    destruct (scontains nul (p +s+ String nul q)) eqn:C; [now rewrite andb_true_r|]. apply sfind_None in C. congruence.
  - rewrite (proj1 (sfind_None nul a) E). cbn [orb].
    assert (S1 : sfind nul (a +s+ String " " x) = option_map (fun k => String.length a + S k) (sfind nul x)).
    { apply sfind_None in E. clear -E. induction a as [|c a IH]; [cbn [String.append sfind String.length]; change (Ascii.eqb nul " ") with false; destruct (sfind nul x); reflexivity|].
      cbn [scontains] in E. apply orb_false_elim in E as [N1 N2]. cbn [String.append sfind String.length]. rewrite N1, (IH N2). destruct (sfind nul x); reflexivity. }
    rewrite S1. destruct (sfind nul x) as [k|] eqn:Ek; cbn [option_map].
    + apply sfind_Some in Ek as (p & q & -> & -> & _ & _). rewrite stake_app.
      replace (a +s+ String " " (p +s+ String nul q)) with ((a +s+ String " " p) +s+ String nul q) by (rewrite app_assoc_s; reflexivity).
      replace (String.length a + S (String.length p)) with (String.length (a +s+ String " " p)) by (rewrite length_app_s; reflexivity).
      now rewrite stake_app, words_app, forallb_app.
    + now rewrite words_app, forallb_app.
Qed.

Lemma opened_space x y : (forall n, opened n x = opened n y) -> forall a n, opened n (a +s+ String " " x) = opened n (a +s+ String " " y).
Proof.
  intros H a. revert a. apply (str_ind_len (fun a => forall n, opened n (a +s+ String " " x) = opened n (a +s+ String " " y))).
  intros [|c s1] IH n; [cbn [String.append opened]; change (Ascii.eqb " " "\") with false; apply H|]. cbn [String.append opened].
  destruct (Ascii.eqb c "\"); [|apply IH; cbn; lia].
  destruct s1 as [|d s2]; cbn [String.append]; [change (Ascii.eqb " " "f") with false; apply H|].
  destruct (Ascii.eqb d "f"); [|apply IH; cbn; lia].
  destruct s2 as [|e s3]; cbn [String.append].
  - change (Ascii.eqb " " "B" || Ascii.eqb " " "I") with false. change (Ascii.eqb " " "P") with false. apply H.
  - destruct (_ || _); [apply IH; cbn; lia|]. destruct (Ascii.eqb e "P"); [|apply IH; cbn; lia]. destruct n; [reflexivity|apply IH; cbn; lia].
Qed.

Lemma text_ok_printable s : text_ok s = printable s.
Proof. unfold text_ok, printable. now rewrite tokens_words. Qed.

Lemma in_bold_printable tty a s : bland a = true -> printable (in_bold tty a +s+ s) = printable s.
Proof.
  intros H. apply printable_plain. unfold in_bold, on_tty. destruct tty; repeat apply bland_app; auto.
Qed.
Lemma in_bold_app tty a v s : bland v = true -> printable (in_bold tty (a +s+ " " +s+ v) +s+ s) = printable (a +s+ " " +s+ v +s+ s).
Proof.
  intros H. unfold in_bold. rewrite !app_assoc_s, printable_plain by (destruct tty; reflexivity). cbn [String.append].
  rewrite !printable_space. f_equal. f_equal. rewrite !(printable_plain v) by exact H. apply printable_plain. destruct tty; reflexivity.
Qed.

Lemma help_exact e r adv : pr_format r = FHelp adv -> (exists out, page e r = Ret out) <-> help_prints adv r = true.
Proof.
  intros HF. pose proof (help_page_eff e r adv HF) as X. cbn zeta in X.
  rewrite (page_ok _ printable closed (fun _ => true) (fun _ => True) (exports e)) in X.
  - unfold help_prints. replace (forallb (fun _ : string => true) (all_titles adv r)) with true in X
      by (symmetry; apply forallb_forall; reflexivity). rewrite andb_true_r in X.
    destruct (has_commands (pr_info r) && forallb printable (all_lines adv r) && forallb closed (all_terms adv r)).
    + split; [reflexivity|]. intros _. eexists. exact X.
    + split; [|discriminate]. intros [out H]. rewrite H in X. discriminate.
  - reflexivity.
  - intros p s H. apply printable_plain, bland1_bland, H.
  - intros n s. change ("\fBARGUMENT-" +s+ nat_to_string n +s+ "\fP " +s+ s) with ("\fB" +s+ ("ARGUMENT-" +s+ nat_to_string n +s+ "\fP " +s+ s)).
    change (closed ("ARGUMENT-" +s+ nat_to_string n +s+ "\fP " +s+ s) = closed s). rewrite closed_plain by reflexivity.
    rewrite closed_plain by apply nat_bland. reflexivity.
  - reflexivity.
  - reflexivity.
  - reflexivity.
  - intros a s H. apply in_bold_printable, bland1_bland, H.
  - cbn [q_bold text_effects]. rewrite in_bold_printable; reflexivity.
  - intros a v s _ H. apply in_bold_app, bland1_bland, H.
  - reflexivity.
  - reflexivity.
  - reflexivity.
  - intros s b. apply text_ok_printable.
  - intros k d. cbn [q_item text_effects fst]. now rewrite text_ok_printable.
  - reflexivity.
  - apply exports_bland1.
  - exact Logic.I.
Qed.

Lemma html_exact e r : pr_format r = FHtml -> (exists out, page e r = Ret out) <-> html_prints r = true.
Proof.
  intros HF. pose proof (html_page_eff e r HF) as X. cbn zeta in X.
  rewrite (page_ok _ taggable taggable taggable (fun _ => True) (exports e)) in X.
  - unfold html_prints. rewrite !forallb_app, !andb_assoc.
    destruct (has_commands (pr_info r) && forallb taggable (all_lines false r) && forallb taggable (all_terms false r) && forallb taggable (all_titles false r)).
    + split; [reflexivity|]. intros _. eexists. exact X.
    + split; [|discriminate]. intros [out H]. rewrite H in X. discriminate.
  - reflexivity.
  - intros p s H. now apply opened_plain, bland1_bland.
  - intros n s. unfold taggable. change (opened 1 ("ARGUMENT-" +s+ nat_to_string n +s+ "\fP " +s+ s) = opened 0 s). rewrite opened_plain by reflexivity.
    rewrite opened_plain by apply nat_bland. reflexivity.
  - reflexivity.
  - reflexivity.
  - reflexivity.
  - intros a s H. apply bland1_bland in H. cbn [q_bold html_effects]. apply opened_plain. repeat apply bland_app; auto.
  - reflexivity.
  - intros a v s _ H. apply bland1_bland in H. cbn [q_bold html_effects]. unfold taggable. rewrite !app_assoc_s, opened_plain by reflexivity. cbn [String.append].
    apply opened_space. intros n. rewrite !(opened_plain v) by exact H. apply (opened_plain "</strong>"). reflexivity.
  - intros m. cbn [q_header html_effects e_seq e_put e_html fst andb]. now rewrite !html_ok.
  - intros s. cbn [q_section html_effects e_seq e_close_list e_close_p e_html fst andb]. apply html_ok.
  - intros s. cbn [q_subsection html_effects e_seq e_close_list e_close_p e_html fst andb]. apply html_ok.
  - intros s b. cbn [q_line html_effects e_seq e_close_list e_open_p e_html fst andb]. rewrite html_ok. destruct b; apply andb_true_r.
  - intros k d. cbn [q_item html_effects e_seq e_close_p e_open_list e_html fst andb]. now rewrite !html_ok.
  - reflexivity.
  - apply exports_bland1.
  - exact Logic.I.
Qed.

Lemma man_exact e r : pr_format r = FMan -> (exists out, page e r = Ret out) <-> has_commands (pr_info r) = true.
Proof.
  intros HF. split; [|intros H; now apply man_page_succeeds]. pose proof (man_page_eff e r HF) as X. cbn zeta in X.
  rewrite (page_ok _ (fun _ => true) (fun _ => true) (fun _ => true) (fun _ => True) (exports e)) in X by (reflexivity || exact Logic.I || apply exports_bland1).
  destruct (has_commands (pr_info r)); [reflexivity|]. intros [out H]. rewrite H in X. discriminate.
Qed.

Lemma page_of_eff_iff {St F} (mk : string -> F -> St) out m e f : (forall s f, out (mk s f) = s) -> does mk m e ->
  (exists t, printed out (m (mk "" f)) = Ret t) <-> fst e = true.
Proof.
  intros Ho H. split.
  - intros [t Ht]. destruct (fst e) eqn:K; [reflexivity|]. specialize (H "" f). rewrite K in H. unfold printed in Ht.
    destruct (m (mk "" f)) as [st r]. destruct r; cbn in *; discriminate.
  - intros K. eexists. exact (page_of_eff mk out m e f Ho H K).
Qed.

Lemma short_help_exact e r : pr_format r = FShortHelp -> (exists out, page e r = Ret out) <-> short_help_prints r = true.
Proof.
  intros HF. unfold page. rewrite HF. set (L := layout_of (pe_width e)). set (m := pr_info r).
  pose proof (text_implements (pe_ndebug e) (pe_tty e) L) as HI. set (Q := text_effects (pe_ndebug e) (pe_tty e) L) in *.
  pose proof (page_of_eff_iff mk_text t_out (short_help_page (pe_ndebug e) (pe_tty e) L m) (e_seq (q_header Q m)
     (e_seq (e_when (nonempty (m_synopsis m)) (e_map (e_synopsis Q) (m_synopsis m)))
     (q_line Q ("Try -h or --help for more information." +s+ nl) true))) false) as X.
  change (mk_text "" false) with text_init in X. rewrite X; clear X.
  - cbn [e_seq fst]. unfold short_help_prints. fold m.
    change (fst (q_header Q m)) with true. change (fst (q_line Q _ true)) with true. rewrite andb_true_r. cbn [andb].
    rewrite <- (ok_synopsis Q printable) by (intros s b; apply text_ok_printable).
    destruct (m_synopsis m) as [|s l] eqn:S; [reflexivity|]. cbn [nonempty e_when]. now rewrite e_map_ok.
  - reflexivity.
  - unfold short_help_page. destruct HI as (H1 & H2 & H3 & H4 & H5 & H6 & H7). apply does_bind; [apply H1|]. apply does_bind; [|apply H4].
    apply (does_when mk_text (nonempty (m_synopsis m))). apply does_map. intros s _. apply does_synopsis. repeat split; assumption.
Qed.

Lemma version_exact e r : pr_format r = FVersion -> (exists out, page e r = Ret out) <-> version_prints r = true.
Proof.
  intros HF. unfold page. rewrite HF. set (L := layout_of (pe_width e)). set (m := pr_info r).
  pose proof (text_implements (pe_ndebug e) (pe_tty e) L) as HI. set (Q := text_effects (pe_ndebug e) (pe_tty e) L) in *.
  pose proof (page_of_eff_iff mk_text t_out (version_page (pe_ndebug e) (pe_tty e) L m) (e_seq (q_header Q m) (e_version Q m)) false) as X.
  change (mk_text "" false) with text_init in X. rewrite X; clear X.
  - cbn [e_seq fst]. unfold version_prints. fold m. change (fst (q_header Q m)) with true. cbn [andb].
    rewrite (ok_version Q printable (fun _ => true) (fun _ => True)); try reflexivity; try exact Logic.I.
    + intros p s H. apply printable_plain, bland1_bland, H.
    + intros a s H. apply in_bold_printable, bland1_bland, H.
    + intros a v s _ H. apply in_bold_app, bland1_bland, H.
    + intros s b. apply text_ok_printable.
  - reflexivity.
  - unfold version_page. apply does_bind; [apply HI|]. now apply does_version.
Qed.

(** ** How printing fails *)

Section failing.
Context {St : Type} (nd commands : bool).

(** a backslash too many, or a synopsis without command *)
Definition tame {A} (m : M St A) : Prop := forall st,
  match snd (m st) with
  | Ret _ => True
  | Throw x => x = Exn KStdOutOfRange "basic_string::insert" /\ commands = false
  | UB => nd = true
  | AssertFail => nd = false
  | _ => False
  end.

Lemma tame_bind {A B} (m : M St A) (k : A -> M St B) : tame m -> (forall a, tame (k a)) -> tame (bind m k).
Proof. intros H K st. unfold bind. specialize (H st). destruct (m st) as [st1 []]; cbn [snd] in *; auto. apply K. Qed.
Lemma tame_ret {A} (a : A) : tame (ret a).
Proof. intros st. exact Logic.I. Qed.
Lemma tame_modify (f : St -> St) : tame (modify f).
Proof. intros st. exact Logic.I. Qed.
Lemma tame_map {A} (h : A -> M St unit) l : (forall a, In a l -> tame (h a)) -> tame (mapM_ h l).
Proof.
  induction l as [|a l IH]; intros H; [apply tame_ret|]. cbn [mapM_]. apply tame_bind; [apply H; now left|]. intros _. apply IH. intros b Hb. apply H. now right.
Qed.
Lemma tame_when b m : tame m -> tame (when b m).
Proof. destruct b; intros H; [exact H|apply tame_ret]. Qed.
Lemma tame_res {A} (r : res A) : (exists a, r = Ret a) \/ r = (if nd then UB else AssertFail) -> tame (fun st => (st, r)).
Proof. intros [[a ->]| ->] st; cbn [snd]; [exact Logic.I|]. destruct nd; reflexivity. Qed.

Lemma tame_synopsis (P : printer St) m : has_commands m = commands -> (forall s b, tame (p_line P s b)) -> tame (print_synopsis P m).
Proof.
  intros HC H4. unfold print_synopsis. apply tame_map. intros s Hs. apply tame_bind; [|intros t; apply H4]. intros st. cbn [snd]. rewrite synopsis_line_eq.
    destruct (has_blank s) eqn:B; [exact Logic.I|]. split; [reflexivity|]. rewrite <- HC. unfold has_commands.
    destruct (forallb has_blank (m_synopsis m)) eqn:E; [|reflexivity]. rewrite forallb_forall in E. now rewrite (E s Hs) in B.
Qed.

Lemma tame_page (P : printer St) ex adv r : has_commands (pr_info r) = commands ->
  (forall m, tame (p_header P m)) -> (forall s, tame (p_section P s)) -> (forall s, tame (p_subsection P s)) ->
  (forall s b, tame (p_line P s b)) -> (forall k d, tame (p_item P k d)) -> tame (p_footer P) -> tame (print_page P ex adv r).
Proof.
  intros HC H1 H2 H3 H4 H5 H6.
  assert (Hi : forall i, tame (print_item P i)) by (intros [s|s|s b|k d]; cbn; auto).
  assert (HS : tame (print_synopsis P (pr_info r))) by (apply tame_synopsis; assumption).
  unfold print_page, print_subcommands, print_common, print_version, print_legal. destruct (pr_subcommands r) as [|s0 l];
  repeat first [solve [auto] | exact HS | apply tame_bind; [|intros _] | apply tame_when | apply tame_ret | apply tame_map; intros ? _].
Qed.

End failing.

Lemma text_fails nd tty s : (exists a, to_text nd tty s = Ret a) \/ to_text nd tty s = (if nd then UB else AssertFail).
Proof.
  destruct (closed s) eqn:C; [left; eexists; now apply to_text_conv|right]. rewrite to_text_not_closed by exact C. now destruct nd.
Qed.
Lemma html_fails nd s : (exists a, to_html nd s = Ret a) \/ to_html nd s = (if nd then UB else AssertFail).
Proof.
  unfold to_html. generalize (@nil string). revert s. apply (str_ind_len (fun s => forall tags, (exists a, html_from nd tags s = Ret a) \/ html_from nd tags s = (if nd then UB else AssertFail))).
  assert (L : forall (r : res string) k, (forall x, exists a : string, k x = Ret a) -> (exists a, r = Ret a) \/ r = (if nd then UB else AssertFail) ->
     (exists a, lift_res r k = Ret a) \/ lift_res r k = (if nd then UB else AssertFail)).
  { intros r k K [[a ->]| ->]; [left; cbn; apply K|right; destruct nd; reflexivity]. }
  intros [|c s1] IH tags; [left; eexists; reflexivity|]. cbn [html_from]. destruct (Ascii.eqb c "\").
  2:{ apply L; [eauto|]. apply IH. cbn; lia. }
  destruct s1 as [|d s2]; [right; now destruct nd|]. destruct (Ascii.eqb d "-"); [apply L; [eauto|]; apply IH; cbn; lia|].
  destruct (Ascii.eqb d "f"); [|apply L; [eauto|]; apply IH; cbn; lia].
  destruct s2 as [|e s3]; [right; now destruct nd|].
  destruct (Ascii.eqb e "I"); [apply L; [eauto|]; apply IH; cbn; lia|].
  destruct (Ascii.eqb e "B"); [apply L; [eauto|]; apply IH; cbn; lia|].
  destruct (Ascii.eqb e "P"); [|apply L; [eauto|]; apply IH; cbn; lia].
  destruct tags; [right; now destruct nd|]. apply L; [eauto|]; apply IH; cbn; lia.
Qed.

Lemma tame_tokens nd b tty L l : forall tab pos, tame nd b (print_tokens nd tty L tab pos l).
Proof.
  induction l as [|t l IH]; intros tab pos; cbn [print_tokens]; [apply tame_ret|].
  destruct (_ <? _)%nat; (apply tame_bind; [apply tame_modify|intros _]; apply tame_bind; [|intros _; apply IH]);
    (apply tame_bind; [apply tame_res, text_fails|intros ?; apply tame_modify]).
Qed.
Lemma tame_to_text nd b tty s : tame nd b (put_to_text nd tty s).
Proof. apply tame_bind; [apply tame_res, text_fails|intros ?; apply tame_modify]. Qed.
Lemma tame_text nd b tty L s tab : tame nd b (print_text nd tty L s tab).
Proof.
  unfold print_text. destruct (tokens s) as [|t l]; [apply tame_ret|]. apply tame_bind; [apply tame_to_text|intros _].
  apply tame_bind; [|intros _; apply tame_modify].
  destruct (_ <? _)%nat; [apply tame_bind; [apply tame_modify|intros _]|]; apply tame_tokens.
Qed.
Lemma tame_line nd b tty L s p : tame nd b (print_line nd tty L s p).
Proof.
  unfold print_line. apply tame_bind; [intros st; exact Logic.I|intros q]. apply tame_bind; [destruct q; [apply tame_modify|apply tame_ret]|intros _].
  apply tame_bind; [apply tame_modify|intros _]. apply tame_bind; [apply tame_text|intros _; apply tame_modify].
Qed.
Lemma tame_list_item nd b tty L k d : tame nd b (print_list_item nd tty L k d).
Proof.
  unfold print_list_item. apply tame_bind; [intros st; exact Logic.I|intros q]. apply tame_bind; [destruct q; [apply tame_modify|apply tame_ret]|intros _].
  repeat first [apply tame_to_text | apply tame_text | apply tame_modify | apply tame_bind; [|intros ?]
    | match goal with |- tame _ _ (if ?x then _ else _) => destruct x end].
Qed.

Lemma tame_printed {St} e b (out : St -> string) m st : tame (pe_ndebug e) b m -> fails_as (pe_ndebug e) b (printed out (m st)).
Proof.
  intros H. specialize (H st). unfold printed, fails_as. destruct (m st) as [st1 []]; cbn [snd fst lift_res] in *; try (now destruct H).
  - left. eexists; reflexivity.
  - right; left. destruct H as [-> ->]. auto.
  - right; right. now rewrite H.
  - right; right. now rewrite H.
Qed.

Lemma page_outcomes e r : pr_format r <> FParse -> (forall cwl, pr_format r = FTdl cwl -> pe_tdl e <> None) ->
  fails_as (pe_ndebug e) (has_commands (pr_info r)) (page e r).
Proof.
  intros HP HT. unfold page. destruct (pr_format r) as [|adv| | | | |cwl|] eqn:E; try (now destruct HP).
  all: try (apply tame_printed).
  - apply tame_page; [reflexivity|..]; intros; try (apply tame_line); try (apply tame_list_item); intros st; exact Logic.I.
  - unfold short_help_page. apply tame_bind; [intros st; exact Logic.I|intros _]. apply tame_bind; [|intros _; apply tame_line].
    apply tame_when, tame_synopsis; [reflexivity|]. intros s b. apply tame_line.
  - unfold version_page. apply tame_bind; [intros st; exact Logic.I|intros _]. unfold print_version. cbn [p_section p_line p_bold text_printer].
    repeat first [apply tame_when | apply tame_line | apply tame_bind; [|intros _] | intros st; exact Logic.I].
  - assert (T : forall k s, (forall x, tame (pe_ndebug e) (has_commands (pr_info r)) (k x)) ->
        tame (pe_ndebug e) (has_commands (pr_info r)) (bind (to_html_m (pe_ndebug e) s) k : M hstate unit)).
    { intros k s H. apply tame_bind; [apply tame_res, html_fails|exact H]. }
    apply tame_page; [reflexivity|..]; intros;
      cbn [html_printer p_header p_section p_subsection p_line p_item p_footer]; unfold html_header, html_section, html_subsection, html_line, html_item, html_footer;
      repeat first [apply T; intros ? | apply tame_modify | apply tame_bind; [|intros _] | match goal with |- tame _ _ (if ?x then _ else _) => destruct x end].
  - apply tame_page; [reflexivity|..]; intros; intros st; exact Logic.I.
  - destruct (pe_tdl e) eqn:D; [left; eexists; reflexivity|]. now destruct (HT cwl eq_refl).
  - intros st. exact Logic.I.
Qed.
