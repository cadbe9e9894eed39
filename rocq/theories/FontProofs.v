(** The fonts of wrapped text on a terminal are those of the markup (C106). *)
From Verif Require Import Base StrLib HelpBase HelpText HelpSpec HelpTextProofs HelpPage HelpLayout FontSpec.
From Coq Require Import Lia.

Lemma seen_other x c s : c <> "027"%char -> seen x (String c s) = (c, x) :: seen x s.
Proof. intros H. cbn [seen]. now rewrite (proj2 (Ascii.eqb_neq c "027") H). Qed.

(** [markup] and [out] are the same characters in the same fonts, none of them a blank if there is none in [markup], and leave the same font *)
Definition agrees (x : font) (markup out : string) (l : styled) (y : font) : Prop :=
  (solid markup = true -> Forall (fun p => is_space (fst p) = false) l) /\ (forall r, marked adds x (markup +s+ r) = l ++ marked adds y r) /\ (forall r, seen x (out +s+ r) = l ++ seen y r).

Lemma marked_other x c s : c <> "\"%char -> marked adds x (String c s) = (c, x) :: marked adds x s.
Proof. intros H. destruct c as [[] [] [] [] [] [] [] []]; try reflexivity. now destruct H. Qed.
Lemma marked_back x d s : d <> "-"%char -> d <> "f"%char -> marked adds x (String "\" (String d s)) = ("\"%char, x) :: (d, x) :: marked adds x s.
Proof. intros H H'. destruct d as [[] [] [] [] [] [] [] []]; try reflexivity; [now destruct H'|now destruct H]. Qed.

Ltac inked := intros S; unfold solid in *; cbn [sall] in S; repeat match goal with H : _ && _ = true |- _ => apply andb_prop in H as [? H] end;
  repeat match goal with H : negb _ = true |- _ => apply negb_true_iff in H end; repeat (constructor; [assumption|]); auto.

Lemma conv_agrees nd s : closed s = true -> scontains "027" s = false -> forall x, exists l y, agrees x s (conv nd true s) l y.
Proof.
  revert s. apply (str_ind_len (fun s => closed s = true -> scontains "027" s = false -> forall x, exists l y, agrees x s (conv nd true s) l y)).
  intros [|c s1] IH C E x.
  { exists [], x. repeat split; intros; constructor. }
  pose proof (to_text_conv nd true _ C) as T. cbn [closed to_text scontains] in *.
  apply orb_false_elim in E as [Ec E1]. apply Ascii.eqb_neq in Ec.
  destruct (Ascii.eqb_spec c "\") as [->|Hc].
  2:{ destruct (IH s1) with (x := x) as (l & y & F & M1 & V); [cbn; lia|exact C|exact E1|]. rewrite (to_text_conv nd true s1 C) in T. cbn [lift_res] in T. injection T as <-.
      exists ((c, x) :: l), y. split; [inked|]. split; intros r; cbn [String.append app].
      - rewrite marked_other by exact Hc. now rewrite M1.
      - rewrite seen_other by congruence. now rewrite V. }
  destruct s1 as [|d s2]; [discriminate|]. cbn [scontains] in E1.
  apply orb_false_elim in E1 as [Ed E2]. apply Ascii.eqb_neq in Ed.
  destruct (Ascii.eqb_spec d "-") as [->|Hd].
  { destruct (IH s2) with (x := x) as (l & y & F & M1 & V); [cbn; lia|exact C|exact E2|]. rewrite (to_text_conv nd true s2 C) in T. cbn [lift_res] in T. injection T as <-.
    exists (("-"%char, x) :: l), y. split; [inked|]. split; intros r; cbn [String.append app].
    - change (marked adds x (String "\" (String "-" (s2 +s+ r)))) with (("-"%char, x) :: marked adds x (s2 +s+ r)). now rewrite M1.
    - rewrite seen_other by discriminate. now rewrite V. }
  destruct (Ascii.eqb_spec d "f") as [->|Hf].
  2:{ destruct (IH s2) with (x := x) as (l & y & F & M1 & V); [cbn; lia|exact C|exact E2|]. rewrite (to_text_conv nd true s2 C) in T. cbn [lift_res] in T. injection T as <-.
      exists (("\"%char, x) :: (d, x) :: l), y. split; [inked|]. split; intros r; cbn [String.append app].
      - rewrite marked_back by assumption. now rewrite M1.
      - rewrite seen_other by discriminate. rewrite seen_other by congruence. now rewrite V. }
  destruct s2 as [|e s3]; [discriminate|]. cbn [scontains] in E2.
  apply orb_false_elim in E2 as [Ee E3]. apply Ascii.eqb_neq in Ee.
  rewrite (to_text_conv nd true s3 C) in T. cbn [lift_res] in T. injection T as <-.
  assert (G : forall z, exists l y, agrees z s3 (conv nd true s3) l y) by (apply IH; [cbn; lia|exact C|exact E3]).
  assert (U : forall r, marked adds x (String "\" (String "f" (String e s3)) +s+ r) =
    if Ascii.eqb e "B" || Ascii.eqb e "I" || Ascii.eqb e "P" then marked adds (adds e x) (s3 +s+ r)
    else ("\"%char, x) :: ("f"%char, x) :: (e, x) :: marked adds x (s3 +s+ r)) by reflexivity.
  unfold on_tty, esc. destruct (Ascii.eqb_spec e "I") as [->|HI].
  { destruct (G (adds "I" x)) as (l & y & F & M1 & V). exists l, y. split; [inked|]. split; intros r; [rewrite U; apply M1|exact (V r)]. }
  destruct (Ascii.eqb_spec e "B") as [->|HB].
  { destruct (G (adds "B" x)) as (l & y & F & M1 & V). exists l, y. split; [inked|]. split; intros r; [rewrite U; apply M1|exact (V r)]. }
  destruct (Ascii.eqb_spec e "P") as [->|HP].
  { destruct (G (adds "P" x)) as (l & y & F & M1 & V). exists l, y. split; [inked|]. split; intros r; [rewrite U; apply M1|exact (V r)]. }
  destruct (G x) as (l & y & F & M1 & V). exists (("\"%char, x) :: ("f"%char, x) :: (e, x) :: l), y. split; [inked|]. split; intros r.
  - rewrite U. cbn [orb]. now rewrite M1.
  - unfold str1. cbn [String.append app]. rewrite !seen_other by (discriminate || congruence). now rewrite V.
Qed.

Lemma ink_app a b : ink (a ++ b) = ink a ++ ink b.
Proof. apply filter_app. Qed.
Lemma ink_all l : Forall (fun p => is_space (fst p) = false) l -> ink l = l.
Proof. induction 1 as [|p l H Hl IH]; [reflexivity|]. unfold ink in *. cbn [filter]. rewrite H. cbn [negb]. now rewrite IH. Qed.
Lemma ink_twice l : ink (ink l) = ink l.
Proof. apply ink_all. apply Forall_forall. intros p H. apply filter_In in H as [_ H]. now apply negb_true_iff in H. Qed.
Lemma ink_blank x c s : is_space c = true -> ink (seen x (String c s)) = ink (seen x s).
Proof. intros H. rewrite seen_other by (intros ->; discriminate H). unfold ink. cbn [filter fst]. now rewrite H. Qed.
Lemma ink_spaces x n s : ink (seen x (spaces n +s+ s)) = ink (seen x s).
Proof. unfold spaces. induction n as [|n IH]; [reflexivity|]. cbn [srep]. change (String " " (srep n " ") +s+ s) with (String " " (srep n " " +s+ s)). now rewrite ink_blank. Qed.
Lemma ink_nl x s : ink (seen x (nl +s+ s)) = ink (seen x s).
Proof. exact (ink_blank x "010" s eq_refl). Qed.

Definition usual (t : string) : Prop := closed t = true /\ scontains "027" t = false /\ solid t = true.

Lemma one_shown nd t x : usual t -> exists l y, Forall (fun p => is_space (fst p) = false) l /\
  (forall r, marked adds x (t +s+ r) = l ++ marked adds y r) /\ (forall r, ink (seen x (conv nd true t +s+ r)) = l ++ ink (seen y r)).
Proof.
  intros (C & E & S). destruct (conv_agrees nd t C E x) as (l & y & F0 & M1 & V). pose proof (F0 S) as F. exists l, y. split; [exact F|]. split; [exact M1|].
  intros r. rewrite V, ink_app. now rewrite (ink_all l F).
Qed.

Lemma rest_shown nd L l : Forall usual l -> forall tab pos x, ink (seen x (wrap_rest L (conv nd true) tab pos l +s+ nl)) = marked adds x (sconcat l).
Proof.
  induction 1 as [|t l Ht Hl IH]; intros tab pos x; cbn [wrap_rest].
  - reflexivity.
  - destruct (one_shown nd t x Ht) as (k & y & F & M1 & V). change (sconcat (t :: l)) with (t +s+ sconcat l). rewrite M1.
    destruct (_ <? _)%nat; rewrite !app_assoc_s.
    + rewrite ink_nl, ink_spaces, V. now rewrite IH.
    + change (" " +s+ ?a) with (String " " a). rewrite (ink_blank x " ") by reflexivity. rewrite V. now rewrite IH.
Qed.

Lemma all_shown nd L l tab x : Forall usual l -> ink (seen x (wrap_all L (conv nd true) tab l)) = marked adds x (sconcat l).
Proof.
  intros H. destruct H as [|t l Ht Hl]; [reflexivity|]. cbn [wrap_all]. destruct (one_shown nd t x Ht) as (k & y & F & M1 & V).
  change (sconcat (t :: l)) with (t +s+ sconcat l). rewrite M1, V. f_equal. destruct (_ <? _)%nat; [|now apply rest_shown].
  rewrite !app_assoc_s, ink_nl, ink_spaces. now apply rest_shown.
Qed.

Lemma print_text_fonts nd L text tab st x : forallb closed (words (until_nul text)) = true -> scontains "027" text = false ->
  exists out, print_text nd true L text tab st = ({| t_out := t_out st +s+ out; t_par := t_par st |}, Ret tt) /\
    ink (seen x out) = marked adds x (sconcat (words (until_nul text))).
Proof.
  intros H E. rewrite <- tokens_words in *. exists (wrap_all L (conv nd true) tab (tokens text)). destruct st as [o p]. split.
  - pose proof (does_text nd true L text tab o p) as X. cbn [fst snd] in X. unfold text_ok in X. rewrite H in X. exact X.
  - apply all_shown. pose proof (tokens_no_esc text H E) as A. pose proof (tokens_solid text) as B. rewrite Forall_forall in *.
    intros t Ht. destruct (A t Ht), (B t Ht). now repeat split.
Qed.

Lemma item_fonts nd L term desc st x : closed term = true -> scontains "027" term = false ->
  forallb closed (words (until_nul desc)) = true -> scontains "027" desc = false ->
  exists out, print_list_item nd true L term desc st = ({| t_out := t_out st +s+ out; t_par := false |}, Ret tt) /\
    ink (seen x out) = ink (marked adds x (term +s+ sconcat (words (until_nul desc)))).
Proof.
  intros Ct Et H E. rewrite <- tokens_words in *. destruct st as [o p].
  destruct (text_implements nd true L) as (_ & _ & _ & _ & I1 & _). specialize (I1 term desc o p).
  cbn [q_item text_effects p_item text_printer fst snd] in I1. unfold text_ok in I1. rewrite Ct, H in I1. cbn [andb] in I1.
  eexists. split; [exact I1|]. pose proof (tokens_no_esc desc H E) as A. pose proof (tokens_solid desc) as B.
  assert (Us : Forall usual (tokens desc)) by (rewrite Forall_forall in *; intros t Ht; destruct (A t Ht), (B t Ht); now repeat split).
  destruct (conv_agrees nd term Ct Et x) as (l & y & _ & M1 & V). rewrite M1.
  assert (P : forall s, ink (seen x (par_nl p +s+ s)) = ink (seen x s)) by (intros s; destruct p; [apply ink_nl|reflexivity]).
  assert (G : forall s, ink (seen y (term_gap L term +s+ s)) = ink (seen y s))
    by (intros s; unfold term_gap; destruct (_ <? _)%nat; [rewrite app_assoc_s, ink_nl|]; apply ink_spaces).
  rewrite P, ink_spaces, V, !ink_app, G. f_equal. rewrite (all_shown nd L _ _ y Us). symmetry. rewrite <- (all_shown nd L (tokens desc) 0 y Us).
  apply ink_twice.
Qed.

Lemma chars_seen x s : scontains "027" s = false -> forall r, seen x (s +s+ r) = map (fun c => (c, x)) (chars s) ++ seen x r.
Proof.
  induction s as [|c s IH]; intros H r; [reflexivity|]. cbn [scontains] in H. apply orb_false_elim in H as [Hc H]. apply Ascii.eqb_neq in Hc.
  cbn [String.append]. rewrite seen_other by congruence. rewrite IH by exact H. reflexivity.
Qed.

Lemma bold_seen x s r : scontains "027" s = false ->
  seen x (String "027" "[1m" +s+ s +s+ String "027" "[0m" +s+ r) = map (fun c => (c, (true, snd x))) (chars s) ++ seen normal r.
Proof.
  intros E. change (seen x (String "027" "[1m" +s+ s +s+ String "027" "[0m" +s+ r)) with (seen (true, snd x) (s +s+ String "027" "[0m" +s+ r)).
  now rewrite chars_seen.
Qed.

Lemma section_fonts title st x : scontains "027" title = false ->
  exists out, print_section true title st = ({| t_out := t_out st +s+ out; t_par := false |}, Ret tt) /\
    forall r, ink (seen x (out +s+ r)) = ink (map (fun c => (c, (true, snd x))) (chars (upper_case title))) ++ ink (seen normal r).
Proof.
  intros E. eexists. split; [reflexivity|]. intros r. rewrite !app_assoc_s, ink_nl. unfold on_tty, esc.
  rewrite bold_seen by now apply no_esc_upper. rewrite ink_app, ink_nl, upper_smap. reflexivity.
Qed.

Lemma subsection_fonts L title st x : scontains "027" title = false ->
  exists out, print_subsection true L title st = ({| t_out := t_out st +s+ out; t_par := false |}, Ret tt) /\
    forall r, ink (seen x (out +s+ r)) = ink (map (fun c => (c, (true, snd x))) (chars title)) ++ ink (seen normal r).
Proof.
  intros E. eexists. split; [reflexivity|]. intros r. unfold in_bold, on_tty, esc. rewrite !app_assoc_s, ink_nl, ink_spaces.
  rewrite bold_seen by exact E. rewrite ink_app, ink_nl. reflexivity.
Qed.

(** ** Switches one after the other *)

Lemma separate_same s : forall x on, (on = false -> x = normal) -> separate on s = true -> marked adds x s = marked replaces x s.
Proof.
  revert s. apply (str_ind_len (fun s => forall x on, (on = false -> x = normal) -> separate on s = true -> marked adds x s = marked replaces x s)).
  intros [|c s1] IH x on N Sp; [reflexivity|].
  assert (K : forall t y b, String.length t < S (String.length s1) -> (b = false -> y = normal) -> separate b t = true -> marked adds y t = marked replaces y t)
    by (intros; eapply IH; eauto).
  destruct (Ascii.eqb_spec c "\") as [->|Hc].
  2:{ assert (Q : separate on s1 = true) by (destruct c as [[] [] [] [] [] [] [] []]; try exact Sp; now destruct Hc).
      pose proof (K s1 x on ltac:(lia) N Q) as R. destruct c as [[] [] [] [] [] [] [] []]; try (cbn [marked]; now rewrite R); now destruct Hc. }
  destruct s1 as [|d s2]; [reflexivity|]. destruct (Ascii.eqb_spec d "f") as [->|Hf].
  2:{ assert (Q : separate on s2 = true) by (destruct d as [[] [] [] [] [] [] [] []]; try exact Sp; now destruct Hf).
      pose proof (K s2 x on ltac:(cbn; lia) N Q) as R. destruct d as [[] [] [] [] [] [] [] []]; try (cbn [marked]; now rewrite R); now destruct Hf. }
  destruct s2 as [|e s3]; [reflexivity|]. cbn [separate] in Sp. cbn [marked].
  assert (W : String.length s3 < S (String.length (String "f" (String e s3)))) by (cbn; lia).
  destruct (Ascii.eqb e "B") eqn:EB; [|destruct (Ascii.eqb e "I") eqn:EI; [|destruct (Ascii.eqb e "P") eqn:EP]]; cbn [orb] in *.
  - apply andb_prop in Sp as [So Sp]. destruct on; [discriminate So|]. rewrite (N eq_refl). unfold adds, replaces. rewrite EB.
    apply (K s3 _ true W); [discriminate|exact Sp].
  - apply andb_prop in Sp as [So Sp]. destruct on; [discriminate So|]. rewrite (N eq_refl). unfold adds, replaces. rewrite EB, EI.
    apply (K s3 _ true W); [discriminate|exact Sp].
  - unfold adds, replaces. rewrite EB, EI. apply (K s3 _ false W); [reflexivity|exact Sp].
  - now rewrite (K s3 x on W N Sp).
Qed.

Lemma print_text_asked nd L text tab st : forallb closed (words (until_nul text)) = true -> scontains "027" text = false ->
  separate false (sconcat (words (until_nul text))) = true ->
  exists out, print_text nd true L text tab st = ({| t_out := t_out st +s+ out; t_par := t_par st |}, Ret tt) /\
    ink (seen normal out) = marked replaces normal (sconcat (words (until_nul text))).
Proof.
  intros H E S. destruct (print_text_fonts nd L text tab st normal H E) as (out & P & Q). exists out. split; [exact P|].
  rewrite Q. now apply (separate_same _ normal false).
Qed.

(** ** Files *)

Lemma rest_no_esc L l : Forall (fun t => scontains "027" t = false) l -> forall tab pos, scontains "027" (wrap_rest L strip tab pos l) = false.
Proof.
  induction 1 as [|t l Ht Hl IH]; intros tab pos; cbn [wrap_rest]; [reflexivity|].
  destruct (_ <? _)%nat; rewrite !scontains_app, ?no_esc_spaces, strip_no_esc, IH by exact Ht; reflexivity.
Qed.

Lemma print_text_file nd L text tab st : forallb closed (words (until_nul text)) = true -> scontains "027" text = false ->
  exists out, print_text nd false L text tab st = ({| t_out := t_out st +s+ out; t_par := t_par st |}, Ret tt) /\ scontains "027" out = false.
Proof.
  intros H E. rewrite <- tokens_words in *. exists (wrap_all L (conv nd false) tab (tokens text)). destruct st as [o p]. split.
  - pose proof (does_text nd false L text tab o p) as X. cbn [fst snd] in X. unfold text_ok in X. rewrite H in X. exact X.
  - pose proof (tokens_no_esc text H E) as A. rewrite (wrap_all_ext L (conv nd false) strip).
    2:{ intros t Ht. apply conv_false. rewrite Forall_forall in A. now apply A. }
    destruct A as [|t l [C N] A]; [reflexivity|]. cbn [wrap_all].
    assert (R : Forall (fun t => scontains "027" t = false) l) by (eapply Forall_impl; [|exact A]; now intros u [_ Hu]).
    destruct (_ <? _)%nat; rewrite !scontains_app, ?no_esc_spaces, strip_no_esc, (rest_no_esc L l R) by exact N; reflexivity.
Qed.
