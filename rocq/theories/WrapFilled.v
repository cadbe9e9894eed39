(** Wrapped text is filled: no line break where the next word would fit (C40). *)
From Verif Require Import Base StrLib HelpBase HelpText HelpSpec HelpTextProofs HelpLayout WrapSpec.
From Coq Require Import Lia.

Section filled.
Variable L : layout.
Variable f : string -> string.
Hypothesis solid_f : forall t, solid t = true -> solid (f t) = true.

Lemma filled_cons n a b after : filled n (b :: after) -> (forall w rest, words b = w :: rest -> n < String.length a + 1 + String.length w) -> filled n (a :: b :: after).
Proof.
  intros F H before x y l w rest E W. destruct before as [|z before]; cbn in E.
  - injection E as <- <- <-. eapply H; eauto.
  - injection E as _ E. eapply F; eauto.
Qed.
Lemma filled_one n a : filled n [a].
Proof. intros before x y l w rest E. destruct before as [|z [|z' before]]; discriminate E. Qed.

Lemma rest_filled l : Forall (fun t => solid t = true /\ text_width t = String.length (f t)) l ->
  forall cur tab pos, one_line cur = true -> pos = String.length cur ->
  exists first after more, lines (cur +s+ wrap_rest L f tab pos l +s+ nl) = first :: after /\ words first = words cur ++ more /\
    filled (screen_width L) (first :: after).
Proof.
  induction 1 as [|t l [Ht Wt] Hl IH]; intros cur tab pos C P; cbn [wrap_rest].
  - cbn [String.append]. rewrite <- (app_nil_r_s nl), lines_app by exact C. exists cur, (lines ""), []. split; [reflexivity|]. split; [now rewrite app_nil_r|].
    apply filled_cons; [apply filled_one|]. intros w rest E. discriminate E.
  - destruct (Nat.ltb_spec (screen_width L) (pos + 1 + text_width t)) as [Q|Q].
    + rewrite !app_assoc_s. rewrite lines_app by exact C. rewrite <- !app_assoc_s. rewrite app_assoc_s.
      destruct (IH (spaces tab +s+ f t) tab (tab + text_width t)) as (first & after & more & E & W & F).
      * rewrite one_line_app, one_line_spaces. apply solid_one_line, solid_f, Ht.
      * rewrite length_app_s, length_spaces. now rewrite Wt.
      * exists cur, (first :: after), []. rewrite E. split; [reflexivity|]. split; [now rewrite app_nil_r|]. apply filled_cons; [exact F|].
        intros w rest Ew. rewrite W, words_spaces, (words_solid _ (solid_f _ Ht)) in Ew. rewrite Wt, P in Q.
        destruct (f t) as [|c x] eqn:Ft; cbn [is_empty app] in Ew; [cbn [String.length] in Q; lia|]. injection Ew as <- _. exact Q.
    + rewrite !app_assoc_s. rewrite <- (app_assoc_s " "), <- (app_assoc_s cur).
      destruct (IH (cur +s+ " " +s+ f t) tab (pos + (text_width t + 1))) as (first & after & more & E & W & F).
      * rewrite !one_line_app, C. change (one_line " ") with true. rewrite (solid_one_line _ (solid_f _ Ht)). reflexivity.
      * rewrite !length_app_s, Wt, P. cbn [String.length]. lia.
      * exists first, after, (words (f t) ++ more). rewrite E. split; [reflexivity|]. split; [|exact F].
        rewrite W. change (" " +s+ f t) with (String " " (f t)). rewrite words_app by reflexivity. now rewrite app_assoc.
Qed.

Lemma all_filled l tab : Forall (fun t => solid t = true /\ text_width t = String.length (f t)) l -> filled (screen_width L) (lines (spaces tab +s+ wrap_all L f tab l)).
Proof.
  destruct l as [|t l]; intros H.
  - cbn [wrap_all]. rewrite app_nil_r_s. unfold lines. rewrite fields_none by apply one_line_spaces. apply filled_one.
  - inversion_clear H as [|? ? [Ht Wt] Hl]. cbn [wrap_all].
    assert (O : one_line (spaces tab +s+ f t) = true) by (rewrite one_line_app, one_line_spaces; apply solid_one_line, solid_f, Ht).
    destruct (Nat.ltb_spec (screen_width L) (tab + text_width t)) as [Q|Q].
    + rewrite !app_assoc_s, <- (app_assoc_s (spaces tab)), lines_app by exact O.
      destruct (rest_filled l Hl (spaces tab) tab tab) as (first & after & more & E & W & F); [apply one_line_spaces|symmetry; apply length_spaces|].
      rewrite E. apply filled_cons; [exact F|]. intros w rest _. rewrite length_app_s, length_spaces, <- Wt. lia.
    + rewrite <- (app_assoc_s (spaces tab)). destruct (rest_filled l Hl (spaces tab +s+ f t) tab (tab + text_width t)) as (first & after & more & E & W & F); [exact O| |rewrite E; exact F].
      rewrite length_app_s, length_spaces. now rewrite Wt.
Qed.
End filled.

Lemma documented_ok text : documented text = true -> text_ok text = true.
Proof.
  intros D. unfold text_ok. rewrite tokens_words. apply forallb_forall. intros t Ht. apply documented_closed.
  pose proof (documented_words _ (documented_until _ D)) as W. rewrite forallb_forall in W. now apply W.
Qed.

Lemma print_text_filled nd L text tab st : documented text = true ->
  exists out, print_text nd false L text tab st = ({| t_out := t_out st +s+ out; t_par := t_par st |}, Ret tt) /\
    filled (screen_width L) (lines (spaces tab +s+ out)).
Proof.
  intros D. pose proof (documented_ok text D) as H. exists (wrap_all L (conv nd false) tab (tokens text)). destruct st as [o p]. split.
  - pose proof (does_text nd false L text tab o p) as X. cbn [fst snd] in X. rewrite H in X. exact X.
  - rewrite (wrap_all_ext L (conv nd false) strip).
    + apply all_filled; [exact strip_solid|]. now apply tokens_widths.
    + intros t Ht. apply conv_false. unfold text_ok in H. rewrite forallb_forall in H. now apply H.
Qed.

Lemma tokens_fail nd tty L l : forallb closed l = false -> forall tab pos st, snd (print_tokens nd tty L tab pos l st) = dangling nd.
Proof.
  induction l as [|t l IH]; intros H tab pos st; [discriminate H|]. cbn [forallb] in H. cbn [print_tokens].
  destruct (closed t) eqn:C.
  - destruct (_ <? _)%nat; unfold put_text, modify, bind; cbn beta iota; rewrite (put_to_text_ret nd tty (conv nd tty) t _ (to_text_conv nd tty t C)); now apply IH.
  - destruct (_ <? _)%nat; unfold put_text, modify, bind; cbn beta iota; rewrite (put_to_text_fails nd tty t _ C); unfold dangling; now destruct nd.
Qed.

Lemma print_text_fails nd tty L text tab st : forallb closed (words (until_nul text)) = false -> snd (print_text nd tty L text tab st) = if nd then UB else AssertFail.
Proof.
  rewrite <- tokens_words. unfold print_text. destruct (tokens text) as [|t l]; [discriminate|]. cbn [forallb]. intros H. unfold bind at 1. destruct (closed t) eqn:C.
  - rewrite (put_to_text_ret nd tty (conv nd tty) t _ (to_text_conv nd tty t C)). cbn [andb] in H. destruct (_ <? _)%nat; unfold put_text, modify, bind; cbn beta iota.
    + pose proof (tokens_fail nd tty L l H tab tab) as T. match goal with |- context [print_tokens nd tty L tab tab l ?s] => specialize (T s); destruct (print_tokens nd tty L tab tab l s) as [s' r] end.
      cbn in T. subst r. unfold dangling. now destruct nd.
    + pose proof (tokens_fail nd tty L l H tab (tab + text_width t)) as T. match goal with |- context [print_tokens nd tty L tab ?p l ?s] => specialize (T s); destruct (print_tokens nd tty L tab p l s) as [s' r] end.
      cbn in T. subst r. unfold dangling. now destruct nd.
  - rewrite (put_to_text_fails nd tty t _ C). unfold dangling. now destruct nd.
Qed.

(** ** Alignment *)

Section aligned.
Variable L : layout.
Variable f : string -> string.
Hypothesis solid_f : forall t, solid t = true -> solid (f t) = true.

Definition begun (tab : nat) (l : string) : Prop := exists w x, solid w = true /\ w <> "" /\ l = spaces tab +s+ w +s+ x /\ (x = "" \/ exists y, x = String " " y).

Lemma begun_aligned tab l : begun tab l -> aligned tab l.
Proof.
  intros (w & x & S & N & -> & X). right. destruct X as [->|[y ->]].
  - exists w, [], "". split; [|reflexivity]. rewrite words_spaces, app_nil_r_s, (words_solid w S). now destruct w.
  - exists w, (words y), (String " " y). split; [|reflexivity]. rewrite words_spaces, words_app by reflexivity. rewrite (words_solid w S). now destruct w.
Qed.

Lemma rest_aligned l : Forall (fun t => solid t = true /\ f t <> "") l -> forall cur tab pos, one_line cur = true -> begun tab cur ->
  Forall (aligned tab) (lines (cur +s+ wrap_rest L f tab pos l +s+ nl)).
Proof.
  induction 1 as [|t l [Ht Nt] Hl IH]; intros cur tab pos C B; cbn [wrap_rest].
  - cbn [String.append]. rewrite <- (app_nil_r_s nl), lines_app by exact C. constructor; [now apply begun_aligned|]. constructor; [now left|constructor].
  - destruct (_ <? _)%nat.
    + rewrite !app_assoc_s. rewrite lines_app by exact C. constructor; [now apply begun_aligned|].
      rewrite <- !app_assoc_s. rewrite app_assoc_s. apply IH.
      * rewrite one_line_app, one_line_spaces. apply solid_one_line, solid_f, Ht.
      * exists (f t), "". split; [now apply solid_f|]. split; [exact Nt|]. split; [now rewrite app_nil_r_s|now left].
    + rewrite !app_assoc_s. rewrite <- (app_assoc_s " "), <- (app_assoc_s cur). apply IH.
      * rewrite !one_line_app, C. change (one_line " ") with true. rewrite (solid_one_line _ (solid_f _ Ht)). reflexivity.
      * destruct B as (w & x & S & N & -> & X). exists w, (x +s+ " " +s+ f t). split; [exact S|]. split; [exact N|]. split; [now rewrite !app_assoc_s|].
        right. destruct X as [->|[y ->]]; cbn; eauto.
Qed.

Lemma all_aligned t l tab : Forall (fun t => solid t = true /\ f t <> "") (t :: l) -> tab + text_width t <= screen_width L ->
  Forall (aligned tab) (lines (spaces tab +s+ wrap_all L f tab (t :: l))).
Proof.
  intros H Q. inversion_clear H as [|? ? [Ht Nt] Hl]. cbn [wrap_all]. destruct (Nat.ltb_spec (screen_width L) (tab + text_width t)) as [Z1|_]; [lia|].
  rewrite <- (app_assoc_s (spaces tab)). apply rest_aligned; [exact Hl|rewrite one_line_app, one_line_spaces; apply solid_one_line, solid_f, Ht|].
  exists (f t), "". split; [now apply solid_f|]. split; [exact Nt|]. split; [now rewrite app_nil_r_s|now left].
Qed.
End aligned.

Lemma print_text_aligned nd L text tab st w rest : documented text = true -> words (until_nul text) = w :: rest -> tab + String.length (strip w) <= screen_width L ->
  Forall (fun w => strip w <> "") (w :: rest) ->
  exists out, print_text nd false L text tab st = ({| t_out := t_out st +s+ out; t_par := t_par st |}, Ret tt) /\ Forall (aligned tab) (lines (spaces tab +s+ out)).
Proof.
  intros D E Q N. pose proof (documented_ok text D) as H. exists (wrap_all L (conv nd false) tab (tokens text)). destruct st as [o p]. split.
  - pose proof (does_text nd false L text tab o p) as X. cbn [fst snd] in X. rewrite H in X. exact X.
  - rewrite (wrap_all_ext L (conv nd false) strip).
    + pose proof (tokens_widths text D) as T. rewrite tokens_words, E in *. apply all_aligned; [exact strip_solid| |].
      * rewrite Forall_forall in *. intros t Ht. split; [now apply T|now apply N].
      * inversion_clear T as [|? ? [_ Wt] _]. now rewrite Wt.
    + intros t Ht. apply conv_false. unfold text_ok in H. rewrite forallb_forall in H. now apply H.
Qed.

(** ** Terminals *)

Lemma print_text_shown nd L text tab st : documented text = true -> scontains "027" text = false ->
  exists out, print_text nd true L text tab st = ({| t_out := t_out st +s+ out; t_par := t_par st |}, Ret tt) /\
    words (drop_sgr out) = words (strip (until_nul text)) /\
    Forall (line_fits L) (lines (spaces tab +s+ drop_sgr out)) /\ filled (screen_width L) (lines (spaces tab +s+ drop_sgr out)) /\
    (forall w rest, words (until_nul text) = w :: rest -> tab + String.length (strip w) <= screen_width L -> Forall (fun w => strip w <> "") (w :: rest) ->
       Forall (aligned tab) (lines (spaces tab +s+ drop_sgr out))).
Proof.
  intros D E. pose proof (documented_ok text D) as H.
  destruct (print_text_tty nd L text tab st H E) as (out & shown & A & B & <-). exists out. split; [exact A|].
  assert (same : forall x, print_text nd false L text tab st = ({| t_out := t_out st +s+ x; t_par := t_par st |}, Ret tt) -> x = drop_sgr out).
  { intros x X. rewrite B in X. injection X as X. symmetry. exact (app_inv_head_s _ _ _ X). }
  destruct (print_text_layout nd L text tab st H) as (x & X & W & F). rewrite (same x X) in *. split; [exact W|]. split; [now apply F|]. split.
  - destruct (print_text_filled nd L text tab st D) as (y & Y & G). now rewrite (same y Y) in G.
  - intros w rest Ew Q N. destruct (print_text_aligned nd L text tab st w rest D Ew Q N) as (y & Y & G). now rewrite (same y Y) in G.
Qed.
