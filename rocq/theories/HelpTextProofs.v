(** Proofs about texts on help pages: markup, words, widths and wrapping. *)
From Verif Require Import Base StrLib Fs Values Validators FormatParse Parser HelpBase HelpText HelpSpec.

Lemma str_ind_len (P : string -> Prop) :
  (forall s, (forall t, String.length t < String.length s -> P t) -> P s) -> forall s, P s.
Proof.
  intros H s. assert (A : forall n t, String.length t < n -> P t).
  { intros n; induction n as [|n IH]; intros t L; [lia|]. apply H. intros u Hu. apply IH. lia. }
  apply (A (S (String.length s))). lia.
Qed.

(** ** Markup *)

Lemma to_text_closed nd s : closed s = true -> to_text nd false s = Ret (strip s).
Proof.
  revert s. apply (str_ind_len (fun s => closed s = true -> to_text nd false s = Ret (strip s))).
  intros [|c s1] IH C; [reflexivity|]. cbn [closed to_text strip] in *.
  destruct (Ascii.eqb_spec c "\") as [->|Hc].
  2:{ rewrite (IH s1); [reflexivity|cbn; lia|exact C]. }
  destruct s1 as [|d s2]; [discriminate|].
  destruct (Ascii.eqb_spec d "-") as [->|Hd].
  - rewrite (IH s2); [reflexivity|cbn; lia|exact C].
  - destruct (Ascii.eqb_spec d "f") as [->|Hf].
    + destruct s2 as [|e s3]; [discriminate|]. rewrite (IH s3); [|cbn; lia|exact C]. cbn [lift_res].
      unfold on_tty. destruct (Ascii.eqb e "I") eqn:EI, (Ascii.eqb e "B") eqn:EB, (Ascii.eqb e "P") eqn:EP; cbn [orb]; reflexivity.
    + rewrite (IH s2); [reflexivity|cbn; lia|exact C].
Qed.

Lemma to_text_not_closed nd tty s : closed s = false -> to_text nd tty s = dangling nd.
Proof.
  revert s. apply (str_ind_len (fun s => closed s = false -> to_text nd tty s = dangling nd)).
  intros [|c s1] IH C; [discriminate|]. cbn [closed to_text] in *.
  destruct (Ascii.eqb_spec c "\") as [->|Hc].
  2:{ rewrite (IH s1); [now destruct nd|cbn; lia|exact C]. }
  destruct s1 as [|d s2]; [reflexivity|].
  destruct (Ascii.eqb_spec d "-") as [->|Hd].
  - rewrite (IH s2); [now destruct nd|cbn; lia|exact C].
  - destruct (Ascii.eqb_spec d "f") as [->|Hf].
    + destruct s2 as [|e s3]; [reflexivity|]. rewrite (IH s3); [now destruct nd|cbn; lia|exact C].
    + rewrite (IH s2); [now destruct nd|cbn; lia|exact C].
Qed.

Lemma drop_sgr_other c s : c <> "027"%char -> drop_sgr (String c s) = String c (drop_sgr s).
Proof. intros H. cbn [drop_sgr]. now rewrite (proj2 (Ascii.eqb_neq c "027") H). Qed.

(** on a terminal: [sgr_of s r] tells that [r] is [s] without markup but with complete font sequences *)
Definition sgr_of (s r : string) : Prop := forall b, drop_sgr (r +s+ b) = strip s +s+ drop_sgr b.

Lemma to_text_tty nd s : closed s = true -> scontains "027" s = false ->
  exists r, to_text nd true s = Ret r /\ sgr_of s r.
Proof.
  revert s. apply (str_ind_len (fun s => closed s = true -> scontains "027" s = false ->
    exists r, to_text nd true s = Ret r /\ sgr_of s r)).
  intros [|c s1] IH C E; [exists ""; split; [reflexivity|intros b; reflexivity]|]. cbn [closed to_text scontains] in *.
  apply orb_false_elim in E as [Ec E1]. apply Ascii.eqb_neq in Ec. unfold sgr_of. cbn [strip].
  destruct (Ascii.eqb_spec c "\") as [->|Hc].
  2:{ destruct (IH s1) as (r & Hr & Hd); [cbn; lia|exact C|exact E1|]. rewrite Hr. eexists; split; [reflexivity|].
      intros b. cbn [String.append]. rewrite drop_sgr_other by congruence. now rewrite Hd. }
  destruct s1 as [|d s2]; [discriminate|]. cbn [scontains] in E1.
  apply orb_false_elim in E1 as [Ed E2]. apply Ascii.eqb_neq in Ed.
  destruct (Ascii.eqb_spec d "-") as [->|Hd].
  - destruct (IH s2) as (r & Hr & Hd); [cbn; lia|exact C|exact E2|]. rewrite Hr. eexists; split; [reflexivity|].
    intros b. cbn [String.append]. rewrite drop_sgr_other by discriminate. now rewrite Hd.
  - destruct (Ascii.eqb_spec d "f") as [->|Hf].
    + destruct s2 as [|e s3]; [discriminate|]. cbn [scontains] in E2. apply orb_false_elim in E2 as [Ee E3]. apply Ascii.eqb_neq in Ee.
      destruct (IH s3) as (r & Hr & Hs); [cbn; lia|exact C|exact E3|]. rewrite Hr. cbn [lift_res]. eexists; split; [reflexivity|].
      intros b. unfold on_tty.
      destruct (Ascii.eqb e "I") eqn:EI, (Ascii.eqb e "B") eqn:EB, (Ascii.eqb e "P") eqn:EP; cbn [orb]; try exact (Hs b).
      change ((("\f" +s+ str1 e) +s+ r) +s+ b) with (String "\" (String "f" (String e (r +s+ b)))).
      rewrite !drop_sgr_other by congruence. now rewrite Hs.
    + destruct (IH s2) as (r & Hr & Hs); [cbn; lia|exact C|exact E2|]. rewrite Hr. eexists; split; [reflexivity|].
      intros b. cbn [String.append]. rewrite !drop_sgr_other by congruence. now rewrite Hs.
Qed.

Lemma documented_closed s : documented s = true -> closed s = true.
Proof.
  revert s. apply (str_ind_len (fun s => documented s = true -> closed s = true)).
  intros [|c s1] IH D; [reflexivity|]. cbn [documented closed] in *.
  destruct (Ascii.eqb c "\"); [|apply IH; [cbn; lia|exact D]].
  destruct s1 as [|d s2]; [discriminate|].
  destruct (Ascii.eqb_spec d "-") as [->|Hd]; [apply IH; [cbn; lia|exact D]|].
  destruct (Ascii.eqb d "f"); [|discriminate].
  destruct s2 as [|e s3]; [discriminate|]. apply andb_prop in D as [_ D]. apply IH; [cbn; lia|exact D].
Qed.

(** the number of columns *)
Lemma width_documented s : documented s = true -> text_width s = String.length (strip s).
Proof.
  revert s. apply (str_ind_len (fun s => documented s = true -> text_width s = String.length (strip s))).
  intros [|c s1] IH D; [reflexivity|]. cbn [documented text_width strip] in *.
  destruct (Ascii.eqb_spec c "\") as [->|Hc]; cbn [negb].
  2:{ rewrite (IH s1); [reflexivity|cbn; lia|exact D]. }
  destruct s1 as [|d s2]; [discriminate|].
  destruct (Ascii.eqb_spec d "-") as [->|Hd].
  - change (Ascii.eqb "-" "\") with false. cbn [orb]. rewrite (IH s2); [reflexivity|cbn; lia|exact D].
  - destruct (Ascii.eqb_spec d "f") as [->|Hf]; [|discriminate].
    change (Ascii.eqb "f" "\") with false. cbn [orb].
    destruct s2 as [|e s3]; [discriminate|]. apply andb_prop in D as [B D].
    rewrite B. apply IH; [cbn; lia|exact D].
Qed.

Lemma no_backslash_documented s : scontains "\" s = false -> documented s = true /\ strip s = s.
Proof.
  induction s as [|c s IH]; intros H; [split; reflexivity|]. cbn [scontains documented strip] in *.
  apply orb_false_elim in H as [Hc H]. rewrite Ascii.eqb_sym in Hc. rewrite Hc. destruct (IH H) as [-> ->]. split; reflexivity.
Qed.

Lemma strip_app a b : closed a = true -> strip (a +s+ b) = strip a +s+ strip b.
Proof.
  revert a. apply (str_ind_len (fun a => closed a = true -> strip (a +s+ b) = strip a +s+ strip b)).
  intros [|c s1] IH C; [reflexivity|]. cbn [closed strip String.append] in *.
  destruct (Ascii.eqb c "\"); [|rewrite IH; [reflexivity|cbn; lia|exact C]].
  destruct s1 as [|d s2]; [discriminate|]. cbn [String.append].
  destruct (Ascii.eqb_spec d "-") as [->|Hd].
  - rewrite IH; [reflexivity|cbn; lia|exact C].
  - destruct (Ascii.eqb d "f").
    + destruct s2 as [|e s3]; [discriminate|]. cbn [String.append].
      destruct (Ascii.eqb e "B" || Ascii.eqb e "I" || Ascii.eqb e "P"); rewrite IH; try reflexivity; try exact C; cbn; lia.
    + rewrite IH; [reflexivity|cbn; lia|exact C].
Qed.

Lemma closed_app a b : closed a = true -> closed (a +s+ b) = closed b.
Proof.
  revert a. apply (str_ind_len (fun a => closed a = true -> closed (a +s+ b) = closed b)).
  intros [|c s1] IH C; [reflexivity|]. cbn [closed String.append] in *.
  destruct (Ascii.eqb c "\"); [|apply IH; [cbn; lia|exact C]].
  destruct s1 as [|d s2]; [discriminate|]. cbn [String.append].
  destruct (Ascii.eqb d "f"); [|apply IH; [cbn; lia|exact C]].
  destruct s2 as [|e s3]; [discriminate|]. cbn [String.append]. apply IH; [cbn; lia|exact C].
Qed.

Lemma documented_app a b : documented a = true -> documented (a +s+ b) = documented b.
Proof.
  revert a. apply (str_ind_len (fun a => documented a = true -> documented (a +s+ b) = documented b)).
  intros [|c s1] IH C; [reflexivity|]. cbn [documented String.append] in *.
  destruct (Ascii.eqb c "\"); [|apply IH; [cbn; lia|exact C]].
  destruct s1 as [|d s2]; [discriminate|]. cbn [String.append].
  destruct (Ascii.eqb d "-"); [apply IH; [cbn; lia|exact C]|].
  destruct (Ascii.eqb d "f"); [|discriminate].
  destruct s2 as [|e s3]; [discriminate|]. cbn [String.append]. apply andb_prop in C as [B C]. rewrite B. cbn [andb].
  apply IH; [cbn; lia|exact C].
Qed.

(** ** Words *)

Definition solid (s : string) : bool := sall (fun c => negb (is_space c)) s.

Lemma fields_nonnil sep s : fields sep s <> [].
Proof. destruct s as [|c s]; cbn; [discriminate|]. destruct (sep c); [discriminate|]. now destruct (fields sep s). Qed.

Lemma fields_app sep a c b : sep c = true -> fields sep (a +s+ String c b) = fields sep a ++ fields sep b.
Proof.
  intros Hc. induction a as [|x a IH]; cbn [fields String.append]; [now rewrite Hc|].
  destruct (sep x); [now rewrite IH|]. rewrite IH. destruct (fields sep a) as [|f l] eqn:F; [|reflexivity].
  now destruct (fields_nonnil sep a).
Qed.

Lemma fields_none sep a : sall (fun c => negb (sep c)) a = true -> fields sep a = [a].
Proof.
  induction a as [|c a IH]; [reflexivity|]. cbn [sall fields]. intros H. apply andb_prop in H as [Hc H].
  rewrite (IH H). now destruct (sep c).
Qed.

Lemma words_app a c b : is_space c = true -> words (a +s+ String c b) = words a ++ words b.
Proof. intros Hc. unfold words. rewrite fields_app by exact Hc. apply filter_app. Qed.

Lemma words_solid w : solid w = true -> words w = if is_empty w then [] else [w].
Proof. intros H. unfold words. rewrite fields_none by exact H. now destruct w. Qed.

Lemma words_cons_space c b : is_space c = true -> words (String c b) = words b.
Proof. intros H. exact (words_app "" c b H). Qed.

Lemma words_spaces n b : words (spaces n +s+ b) = words b.
Proof.
  induction n as [|n IH]; [reflexivity|]. change (spaces (S n) +s+ b) with (String " " (spaces n +s+ b)).
  rewrite words_cons_space by reflexivity. exact IH.
Qed.

Lemma words_nl b : words (nl +s+ b) = words b.
Proof. change (nl +s+ b) with (String "010" b). now apply words_cons_space. Qed.

Lemma split_space s : (solid s = true) \/
  exists w c r, s = w +s+ String c r /\ solid w = true /\ is_space c = true /\ String.length r < String.length s.
Proof.
  induction s as [|x s IH]; [now left|]. unfold solid in *. cbn [sall].
  destruct (is_space x) eqn:X.
  - right. exists "", x, s. repeat split; auto.
  - destruct IH as [H|(w & c & r & -> & W & C & L)]; [left; now rewrite H|].
    right. exists (String x w), c, r. cbn [sall]. rewrite X. repeat split; auto. cbn [String.length]. lia.
Qed.

Lemma solid_app a b : solid (a +s+ b) = solid a && solid b.
Proof. apply sall_app. Qed.

Lemma read_words_words w s : solid w = true -> read_words w s = words (w +s+ s).
Proof.
  revert w; induction s as [|c s IH]; intros w W; cbn [read_words].
  - rewrite app_nil_r_s. symmetry. now apply words_solid.
  - destruct (is_space c) eqn:C.
    + rewrite (words_app w c s C), (words_solid w W), (IH "" eq_refl). now destruct (is_empty w).
    + rewrite IH; [|rewrite solid_app, W; unfold solid; cbn [sall str1]; now rewrite C].
      now rewrite app_assoc_s.
Qed.

Lemma c_str_until s : c_str s = until_nul s.
Proof. unfold until_nul. induction s as [|c s IH]; [reflexivity|]. cbn [c_str sfind]. rewrite Ascii.eqb_sym.
  destruct (Ascii.eqb nul c); [reflexivity|]. rewrite IH. now destruct (sfind nul s). Qed.

Lemma until_no_nul s : no_nul s = true -> until_nul s = s.
Proof. unfold no_nul, until_nul. intros H. apply negb_true_iff, sfind_None in H. now rewrite H. Qed.

Lemma tokens_words s : tokens s = words (until_nul s).
Proof. unfold tokens. rewrite c_str_until. exact (read_words_words "" _ eq_refl). Qed.

Lemma read_words_solid w s : solid w = true -> Forall (fun t => solid t = true /\ t <> "") (read_words w s).
Proof.
  revert w; induction s as [|c s IH]; intros w W; cbn [read_words].
  - destruct w as [|x w]; constructor; [|constructor]. split; [exact W|discriminate].
  - destruct (is_space c) eqn:C.
    + destruct w as [|x w]; [now apply IH|]. constructor; [split; [exact W|discriminate]|now apply IH].
    + apply IH. rewrite solid_app, W. unfold solid. cbn [sall str1]. now rewrite C.
Qed.

Lemma tokens_solid s : Forall (fun t => solid t = true /\ t <> "") (tokens s).
Proof. apply read_words_solid. reflexivity. Qed.

Lemma strip_solid w : solid w = true -> solid (strip w) = true.
Proof.
  revert w. apply (str_ind_len (fun w => solid w = true -> solid (strip w) = true)).
  intros [|c s1] IH S; [reflexivity|]. unfold solid in *. cbn [strip sall] in *. apply andb_prop in S as [Sc S1].
  destruct (Ascii.eqb c "\").
  2:{ cbn [sall]. rewrite Sc. apply IH; [cbn; lia|exact S1]. }
  destruct s1 as [|d s2]; [cbn [sall]; now rewrite Sc|]. cbn [sall] in S1. apply andb_prop in S1 as [Sd S2].
  destruct (Ascii.eqb d "-"); [cbn [sall]; apply IH; [cbn; lia|exact S2]|].
  destruct (Ascii.eqb d "f").
  - destruct s2 as [|e s3]; [cbn [sall]; now rewrite Sc, Sd|]. cbn [sall] in S2. apply andb_prop in S2 as [Se S3].
    destruct (Ascii.eqb e "B" || Ascii.eqb e "I" || Ascii.eqb e "P"); [apply IH; [cbn; lia|exact S3]|].
    cbn [sall]. rewrite Sc, Sd, Se. apply IH; [cbn; lia|exact S3].
  - cbn [sall]. rewrite Sc, Sd. apply IH; [cbn; lia|exact S2].
Qed.

(** the words of the text without markup are the words without markup *)
Lemma words_strip s : forallb closed (words s) = true -> words (strip s) = flat_map (fun w => words (strip w)) (words s).
Proof.
  revert s. apply (str_ind_len (fun s => forallb closed (words s) = true ->
    words (strip s) = flat_map (fun w => words (strip w)) (words s))).
  intros s IH C. destruct (split_space s) as [S|(w & c & r & -> & W & Sc & L)].
  - rewrite (words_solid s S) in *. destruct s as [|x s]; [reflexivity|]. cbn [is_empty flat_map]. now rewrite app_nil_r.
  - rewrite (words_app _ _ _ Sc) in *. rewrite forallb_app in C. apply andb_prop in C as [Cw Cr].
    rewrite flat_map_app, <- (IH r L Cr).
    assert (Cw' : closed w = true).
    { rewrite (words_solid w W) in Cw. destruct w as [|x w]; [reflexivity|]. cbn [is_empty forallb] in Cw. now apply andb_prop in Cw. }
    rewrite (strip_app _ _ Cw').
    assert (E : strip (String c r) = String c (strip r)).
    { cbn [strip]. destruct (Ascii.eqb_spec c "\") as [->|]; [discriminate Sc|reflexivity]. }
    rewrite E, (words_app _ _ _ Sc). f_equal. rewrite (words_solid w W).
    destruct w as [|x w]; [reflexivity|]. cbn [is_empty flat_map]. now rewrite app_nil_r.
Qed.

Lemma documented_words s : documented s = true -> forallb documented (words s) = true.
Proof.
  revert s. apply (str_ind_len (fun s => documented s = true -> forallb documented (words s) = true)).
  intros s IH D. destruct (split_space s) as [S|(w & c & r & -> & W & Sc & L)].
  - rewrite (words_solid s S). destruct s as [|x s]; [reflexivity|]. cbn [is_empty forallb]. now rewrite D.
  - rewrite (words_app _ _ _ Sc), forallb_app.
    assert (A : documented w = true /\ documented r = true).
    { clear IH L. revert w W D. apply (str_ind_len (fun w => solid w = true -> documented (w +s+ String c r) = true ->
        documented w = true /\ documented r = true)).
      intros [|x s1] IHw W D; unfold solid in *; cbn [String.append documented sall] in *.
      - destruct (Ascii.eqb_spec c "\") as [->|]; [discriminate Sc|]. auto.
      - apply andb_prop in W as [_ W1]. destruct (Ascii.eqb x "\"); [|apply IHw; [cbn; lia|exact W1|exact D]].
        destruct s1 as [|d s2]; cbn [String.append sall] in *.
        + destruct (Ascii.eqb_spec c "-") as [->|]; [discriminate Sc|]. destruct (Ascii.eqb_spec c "f") as [->|]; [discriminate Sc|discriminate].
        + apply andb_prop in W1 as [_ W2]. destruct (Ascii.eqb d "-"); [apply IHw; [cbn; lia|exact W2|exact D]|].
          destruct (Ascii.eqb d "f"); [|discriminate].
          destruct s2 as [|e s3]; cbn [String.append sall] in *.
          * apply andb_prop in D as [B _]. exfalso. destruct (Ascii.eqb_spec c "B") as [->|]; [discriminate Sc|].
            destruct (Ascii.eqb_spec c "I") as [->|]; [discriminate Sc|]. destruct (Ascii.eqb_spec c "P") as [->|]; [discriminate Sc|discriminate].
          * apply andb_prop in W2 as [_ W3]. apply andb_prop in D as [B D]. rewrite B. cbn [andb]. apply IHw; [cbn; lia|exact W3|exact D]. }
    destruct A as [Dw Dr]. rewrite (IH r L Dr), andb_true_r. rewrite (words_solid w W).
    destruct w as [|x w]; [reflexivity|]. cbn [is_empty forallb]. now rewrite Dw.
Qed.

(** ** Wrapping *)

Section wrapping.
Variables (nd tty : bool) (L : layout) (f : string -> string).

(** what print_tokens appends when every token [t] is shown as [f t] *)
Fixpoint wrap_rest (tab pos : nat) (l : list string) : string :=
  match l with
  | [] => ""
  | t :: l' =>
      if (screen_width L <? pos + 1 + text_width t)%nat then
        nl +s+ spaces tab +s+ f t +s+ wrap_rest tab (tab + text_width t) l'
      else " " +s+ f t +s+ wrap_rest tab (pos + (text_width t + 1)) l'
  end.
Definition wrap_all (tab : nat) (l : list string) : string :=
  match l with
  | [] => ""
  | t :: l' =>
      f t +s+ (if (screen_width L <? tab + text_width t)%nat then nl +s+ spaces tab +s+ wrap_rest tab tab l'
               else wrap_rest tab (tab + text_width t) l') +s+ nl
  end.

Definition appended (st : tstate) (s : string) : tstate := {| t_out := t_out st +s+ s; t_par := t_par st |}.

Lemma appended_twice st a b : appended (appended st a) b = appended st (a +s+ b).
Proof. unfold appended. cbn. now rewrite app_assoc_s. Qed.

Lemma put_to_text_ret t st : to_text nd tty t = Ret (f t) -> put_to_text nd tty t st = (appended st (f t), Ret tt).
Proof. intros H. unfold put_to_text, bind. now rewrite H. Qed.

Lemma print_tokens_ok l : Forall (fun t => to_text nd tty t = Ret (f t)) l -> forall tab pos st,
  print_tokens nd tty L tab pos l st = (appended st (wrap_rest tab pos l), Ret tt).
Proof.
  induction 1 as [|t l Ht Hl IH]; intros tab pos st; cbn [print_tokens wrap_rest].
  - unfold ret, appended. rewrite app_nil_r_s. now destruct st.
  - destruct (screen_width L <? pos + 1 + text_width t)%nat.
    + unfold bind at 1. cbn [put_text modify]. unfold bind. rewrite put_to_text_ret by exact Ht.
      fold (appended st (nl +s+ spaces tab)). rewrite IH, ?appended_twice, ?app_assoc_s. reflexivity.
    + unfold bind at 1. cbn [put_text modify]. unfold bind. rewrite put_to_text_ret by exact Ht.
      fold (appended st " "). rewrite IH, !appended_twice. reflexivity.
Qed.

Lemma print_text_ok text tab st : Forall (fun t => to_text nd tty t = Ret (f t)) (tokens text) ->
  print_text nd tty L text tab st = (appended st (wrap_all tab (tokens text)), Ret tt).
Proof.
  unfold print_text. destruct (tokens text) as [|t l]; intros H.
  - unfold ret, appended. cbn. rewrite app_nil_r_s. now destruct st.
  - inversion_clear H as [|? ? Ht Hl]. unfold bind at 1. rewrite put_to_text_ret by exact Ht. cbn [wrap_all].
    destruct (screen_width L <? tab + text_width t)%nat.
    + unfold bind at 1 2. cbn [put_text modify]. fold (appended (appended st (f t)) (nl +s+ spaces tab)).
      rewrite print_tokens_ok by exact Hl. unfold put_text, modify.
      fold (appended (appended (appended (appended st (f t)) (nl +s+ spaces tab)) (wrap_rest tab tab l)) nl).
      rewrite ?appended_twice, ?app_assoc_s. reflexivity.
    + unfold bind at 1. rewrite print_tokens_ok by exact Hl. unfold put_text, modify.
      fold (appended (appended (appended st (f t)) (wrap_rest tab (tab + text_width t) l)) nl).
      rewrite ?appended_twice, ?app_assoc_s. reflexivity.
Qed.

Lemma put_to_text_fails t st : closed t = false -> put_to_text nd tty t st = (st, dangling nd).
Proof. intros H. unfold put_to_text, bind. rewrite (to_text_not_closed _ _ _ H). now destruct nd. Qed.

(** words of the output *)
Hypothesis solid_f : forall t, solid t = true -> solid (f t) = true.

Lemma words_wrap_rest l : Forall (fun t => solid t = true) l -> forall w tab pos, solid w = true ->
  words (w +s+ wrap_rest tab pos l) = words w ++ flat_map (fun t => words (f t)) l.
Proof.
  induction 1 as [|t l Ht Hl IH]; intros w tab pos W; cbn [wrap_rest flat_map].
  - now rewrite app_nil_r_s, app_nil_r.
  - destruct (screen_width L <? pos + 1 + text_width t)%nat.
    + change (nl +s+ ?x) with (String "010" x). rewrite words_app by reflexivity. rewrite words_spaces.
      rewrite IH by (now apply solid_f). reflexivity.
    + change (" " +s+ ?x) with (String " " x). rewrite words_app by reflexivity.
      rewrite IH by (now apply solid_f). reflexivity.
Qed.

Lemma words_wrap_all l tab : Forall (fun t => solid t = true) l ->
  words (wrap_all tab l) = flat_map (fun t => words (f t)) l.
Proof.
  destruct l as [|t l]; intros H; [reflexivity|]. inversion_clear H as [|? ? Ht Hl]. cbn [wrap_all flat_map].
  change nl with (String "010" "") at 2. rewrite <- app_assoc_s, words_app by reflexivity. cbn [words fields filter is_empty negb].
  change (words "") with (@nil string). rewrite app_nil_r.
  destruct (screen_width L <? tab + text_width t)%nat.
  - change (nl +s+ ?x) with (String "010" x). rewrite words_app by reflexivity. rewrite words_spaces.
    pose proof (words_wrap_rest l Hl "" tab tab eq_refl) as E. cbn [String.append] in E. now rewrite E.
  - rewrite (words_wrap_rest l Hl) by (now apply solid_f). reflexivity.
Qed.

(** widths *)
Definition fits (l : string) : Prop := String.length l <= screen_width L \/ List.length (words l) <= 1.


Lemma lines_app a b : one_line a = true -> lines (a +s+ nl +s+ b) = a :: lines b.
Proof. intros H. unfold lines. change (nl +s+ b) with (String "010" b). rewrite fields_app by reflexivity. now rewrite fields_none. Qed.

Lemma one_line_app a b : one_line (a +s+ b) = one_line a && one_line b.
Proof. apply sall_app. Qed.

Lemma solid_one_line w : solid w = true -> one_line w = true.
Proof.
  unfold solid, one_line. induction w as [|c w IH]; [reflexivity|]. cbn [sall]. intros H. apply andb_prop in H as [Hc H].
  rewrite (IH H), andb_true_r. destruct (Ascii.eqb_spec c "010") as [->|]; [discriminate Hc|reflexivity].
Qed.

Lemma one_line_spaces n : one_line (spaces n) = true.
Proof. induction n as [|n IH]; [reflexivity|]. exact IH. Qed.

Lemma length_spaces n : String.length (spaces n) = n.
Proof. induction n as [|n IH]; [reflexivity|]. cbn. now f_equal. Qed.

Lemma words_le1 w : solid w = true -> List.length (words w) <= 1.
Proof. intros H. rewrite (words_solid w H). destruct (is_empty w); cbn; lia. Qed.

Lemma rest_fits l : Forall (fun t => solid t = true /\ text_width t = String.length (f t)) l ->
  forall cur tab pos, one_line cur = true -> pos = String.length cur -> fits cur ->
  Forall fits (lines (cur +s+ wrap_rest tab pos l +s+ nl)).
Proof.
  induction 1 as [|t l [Ht Wt] Hl IH]; intros cur tab pos C P F; cbn [wrap_rest].
  - cbn [String.append]. rewrite <- (app_nil_r_s nl), lines_app by exact C. constructor; [exact F|]. constructor; [left; cbn; lia|constructor].
  - destruct (Nat.ltb_spec (screen_width L) (pos + 1 + text_width t)).
    + rewrite !app_assoc_s. rewrite lines_app by exact C. constructor; [exact F|].
      rewrite <- !app_assoc_s. rewrite app_assoc_s. apply IH.
      * rewrite one_line_app, one_line_spaces. apply solid_one_line, solid_f, Ht.
      * rewrite length_app_s, length_spaces. now rewrite Wt.
      * right. rewrite words_spaces. now apply words_le1, solid_f.
    + rewrite !app_assoc_s. rewrite <- (app_assoc_s " "), <- (app_assoc_s cur). apply IH.
      * rewrite !one_line_app, C. change (one_line " ") with true. rewrite (solid_one_line _ (solid_f _ Ht)). reflexivity.
      * rewrite !length_app_s, Wt, P. cbn [String.length]. lia.
      * left. rewrite !length_app_s, <- Wt, <- P. cbn [String.length]. lia.
Qed.

Lemma all_fits l tab : Forall (fun t => solid t = true /\ text_width t = String.length (f t)) l ->
  Forall fits (lines (spaces tab +s+ wrap_all tab l)).
Proof.
  destruct l as [|t l]; intros H.
  - cbn [wrap_all]. rewrite app_nil_r_s. unfold lines. rewrite fields_none by apply one_line_spaces. constructor; [|constructor].
    right. rewrite <- (app_nil_r_s (spaces tab)), words_spaces. cbn. lia.
  - inversion_clear H as [|? ? [Ht Wt] Hl]. cbn [wrap_all].
    assert (O : one_line (spaces tab +s+ f t) = true)
      by (rewrite one_line_app, one_line_spaces; apply solid_one_line, solid_f, Ht).
    assert (F : fits (spaces tab +s+ f t)) by (right; rewrite words_spaces; now apply words_le1, solid_f).
    destruct (screen_width L <? tab + text_width t)%nat.
    + rewrite !app_assoc_s, <- (app_assoc_s (spaces tab)), lines_app by exact O. constructor; [exact F|].
      apply rest_fits; [exact Hl|apply one_line_spaces|symmetry; apply length_spaces|].
      right. rewrite <- (app_nil_r_s (spaces tab)), words_spaces. cbn. lia.
    + rewrite <- (app_assoc_s (spaces tab)). apply rest_fits; [exact Hl|exact O| |exact F].
      rewrite length_app_s, length_spaces. now rewrite Wt.
Qed.

End wrapping.
