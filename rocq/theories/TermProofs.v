(** Terms and descriptions, for every term (C42). *)
From Verif Require Import Base StrLib HelpBase HelpText HelpSpec HelpTextProofs HelpPage HelpLayout.

Lemma strip_shorter : forall s, String.length (strip s) <= String.length s /\ (String.length (strip s) = String.length s -> strip s = s).
Proof.
  apply (str_ind_len (fun s => String.length (strip s) <= String.length s /\ (String.length (strip s) = String.length s -> strip s = s))).
  intros [|c s1] IH; [split; reflexivity|]. cbn [strip].
  destruct (Ascii.eqb c "\").
  - destruct s1 as [|d s2]; [split; reflexivity|]. destruct (Ascii.eqb d "-").
    + destruct (IH s2) as [A _]; [cbn; lia|]. cbn [String.length]. split; [lia|]. intros E. exfalso. lia.
    + destruct (Ascii.eqb d "f").
      * destruct s2 as [|e s3]; [split; reflexivity|]. destruct (IH s3) as [A B]; [cbn; lia|]. destruct (_ || _); cbn [String.length].
        -- split; [lia|]. intros E. exfalso. lia.
        -- split; [lia|]. intros E. rewrite B by lia. reflexivity.
      * destruct (IH s2) as [A B]; [cbn; lia|]. cbn [String.length]. split; [lia|]. intros E. rewrite B by lia. reflexivity.
  - destruct (IH s1) as [A B]; [cbn; lia|]. cbn [String.length]. split; [lia|]. intros E. rewrite B by lia. reflexivity.
Qed.
Lemma strip_one_line : forall s, one_line s = true -> one_line (strip s) = true.
Proof.
  apply (str_ind_len (fun s => one_line s = true -> one_line (strip s) = true)).
  unfold one_line. intros [|c s1] IH H; [reflexivity|]. pose proof H as H0. cbn [strip sall] in *. apply andb_prop in H as [Hc H1].
  destruct (Ascii.eqb c "\").
  - destruct s1 as [|d s2]; [exact H0|]. cbn [sall] in H1. apply andb_prop in H1 as [Hd H2]. destruct (Ascii.eqb d "-").
    + cbn [sall]. rewrite (IH s2); [reflexivity|cbn; lia|exact H2].
    + destruct (Ascii.eqb d "f").
      * destruct s2 as [|e s3]; [exact H0|]. cbn [sall] in H2. apply andb_prop in H2 as [He H3]. destruct (_ || _).
        -- apply IH; [cbn; lia|exact H3].
        -- cbn [sall]. rewrite Hc, Hd, He. apply IH; [cbn; lia|exact H3].
      * cbn [sall]. rewrite Hc, Hd. apply IH; [cbn; lia|exact H2].
  - cbn [sall]. rewrite Hc. apply IH; [cbn; lia|exact H1].
Qed.

Lemma term_lemma : forall nd tty width k d out par, closed k = true -> one_line k = true -> scontains "027" k = false ->
  forallb closed (words (until_nul d)) = true ->
  exists term gap rest,
    print_list_item nd tty (layout_of width) k d {| t_out := out; t_par := par |} =
      ({| t_out := out +s+ (if par then nl else "") +s+ spaces 4 +s+ term +s+ gap +s+ rest; t_par := false |}, Ret tt)
    /\ drop_sgr term = strip k /\ words gap = []
    /\ (one_line gap = true <-> String.length k <= 4)
    /\ (column (spaces 4 +s+ strip k +s+ gap) = 10 <-> 5 <= String.length k \/ strip k = k)
    /\ ((one_line gap = true <-> String.length (strip k) <= 4) /\ column (spaces 4 +s+ strip k +s+ gap) = 10 <->
        strip k = k \/ 5 <= String.length (strip k)).
Proof.
  intros nd tty width k d out par Ck H1 HE HD. rewrite <- tokens_words in HD.
  set (L := layout_of width). exists (conv nd tty k), (term_gap L k), (wrap_all L (conv nd tty) 10 (tokens d)).
  destruct (text_implements nd tty L) as (_ & _ & _ & _ & X & _). specialize (X k d out par).
  cbn [q_item text_effects fst snd text_printer p_item] in X. unfold text_ok in X. rewrite Ck, HD in X. cbn [andb] in X.
  split; [exact X|]. split; [apply dsgr_end; now apply dsgr_conv|].
  destruct (strip_shorter k) as [S1 S2]. pose proof (strip_one_line k H1) as O.
  assert (S3 : strip k = k -> String.length (strip k) = String.length k) by (intros ->; reflexivity).
  unfold term_gap. change (right_column_tab L) with 10. change (left_padding L) with 4. change (center_padding L) with 2.
  destruct (Nat.ltb_spec 10 (4 + String.length k + 2)) as [Hl|Hl].
  - assert (C : column (spaces 4 +s+ strip k +s+ nl +s+ spaces 10) = 10).
    { rewrite <- app_assoc_s, column_nl. reflexivity. }
    assert (G : one_line (nl +s+ spaces 10) = false) by reflexivity.
    rewrite C, G. split; [reflexivity|]. split; [split; [discriminate|lia]|]. split; [split; [intros _; left; lia|reflexivity]|].
    split; [|intros H; split; [split; [discriminate|]|reflexivity]].
    + intros [A _]. right. destruct (Nat.le_gt_cases 5 (String.length (strip k))); [assumption|]. assert (Q : false = true) by (apply A; lia). discriminate Q.
    + intros A. exfalso. destruct H as [H|H]; [apply S3 in H|]; lia.
  - assert (C : column (spaces 4 +s+ strip k +s+ spaces (10 - (4 + String.length k))) = 10 - String.length k + String.length (strip k)).
    { rewrite column_line by (now rewrite !one_line_app, O, !one_line_spaces). rewrite !length_app_s, !length_spaces. lia. }
    rewrite C, one_line_spaces. split; [rewrite <- (app_nil_r_s (spaces _)), words_spaces; reflexivity|].
    split; [split; [lia|reflexivity]|]. split.
    + split; [intros A; right; apply S2; lia|]. intros [A|A]; [lia|]. apply S3 in A. lia.
    + split; [intros [_ A]; left; apply S2; lia|]. intros [A|A]; [apply S3 in A|]; (split; [split; [lia|reflexivity]|lia]).
Qed.
