(** Proofs about the width of texts (C41). *)
From Verif Require Import Base StrLib HelpText WidthSpec.

Lemma spelled_cons p l : all_spelled (p :: l) = spelled p +s+ all_spelled l.
Proof. reflexivity. Qed.
Lemma visible_cons p l : all_visible (p :: l) = visible p +s+ all_visible l.
Proof. reflexivity. Qed.

Lemma text_of nd l : forallb right l = true -> to_text nd false (all_spelled l) = Ret (all_visible l).
Proof.
  induction l as [|p l IH]; [reflexivity|]. cbn [forallb]. intros H. apply andb_prop in H as [R H]. specialize (IH H).
  rewrite spelled_cons, visible_cons. destruct p as [c| |c|c|c]; cbn [spelled visible right] in *; unfold str1; cbn [String.append].
  - apply negb_true_iff in R. cbn [to_text]. rewrite R, IH. reflexivity.
  - cbn [to_text]. change (Ascii.eqb "\" "\") with true. change (Ascii.eqb "-" "-") with true. cbv beta iota. rewrite IH. reflexivity.
  - cbn [to_text]. change (Ascii.eqb "\" "\") with true. change (Ascii.eqb "f" "-") with false. change (Ascii.eqb "f" "f") with true. cbv beta iota. rewrite IH. cbn [lift_res].
    unfold font in R. destruct (Ascii.eqb c "I"), (Ascii.eqb c "B"), (Ascii.eqb c "P"); try discriminate R; reflexivity.
  - cbn [to_text]. change (Ascii.eqb "\" "\") with true. change (Ascii.eqb "f" "-") with false. change (Ascii.eqb "f" "f") with true. cbv beta iota. rewrite IH. cbn [lift_res].
    unfold font in R. apply negb_true_iff, orb_false_iff in R as [R R3]. apply orb_false_iff in R as [R1 R2]. rewrite R1, R2, R3. reflexivity.
  - apply andb_prop in R as [R1 R2]. apply negb_true_iff in R1, R2. cbn [to_text]. change (Ascii.eqb "\" "\") with true. cbv beta iota. rewrite R1, R2, IH. reflexivity.
Qed.

Lemma pieces_of nd n : forall s out, String.length s <= n -> to_text nd false s = Ret out -> exists l, forallb right l = true /\ s = all_spelled l.
Proof.
  induction n as [|n IH]; intros s out L E.
  - destruct s; [|cbn in L; lia]. exists []. split; reflexivity.
  - destruct s as [|c s]; [exists []; split; reflexivity|]. cbn [to_text] in E. cbn [String.length] in L. destruct (Ascii.eqb_spec c "\") as [->|NE].
    + destruct s as [|d s]; [unfold dangling in E; destruct nd; discriminate E|]. cbn [String.length] in L. destruct (Ascii.eqb_spec d "-") as [->|ND].
      { destruct (to_text nd false s) as [r| | | | |] eqn:T; try discriminate E. destruct (IH s r ltac:(lia) T) as (l & R & ->). exists (Dash :: l). split; [exact R|reflexivity]. }
      destruct (Ascii.eqb_spec d "f") as [->|NF].
      * destruct s as [|e s]; [unfold dangling in E; destruct nd; discriminate E|]. cbn [String.length] in L.
        destruct (to_text nd false s) as [r| | | | |] eqn:T; try discriminate E. destruct (IH s r ltac:(lia) T) as (l & R & ->).
        destruct (font e) eqn:F; [exists (Font e :: l)|exists (Unfont e :: l)]; (split; [cbn [forallb right]; now rewrite F, R|reflexivity]).
      * destruct (to_text nd false s) as [r| | | | |] eqn:T; try discriminate E. destruct (IH s r ltac:(lia) T) as (l & R & ->). exists (Kept d :: l).
        split; [|reflexivity]. cbn [forallb right]. rewrite (proj2 (Ascii.eqb_neq d "-") ND), (proj2 (Ascii.eqb_neq d "f") NF). exact R.
    + destruct (to_text nd false s) as [r| | | | |] eqn:T; try discriminate E. destruct (IH s r ltac:(lia) T) as (l & R & ->). exists (Letter c :: l).
      split; [|reflexivity]. cbn [forallb right]. now rewrite (proj2 (Ascii.eqb_neq c "\") NE), R.
Qed.

Lemma spelled_nonempty p l : exists c s, all_spelled (p :: l) = String c s.
Proof. destruct p; eexists; eexists; reflexivity. Qed.

Lemma width_plain c s : Ascii.eqb c "\" = false -> text_width (String c s) = 1 + text_width s.
Proof. intros H. cbn [text_width]. now rewrite H. Qed.

Lemma width_of l : forallb right l = true -> no_slash_font l -> text_width (all_spelled l) + uncounted l = String.length (all_visible l).
Proof.
  induction l as [|p l IH]; [reflexivity|]. cbn [forallb]. intros H N. apply andb_prop in H as [R H].
  assert (N' : no_slash_font l) by (intros X; apply N; now right). specialize (IH H N').
  rewrite spelled_cons, visible_cons, length_app_s. destruct p as [c| |c|c|c]; cbn [spelled visible right] in *; unfold str1; cbn [String.append].
  - apply negb_true_iff in R. rewrite width_plain by exact R. cbn [uncounted String.length]. lia.
  - change (text_width (String "\" (String "-" (all_spelled l)))) with (1 + text_width (all_spelled l)). cbn [uncounted String.length]. lia.
  - assert (W : text_width (String "\" (String "f" (String c (all_spelled l)))) = text_width (all_spelled l)).
    { unfold font in R. cbn [text_width]. change (negb (Ascii.eqb "\" "\")) with false. change (Ascii.eqb "f" "\" || Ascii.eqb "f" "-") with false. change (Ascii.eqb "f" "f") with true. cbv beta iota. now rewrite R. }
    rewrite W. cbn [uncounted String.length]. lia.
  - assert (NB : Ascii.eqb c "\" = false) by (apply Ascii.eqb_neq; intros ->; apply N; now left).
    assert (W : text_width (String "\" (String "f" (String c (all_spelled l)))) = 3 + text_width (all_spelled l)).
    { apply negb_true_iff in R. unfold font in R.
      transitivity (1 + text_width (String "f" (String c (all_spelled l)))).
      - cbn [text_width]. change (negb (Ascii.eqb "\" "\")) with false. change (Ascii.eqb "f" "\" || Ascii.eqb "f" "-") with false. change (Ascii.eqb "f" "f") with true. cbv beta iota. now rewrite R.
      - rewrite width_plain by reflexivity. rewrite width_plain by exact NB. lia. }
    rewrite W. cbn [uncounted String.length]. lia.
  - apply andb_prop in R as [R1 R2]. apply negb_true_iff in R1, R2. destruct (Ascii.eqb_spec c "\") as [->|NB].
    + change (text_width (String "\" (String "\" (all_spelled l)))) with (1 + text_width (all_spelled l)). cbn [String.length].
      assert (U : uncounted (Kept "\" :: l) = 1 + uncounted l) by (destruct l; reflexivity). rewrite U. lia.
    + apply Ascii.eqb_neq in NB. cbn [String.length]. destruct l as [|q l'].
      * cbn [all_spelled map sconcat text_width uncounted]. change (negb (Ascii.eqb "\" "\")) with false. cbv beta iota. rewrite NB, R1. cbn. lia.
      * destruct (spelled_nonempty q l') as (x & s & X).
        assert (W : text_width (String "\" (String c (all_spelled (q :: l')))) = 1 + text_width (all_spelled (q :: l'))).
        { rewrite X. rewrite <- (width_plain c) by exact NB. remember (String c (String x s)) as t eqn:T. cbn [text_width]. change (negb (Ascii.eqb "\" "\")) with false. cbv beta iota.
          rewrite T. rewrite NB, R1, R2. reflexivity. }
        rewrite W. change (uncounted (Kept c :: q :: l')) with (1 + uncounted (q :: l')). lia.
Qed.

Lemma spelled_unique l : forall l', forallb right l = true -> forallb right l' = true -> all_spelled l = all_spelled l' -> l = l'.
Proof.
  induction l as [|p l IH]; intros [|q l'] R R' E.
  - reflexivity.
  - destruct (spelled_nonempty q l') as (c & s & X). rewrite X in E. discriminate E.
  - destruct (spelled_nonempty p l) as (c & s & X). rewrite X in E. discriminate E.
  - cbn [forallb] in R, R'. apply andb_prop in R as [R1 R]. apply andb_prop in R' as [R1' R']. rewrite !spelled_cons in E.
    destruct p as [c| |c|c|c], q as [c'| |c'|c'|c']; cbn [spelled right] in *; unfold str1 in E; cbn [String.append] in E; injection E as E; subst; try discriminate;
      try (cbn in R1, R1'; rewrite ?andb_false_r in *; discriminate); try (f_equal; now apply IH).
    all: try congruence.
    all: try (rewrite R1 in R1'; discriminate).
    all: rewrite R1' in R1; discriminate R1.
Qed.
