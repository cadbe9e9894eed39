(** The fonts of HTML pages are those of the markup (C108). *)
From Verif Require Import Base StrLib HelpBase HelpText HelpExport HelpSpec HelpTextProofs FontSpec FontProofs HtmlFontSpec.
From Coq Require Import Lia.

Lemma shown_other open c r : c <> "<"%char -> shown 0 open (String c r) = (c, font_of open) :: shown 0 open r.
Proof. intros H. cbn [shown]. unfold String.prefix. destruct (ascii_dec "<" c) as [E|_]; [congruence|reflexivity]. Qed.

Lemma shown_tag open q :
  shown 0 open ("<em>" +s+ q) = shown 0 ("I"%char :: open) q /\ shown 0 open ("<strong>" +s+ q) = shown 0 ("B"%char :: open) q /\
  shown 0 ("I"%char :: open) ("</em>" +s+ q) = shown 0 open q /\ shown 0 ("B"%char :: open) ("</strong>" +s+ q) = shown 0 open q.
Proof. destruct q; repeat split; reflexivity. Qed.

Lemma tagged_other open c s : c <> "\"%char -> tagged open (String c s) = (c, font_of open) :: tagged open s.
Proof. intros H. destruct c as [[] [] [] [] [] [] [] []]; try reflexivity. now destruct H. Qed.
Lemma tagged_back open d s : d <> "-"%char -> d <> "f"%char -> tagged open (String "\" (String d s)) = ("\"%char, font_of open) :: (d, font_of open) :: tagged open s.
Proof. intros H H'. destruct d as [[] [] [] [] [] [] [] []]; try reflexivity; [now destruct H'|now destruct H]. Qed.

Definition element (x : chr) : string := if Ascii.eqb x "B" then "strong" else "em".
Definition of_markup (open : list chr) : Prop := Forall (fun x => x = "B"%char \/ x = "I"%char) open.

Lemma html_fonts nd s : forall open out, of_markup open -> scontains "<" s = false -> html_from nd (map element open) s = Ret out -> shown 0 open out = tagged open s.
Proof.
  assert (D : forall (A : Type) (x : A), @dangling nd A = Ret x -> False) by (intros A x; unfold dangling; destruct nd; discriminate).
  revert s. apply (str_ind_len (fun s => forall open out, of_markup open -> scontains "<" s = false -> html_from nd (map element open) s = Ret out -> shown 0 open out = tagged open s)).
  intros [|c s1] IH open out O N E; [injection E as <-; reflexivity|]. cbn [html_from scontains] in *.
  apply orb_false_elim in N as [Nc N1]. apply Ascii.eqb_neq in Nc.
  destruct (Ascii.eqb_spec c "\") as [->|Hc].
  2:{ destruct (html_from nd (map element open) s1) as [q| | | | |] eqn:F; try discriminate. injection E as <-.
      rewrite shown_other by congruence. rewrite tagged_other by exact Hc. f_equal. apply IH; auto. }
  destruct s1 as [|d s2]; [now apply D in E|]. cbn [scontains] in N1. apply orb_false_elim in N1 as [Nd N2]. apply Ascii.eqb_neq in Nd.
  destruct (Ascii.eqb_spec d "-") as [->|Hd].
  { destruct (html_from nd (map element open) s2) as [q| | | | |] eqn:F; try discriminate. injection E as <-.
    rewrite shown_other by discriminate. cbn [tagged]. f_equal. apply IH; auto. cbn; lia. }
  destruct (Ascii.eqb_spec d "f") as [->|Hf].
  2:{ destruct (html_from nd (map element open) s2) as [q| | | | |] eqn:F; try discriminate. injection E as <-.
      rewrite shown_other by discriminate. rewrite shown_other by congruence. rewrite tagged_back by assumption. do 2 f_equal. apply IH; auto. cbn; lia. }
  destruct s2 as [|e s3]; [now apply D in E|]. cbn [scontains] in N2. apply orb_false_elim in N2 as [Ne N3]. apply Ascii.eqb_neq in Ne.
  assert (W : String.length s3 < String.length (String "\" (String "f" (String e s3)))) by (cbn; lia).
  cbn [tagged]. destruct (Ascii.eqb_spec e "I") as [->|HI].
  { change ("em" :: map element open) with (map element ("I"%char :: open)) in E.
    destruct (html_from nd (map element ("I"%char :: open)) s3) as [q| | | | |] eqn:F; try discriminate. injection E as <-.
    refine (eq_trans (proj1 (shown_tag open q)) _). refine (IH s3 W ("I"%char :: open) q _ N3 F). constructor; auto. }
  destruct (Ascii.eqb_spec e "B") as [->|HB].
  { change ("strong" :: map element open) with (map element ("B"%char :: open)) in E.
    destruct (html_from nd (map element ("B"%char :: open)) s3) as [q| | | | |] eqn:F; try discriminate. injection E as <-.
    refine (eq_trans (proj1 (proj2 (shown_tag open q))) _). refine (IH s3 W ("B"%char :: open) q _ N3 F). constructor; auto. }
  cbn [orb]. destruct (Ascii.eqb_spec e "P") as [->|HP].
  { destruct open as [|t open]; [now apply D in E|]. cbn [map] in E. inversion_clear O as [|? ? Ot O'].
    destruct (html_from nd (map element open) s3) as [q| | | | |] eqn:F; try discriminate. injection E as <-. cbn [tl].
    rewrite <- (IH s3 W open q O' N3 F). destruct (shown_tag open q) as (_ & _ & TI & TB). destruct Ot as [->| ->]; [exact TB|exact TI]. }
  destruct (html_from nd (map element open) s3) as [q| | | | |] eqn:F; try discriminate. injection E as <-.
  unfold str1. cbn [String.append]. rewrite !shown_other by (discriminate || congruence). do 3 f_equal. apply (IH s3 W); auto.
Qed.

Lemma to_html_fonts nd s out : to_html nd s = Ret out -> scontains "<" s = false -> shown 0 [] out = tagged [] s.
Proof. intros E N. apply (html_fonts nd s [] out); [constructor|exact N|exact E]. Qed.

Lemma tagged_separate s : forall open on, (on = false -> open = []) -> List.length open <= 1 -> separate on s = true -> tagged open s = marked replaces (font_of open) s.
Proof.
  revert s. apply (str_ind_len (fun s => forall open on, (on = false -> open = []) -> List.length open <= 1 -> separate on s = true -> tagged open s = marked replaces (font_of open) s)).
  intros [|c s1] IH open on N Len Sp; [reflexivity|].
  assert (K : forall t o b, String.length t < S (String.length s1) -> (b = false -> o = []) -> List.length o <= 1 -> separate b t = true -> tagged o t = marked replaces (font_of o) t)
    by (intros; eapply IH; eauto).
  destruct (Ascii.eqb_spec c "\") as [->|Hc].
  2:{ assert (Q : separate on s1 = true) by (destruct c as [[] [] [] [] [] [] [] []]; try exact Sp; now destruct Hc).
      pose proof (K s1 open on ltac:(lia) N Len Q) as R. destruct c as [[] [] [] [] [] [] [] []]; try (cbn [marked tagged]; now rewrite R); now destruct Hc. }
  destruct s1 as [|d s2]; [reflexivity|]. destruct (Ascii.eqb_spec d "f") as [->|Hf].
  2:{ assert (Q : separate on s2 = true) by (destruct d as [[] [] [] [] [] [] [] []]; try exact Sp; now destruct Hf).
      pose proof (K s2 open on ltac:(cbn; lia) N Len Q) as R. destruct d as [[] [] [] [] [] [] [] []]; try (cbn [marked tagged]; now rewrite R); now destruct Hf. }
  destruct s2 as [|e s3]; [reflexivity|]. cbn [separate] in Sp. cbn [marked tagged].
  assert (W : String.length s3 < S (String.length (String "f" (String e s3)))) by (cbn; lia).
  destruct (Ascii.eqb_spec e "B") as [->|HB]; [|destruct (Ascii.eqb_spec e "I") as [->|HI]; [|destruct (Ascii.eqb_spec e "P") as [->|HP]]]; cbn [orb] in *.
  - apply andb_prop in Sp as [So Sp]. destruct on; [discriminate So|]. rewrite (N eq_refl).
    exact (K s3 ["B"%char] true W ltac:(discriminate) (le_n 1) Sp).
  - apply andb_prop in Sp as [So Sp]. destruct on; [discriminate So|]. rewrite (N eq_refl).
    exact (K s3 ["I"%char] true W ltac:(discriminate) (le_n 1) Sp).
  - assert (Et : tl open = []) by (destruct open as [|a [|b o]]; [reflexivity|reflexivity|cbn in Len; lia]). rewrite Et.
    exact (K s3 [] false W (fun _ => eq_refl) (Nat.le_0_l 1) Sp).
  - now rewrite (K s3 open on W N Len Sp).
Qed.

Lemma to_html_as_in_man nd s out : to_html nd s = Ret out -> scontains "<" s = false -> separate false s = true -> shown 0 [] out = marked replaces normal s.
Proof. intros E N Sp. rewrite (to_html_fonts nd s out E N). exact (tagged_separate s [] false (fun _ => eq_refl) (Nat.le_0_l 1) Sp). Qed.
