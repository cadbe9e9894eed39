(** Which texts an exported HTML page shows literally. *)
From Coq Require Import Lia.
From Verif Require Import Base StrLib Fs Values Validators FormatParse Parser HelpBase HelpText HelpExport HelpSpec HelpTextProofs
  HelpPage HelpGood HelpLayout HelpExportProofs HtmlShownSpec.

(** ** References *)

Lemma browser_no_ref s1 : (forall n c, In (n, c) entities -> String.prefix n s1 = false) -> browser false (String "&" s1) = String "&" (browser false s1).
Proof.
  intros H. assert (Q := H "quot;" _ (or_introl eq_refl)). assert (A := H "apos;" _ (or_intror (or_introl eq_refl))). assert (M1 := H "amp;" _ (or_intror (or_intror (or_introl eq_refl)))).
  assert (L := H "lt;" _ (or_intror (or_intror (or_intror (or_introl eq_refl))))). assert (G := H "gt;" _ (or_intror (or_intror (or_intror (or_intror (or_introl eq_refl)))))). clear H.
  remember (browser false s1) as z eqn:Z1. cbn [browser]. change (Ascii.eqb "&" "<") with false. change (Ascii.eqb "&" "&") with true. cbv iota. rewrite <- Z1. clear Z1.
  Ltac next s := destruct s as [|[[] [] [] [] [] [] [] []] s]; try reflexivity.
  Ltac over s H := exfalso; destruct s; vm_compute in H; discriminate H.
  next s1; next s1; next s1; try (over s1 L); try (over s1 G); next s1; try (over s1 M1); next s1; try (over s1 Q); over s1 A.
Qed.

Lemma prefix_split n s : String.prefix n s = true -> exists r, s = n +s+ r.
Proof. intros H. now apply prefix_iff in H. Qed.

Lemma browser_amp s1 : (exists n c r, In (n, c) entities /\ s1 = n +s+ r /\ browser false (String "&" s1) = String c (browser false r)) \/
  ((forall n c r, In (n, c) entities -> s1 <> n +s+ r) /\ browser false (String "&" s1) = String "&" (browser false s1)).
Proof.
  destruct (existsb (fun q => String.prefix (fst q) s1) entities) eqn:E.
  - left. apply existsb_exists in E as ((n & c) & Hin & E). cbn [fst] in E. apply prefix_split in E as (r & ->). exists n, c, r. split; [exact Hin|]. split; [reflexivity|].
    destruct Hin as [H|[H|[H|[H|[H|[]]]]]]; injection H as <- <-; reflexivity.
  - right. assert (F : forall n c, In (n, c) entities -> String.prefix n s1 = false).
    { intros n c Hin. destruct (String.prefix n s1) eqn:P; [|reflexivity]. assert (existsb (fun q => String.prefix (fst q) s1) entities = true) by (apply existsb_exists; exists (n, c); auto). congruence. }
    split; [|now apply browser_no_ref]. intros n c r Hin ->. specialize (F n c Hin). assert (String.prefix n (n +s+ r) = true) by (apply prefix_iff; eauto). congruence.
Qed.

Lemma entity_length n c : In (n, c) entities -> 3 <= String.length n.
Proof. intros [H|[H|[H|[H|[H|[]]]]]]; injection H as <- <-; cbn; lia. Qed.

Lemma browser_length s : forall b, String.length (browser b s) <= String.length (drop_tags b s).
Proof.
  revert s. apply (str_ind_len (fun s => forall b, String.length (browser b s) <= String.length (drop_tags b s))). intros [|c s] IH b; [cbn; lia|].
  destruct b; [cbn [browser drop_tags]; apply IH; cbn; lia|].
  destruct (Ascii.eqb_spec c "<") as [->|Hl]; [cbn [browser drop_tags]; change (Ascii.eqb "<" "<") with true; cbv iota; apply IH; cbn; lia|].
  destruct (Ascii.eqb_spec c "&") as [->|Hc].
  - destruct (browser_amp s) as [(n & c & r & Hin & -> & ->)|(_ & ->)].
    + assert (L : String.length (browser false r) <= String.length (drop_tags false r)) by (apply IH; cbn; rewrite length_app_s; lia).
      destruct Hin as [H|[H|[H|[H|[H|[]]]]]]; injection H as <- <-; match goal with |- context [drop_tags false ?x] => let y := eval simpl in (drop_tags false x) in change (drop_tags false x) with y end; cbn in *; lia.
    + assert (L : String.length (browser false s) <= String.length (drop_tags false s)) by (apply IH; cbn; lia). cbn [drop_tags]. change (Ascii.eqb "&" "<") with false. cbn. lia.
  - rewrite browser_other by assumption. cbn. rewrite (proj2 (Ascii.eqb_neq c "<") Hl). assert (L : String.length (browser false s) <= String.length (drop_tags false s)) by (apply IH; cbn; lia). cbn. lia.
Qed.

(** the names of entities are printed and stripped as they are *)
Definition letter (c : chr) : Prop := c <> "\"%char /\ c <> "-"%char /\ c <> "<"%char.

Lemma entity_letters n c : In (n, c) entities -> Forall letter (chars n).
Proof. intros [H|[H|[H|[H|[H|[]]]]]]; injection H as <- <-; repeat constructor; discriminate. Qed.

Lemma letters_out nd tags n : Forall letter (chars n) -> forall b r, html_from nd tags (n +s+ b) = Ret r -> exists q, r = n +s+ q /\ html_from nd tags b = Ret q.
Proof.
  induction n as [|c n IH]; intros H b r E; [exists r; auto|]. inversion_clear H as [|? ? (H1 & _) H2]. cbn [String.append html_from] in E.
  rewrite (proj2 (Ascii.eqb_neq c "\") H1) in E. destruct (html_from nd tags (n +s+ b)) as [q| | | | |] eqn:F; try discriminate. injection E as <-.
  destruct (IH H2 b q F) as (q' & -> & K). exists q'. auto.
Qed.

Lemma letters_in nd tags n : Forall letter (chars n) -> forall s q, html_from nd tags s = Ret (n +s+ q) -> exists b, s = n +s+ b /\ html_from nd tags b = Ret q.
Proof.
  assert (D : forall (A : Type) (x : A), @dangling nd A = Ret x -> False) by (intros A x; unfold dangling; destruct nd; discriminate).
  induction n as [|c n IH]; intros H s q E; [exists s; auto|]. inversion_clear H as [|? ? (H1 & H2 & H3) HN]. destruct s as [|y s]; [discriminate E|]. cbn [html_from] in E.
  destruct (Ascii.eqb_spec y "\") as [->|Hx].
  - exfalso. destruct s as [|d s]; [exact (D _ _ E)|].
    destruct (Ascii.eqb_spec d "-") as [->|_]. { destruct (html_from nd tags s); try discriminate E. cbn in E. congruence. }
    destruct (Ascii.eqb d "f").
    + destruct s as [|e s]; [exact (D _ _ E)|].
      destruct (Ascii.eqb e "I"). { destruct (html_from nd ("em" :: tags) s); try discriminate E. cbn in E. congruence. }
      destruct (Ascii.eqb e "B"). { destruct (html_from nd ("strong" :: tags) s); try discriminate E. cbn in E. congruence. }
      destruct (Ascii.eqb e "P"). { destruct tags as [|t tags]; [exact (D _ _ E)|]. destruct (html_from nd tags s); try discriminate E. cbn in E. congruence. }
      destruct (html_from nd tags s); try discriminate E. cbn in E. congruence.
    + destruct (html_from nd tags s); try discriminate E. cbn in E. congruence.
  - destruct (html_from nd tags s) as [q'| | | | |] eqn:F; try discriminate E. cbn in E. assert (y = c) by congruence. assert (q' = n +s+ q) by congruence. subst.
    destruct (IH HN s q F) as (b & -> & K). exists b. auto.
Qed.

Lemma letters_strip n : Forall letter (chars n) -> forall b, strip (n +s+ b) = n +s+ strip b.
Proof.
  induction n as [|c n IH]; intros H b; [reflexivity|]. inversion_clear H as [|? ? (H1 & _) H2]. cbn [String.append strip].
  rewrite (proj2 (Ascii.eqb_neq c "\") H1). now rewrite IH.
Qed.

Lemma reference_later c s : has_reference (String c s) -> (c = "&"%char /\ exists n c' b, In (n, c') entities /\ s = n +s+ b) \/ has_reference s.
Proof.
  intros (a & n & c' & b & Hin & E). destruct a as [|x a]; cbn in E.
  - left. split; [congruence|]. exists n, c', b. split; [exact Hin|congruence].
  - right. exists a, n, c', b. split; [exact Hin|]. cbn. congruence.
Qed.

Lemma reference_more c s : has_reference s -> has_reference (String c s).
Proof. intros (a & n & c' & b & Hin & ->). exists (String c a), n, c', b. auto. Qed.

(** ** Tags *)

Lemma drop_end b t q : t = "em" \/ t = "strong" -> drop_tags b ("</" +s+ t +s+ ">" +s+ q) = drop_tags false q.
Proof. intros [->| ->]; destruct b; reflexivity. Qed.

Lemma shown_length nd s : forall tags r b, html_from nd tags s = Ret r -> Forall (fun t => t = "em" \/ t = "strong") tags ->
  String.length (drop_tags b r) <= String.length (strip s) /\ (scontains "<" s = true -> String.length (drop_tags b r) < String.length (strip s)).
Proof.
  revert s. apply (str_ind_len (fun s => forall tags r b, html_from nd tags s = Ret r -> Forall (fun t => t = "em" \/ t = "strong") tags ->
    String.length (drop_tags b r) <= String.length (strip s) /\ (scontains "<" s = true -> String.length (drop_tags b r) < String.length (strip s)))).
  assert (D : forall (A : Type) (x : A), @dangling nd A = Ret x -> False) by (intros A x; unfold dangling; destruct nd; discriminate).
  intros [|c s1] IH tags r b H T; [injection H as <-; split; [destruct b; reflexivity|discriminate]|].
  (* one character *)
  assert (One : forall d q n m, (forall b', String.length (drop_tags b' q) <= n /\ (m = true -> String.length (drop_tags b' q) < n)) ->
    forall b', String.length (drop_tags b' (String d q)) <= S n /\ (Ascii.eqb "<" d || m = true -> String.length (drop_tags b' (String d q)) < S n)).
  { intros d q n m K b'. cbn [drop_tags]. destruct b'.
    - destruct (K (negb (Ascii.eqb d ">"))) as [K1 K2]. split; [lia|intros _; lia].
    - rewrite Ascii.eqb_sym. destruct (Ascii.eqb "<" d).
      + destruct (K true) as [K1 K2]. split; [lia|intros _; lia].
      + destruct (K false) as [K1 K2]. cbn [String.length orb]. split; [lia|]. intros E. specialize (K2 E). lia. }
  cbn [html_from strip] in *. cbn [scontains].
  destruct (Ascii.eqb_spec c "\") as [->|Hc].
  2:{ destruct (html_from nd tags s1) as [q| | | | |] eqn:E; try discriminate. injection H as <-. apply One. intros b'. apply (IH s1) with (tags := tags); auto. }
  destruct s1 as [|d s2]; [destruct (D _ _ H)|]. cbn [scontains].
  change (Ascii.eqb "<" "\") with false. cbn [orb].
  destruct (Ascii.eqb_spec d "-") as [->|Hd].
  { destruct (html_from nd tags s2) as [q| | | | |] eqn:E; try discriminate. injection H as <-. apply One. intros b'. apply (IH s2) with (tags := tags); auto. cbn. lia. }
  destruct (Ascii.eqb_spec d "f") as [->|Hf].
  2:{ destruct (html_from nd tags s2) as [q| | | | |] eqn:E; try discriminate. injection H as <-. cbn [String.length]. apply (One "\"%char _ _ (Ascii.eqb "<" d || scontains "<" s2)). apply One. intros b'. apply (IH s2) with (tags := tags); auto. cbn. lia. }
  destruct s2 as [|e s3]; [destruct (D _ _ H)|]. cbn [scontains].
  assert (L : String.length s3 < String.length (String "\" (String "f" (String e s3)))) by (cbn; lia).
  destruct (Ascii.eqb_spec e "I") as [->|HI]; [|destruct (Ascii.eqb_spec e "B") as [->|HB]; [|destruct (Ascii.eqb_spec e "P") as [->|HP]]].
  - destruct (html_from nd ("em" :: tags) s3) as [q| | | | |] eqn:E; try discriminate. injection H as <-.
    match goal with |- context [drop_tags b ?x] => replace (drop_tags b x) with (drop_tags false q) by (destruct b; reflexivity) end. change (Ascii.eqb "<" "f") with false. change (Ascii.eqb "<" "I") with false. change (Ascii.eqb "I" "B") with false. cbn [orb]. apply (IH s3 L ("em" :: tags) q false E). constructor; auto.
  - destruct (html_from nd ("strong" :: tags) s3) as [q| | | | |] eqn:E; try discriminate. injection H as <-.
    match goal with |- context [drop_tags b ?x] => replace (drop_tags b x) with (drop_tags false q) by (destruct b; reflexivity) end. change (Ascii.eqb "<" "f") with false. change (Ascii.eqb "<" "B") with false. cbn [orb]. apply (IH s3 L ("strong" :: tags) q false E). constructor; auto.
  - destruct tags as [|t tags]; [destruct (D _ _ H)|]. inversion_clear T as [|? ? Ht T'].
    destruct (html_from nd tags s3) as [q| | | | |] eqn:E; try discriminate. injection H as <-. replace (drop_tags b _) with (drop_tags false q) by (symmetry; apply (drop_end b t q Ht)). change (Ascii.eqb "<" "f") with false. change (Ascii.eqb "<" "P") with false. change (Ascii.eqb "P" "B") with false. change (Ascii.eqb "P" "I") with false. cbn [orb]. now apply (IH s3 L tags q false).
  - destruct (html_from nd tags s3) as [q| | | | |] eqn:E; try discriminate. injection H as <-. change ("\f" +s+ str1 e +s+ q) with (String "\" (String "f" (String e q))).
    change (Ascii.eqb "<" "f") with false. cbn [String.length orb]. apply (One "\"%char _ _ (Ascii.eqb "<" e || scontains "<" s3)). apply (One "f"%char _ _ (Ascii.eqb "<" e || scontains "<" s3)). apply One. intros b'. now apply (IH s3 L tags q b').
Qed.

(** what is shown of a text without '<' *)
Definition shown (q s : string) : Prop :=
  String.length (browser false q) <= String.length (strip s) /\ (has_reference s -> String.length (browser false q) < String.length (strip s))
  /\ (~ has_reference s -> browser false q = strip s).

Lemma shown_references nd s : forall tags r, html_from nd tags s = Ret r -> Forall (fun t => t = "em" \/ t = "strong") tags -> scontains "<" s = false -> shown r s.
Proof.
  revert s. apply (str_ind_len (fun s => forall tags r, html_from nd tags s = Ret r -> Forall (fun t => t = "em" \/ t = "strong") tags -> scontains "<" s = false -> shown r s)).
  assert (D : forall (A : Type) (x : A), @dangling nd A = Ret x -> False) by (intros A x; unfold dangling; destruct nd; discriminate).
  intros [|c s1] IH tags r H T N.
  { injection H as <-. split; [cbn; lia|]. split; [intros (a & n & c & b & _ & E); destruct a; discriminate E|reflexivity]. }
  (* one character that is printed as it is *)
  assert (One : forall d s q tags2, String.length s < String.length (String c s1) -> html_from nd tags2 s = Ret q -> Forall (fun t => t = "em" \/ t = "strong") tags2 ->
    scontains "<" (String d s) = false ->
    String.length (browser false (String d q)) <= S (String.length (strip s)) /\ (has_reference (String d s) -> String.length (browser false (String d q)) < S (String.length (strip s)))
    /\ (~ has_reference (String d s) -> browser false (String d q) = String d (strip s))).
  { intros d s q tags2 Hl E T2 Nd. cbn [scontains] in Nd. apply orb_false_elim in Nd as [Nd Ns]. apply Ascii.eqb_neq in Nd.
    assert (K : shown q s) by (apply (IH s Hl tags2 q); auto). destruct K as (K1 & K2 & K3).
    destruct (Ascii.eqb_spec d "&") as [->|Ha].
    - destruct (browser_amp q) as [(n & c' & q' & Hin & -> & B)|(Nn & B)].
      + destruct (letters_in nd tags2 n (entity_letters n c' Hin) s q' E) as (b & -> & F). rewrite (letters_strip n (entity_letters n c' Hin)), B.
        assert (Hb : scontains "<" b = false) by (rewrite scontains_app in Ns; now apply orb_false_elim in Ns).
        assert (K : shown q' b) by (apply (IH b) with (tags := tags2); auto; rewrite length_app_s in Hl; lia). destruct K as (L1 & _ & _).
        pose proof (entity_length n c' Hin). rewrite length_app_s. cbn [String.length]. split; [lia|]. split; [intros _; lia|]. intros R. exfalso. apply R. exists "", n, c', b. auto.
      + rewrite B. cbn [String.length]. split; [lia|]. split.
        * intros R. apply reference_later in R as [(_ & n & c' & b & Hin & ->)|R]; [|specialize (K2 R); lia].
          destruct (letters_out nd tags2 n (entity_letters n c' Hin) b q E) as (q' & -> & _). destruct (Nn n c' q' Hin eq_refl).
        * intros R. rewrite K3; [reflexivity|]. intros R'. apply R. now apply reference_more.
    - rewrite browser_other by congruence. cbn [String.length]. split; [lia|]. split.
      + intros R. apply reference_later in R as [(E' & _)|R]; [congruence|specialize (K2 R); lia].
      + intros R. rewrite K3; [reflexivity|]. intros R'. apply R. now apply reference_more. }
  (* one more in front *)
  assert (More : forall d x s y, d <> "<"%char -> d <> "&"%char ->
    String.length (browser false x) <= String.length y /\ (has_reference s -> String.length (browser false x) < String.length y) /\ (~ has_reference s -> browser false x = y) ->
    String.length (browser false (String d x)) <= S (String.length y) /\ (has_reference (String d s) -> String.length (browser false (String d x)) < S (String.length y)) /\ (~ has_reference (String d s) -> browser false (String d x) = String d y)).
  { intros d x s y H1 H2 (K1 & K2 & K3). rewrite browser_other by assumption. cbn [String.length]. split; [lia|]. split.
    - intros R. apply reference_later in R as [(E' & _)|R]; [congruence|specialize (K2 R); lia].
    - intros R. rewrite K3; [reflexivity|]. intros R'. apply R. now apply reference_more. }
  unfold shown. cbn [html_from strip] in *.
  destruct (Ascii.eqb_spec c "\") as [->|Hc].
  2:{ destruct (html_from nd tags s1) as [q| | | | |] eqn:E; try discriminate. injection H as <-. apply (One c s1 q tags); auto. }
  destruct s1 as [|d s2]; [destruct (D _ _ H)|]. pose proof N as N0. cbn [scontains] in N. apply orb_false_elim in N as [_ N]. apply orb_false_elim in N as [Nd N2].
  assert (Skip : forall x s, has_reference (String "\" (String x s)) <-> has_reference (String x s)).
  { intros x s. split; [|apply reference_more]. intros R. apply reference_later in R as [(E' & _)|R]; [discriminate E'|exact R]. }
  destruct (Ascii.eqb_spec d "-") as [->|Hd].
  { destruct (html_from nd tags s2) as [q| | | | |] eqn:E; try discriminate. injection H as <-. rewrite (Skip "-"%char s2). apply (One "-"%char s2 q tags); auto. cbn. lia. }
  destruct (Ascii.eqb_spec d "f") as [->|Hf].
  2:{ destruct (html_from nd tags s2) as [q| | | | |] eqn:E; try discriminate. injection H as <-.
      apply (More "\"%char (String d q) (String d s2) (String d (strip s2))); [discriminate|discriminate|]. apply (One d s2 q tags); [cbn; lia|exact E|exact T|]. cbn [scontains]. now rewrite Nd. }
  destruct s2 as [|e s3]; [destruct (D _ _ H)|]. cbn [scontains] in N2. apply orb_false_elim in N2 as [Ne N3].
  assert (L : String.length s3 < String.length (String "\" (String "f" (String e s3)))) by (cbn; lia).
  assert (Skip3 : e <> "&"%char -> (has_reference (String "\" (String "f" (String e s3))) <-> has_reference s3)).
  { intros He. split; [|intros R; now apply reference_more, reference_more, reference_more].
    intros R. apply reference_later in R as [(E' & _)|R]; [discriminate E'|]. apply reference_later in R as [(E' & _)|R]; [discriminate E'|].
    apply reference_later in R as [(E' & _)|R]; [congruence|exact R]. }
  destruct (Ascii.eqb_spec e "I") as [->|HI]; [|destruct (Ascii.eqb_spec e "B") as [->|HB]; [|destruct (Ascii.eqb_spec e "P") as [->|HP]]].
  - destruct (html_from nd ("em" :: tags) s3) as [q| | | | |] eqn:E; try discriminate. injection H as <-. rewrite Skip3 by discriminate.
    change (browser false ("<em>" +s+ q)) with (browser false q). change (Ascii.eqb "I" "B") with false. cbn [orb]. apply (IH s3 L ("em" :: tags) q E); [now constructor; [left|]|exact N3].
  - destruct (html_from nd ("strong" :: tags) s3) as [q| | | | |] eqn:E; try discriminate. injection H as <-. rewrite Skip3 by discriminate.
    change (browser false ("<strong>" +s+ q)) with (browser false q). cbn [orb]. apply (IH s3 L ("strong" :: tags) q E); [now constructor; [right|]|exact N3].
  - destruct tags as [|t tags]; [destruct (D _ _ H)|]. inversion_clear T as [|? ? Ht T'].
    destruct (html_from nd tags s3) as [q| | | | |] eqn:E; try discriminate. injection H as <-. rewrite Skip3 by discriminate.
    match goal with |- context [browser false ?x] => replace (browser false x) with (browser false q) by (destruct Ht as [->| ->]; reflexivity) end. change (Ascii.eqb "P" "B") with false. change (Ascii.eqb "P" "I") with false. cbn [orb]. now apply (IH s3 L tags q).
  - destruct (html_from nd tags s3) as [q| | | | |] eqn:E; try discriminate. injection H as <-.
    assert (G : (Ascii.eqb e "B" || Ascii.eqb e "I" || Ascii.eqb e "P")%bool = false) by (apply Ascii.eqb_neq in HI, HB, HP; now rewrite HI, HB, HP). rewrite ?G.
    apply (More "\"%char (String "f" (String e q)) (String "f" (String e s3)) (String "f" (String e (strip s3)))); [discriminate|discriminate|].
    apply (More "f"%char (String e q) (String e s3) (String e (strip s3))); [discriminate|discriminate|]. apply (One e s3 q tags); [exact L|exact E|exact T|]. cbn [scontains]. now rewrite Ne.
Qed.

Lemma shows_exact nd s r : to_html nd s = Ret r -> (browser_shows r = strip s <-> ~ In "<"%char (chars s) /\ ~ has_reference s).
Proof.
  intros H. assert (C : scontains "<" s = true <-> In "<"%char (chars s)).
  { clear. induction s as [|c s IH]; [split; [discriminate|intros []]|]. change (chars (String c s)) with (c :: chars s). cbn [scontains]. rewrite orb_true_iff, IH. cbn. rewrite Ascii.eqb_eq. intuition. }
  split.
  - intros K. destruct (shown_length nd s [] r false H (Forall_nil _)) as [L1 L2]. unfold browser_shows in K. pose proof (browser_length r false) as L3. rewrite K in L3.
    assert (N : scontains "<" s = false) by (destruct (scontains "<" s); [specialize (L2 eq_refl); lia|reflexivity]).
    split; [intros Hin; apply C in Hin; congruence|]. intros R. destruct (shown_references nd s [] r H (Forall_nil _) N) as (_ & K2 & _). specialize (K2 R). rewrite K in K2. lia.
  - intros [N R]. assert (N' : scontains "<" s = false) by (destruct (scontains "<" s); [exfalso; apply N, C; reflexivity|reflexivity]).
    unfold browser_shows. now apply (shown_references nd s [] r H (Forall_nil _) N').
Qed.
