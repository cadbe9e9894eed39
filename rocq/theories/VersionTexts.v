(** Proofs about the texts of the version check. *)
From Coq Require Import Lia.
From Verif Require Import Base StrLib VersionCheck VersionSpec HelpSpec HelpOther VersionTextsSpec.

Fixpoint parts (n : nat) (p s : string) : list nat :=
  match s with
  | EmptyString => if String.prefix p s then [n] else []
  | String c s' => (if String.prefix p s then [n] else []) ++ parts (S n) p s'
  end.

Lemma parts_at p s : forall a b n, s = a +s+ p +s+ b -> In (n + String.length a) (parts n p s).
Proof.
  induction s as [|c s IH]; intros a b n E.
  - destruct a; [|discriminate]. destruct p; [|discriminate]. cbn. left. lia.
  - destruct a as [|d a].
    + cbn [parts]. rewrite E. change ("" +s+ p +s+ b) with (p +s+ b). rewrite prefix_app. cbn. left. lia.
    + injection E as -> E. cbn [parts]. apply in_or_app. right. replace (n + String.length (String d a)) with (S n + String.length a) by (cbn; lia). eapply IH. exact E.
Qed.

Lemma address_lemma url : has_part ("Visit " +s+ url +s+ " for updates.") (message_app_update url) <-> url <> "".
Proof.
  split.
  - intros (a & b & E) ->. apply (parts_at _ _ a b 0) in E. vm_compute in E. exact E.
  - intros H. unfold message_app_update. destruct (is_empty url) eqn:Ee; [now destruct url|]. 
    eexists ("[APP VERSION INFO] :: A new version of this application is now available." +s+ nl
  +s+ "[APP VERSION INFO] :: If you don't wish to receive further notifications, set --version-check false." +s+ nl +s+ "[APP VERSION INFO] :: "), (nl +s+ nl).
    rewrite !app_assoc_s. reflexivity.
Qed.

(** the lines of the question that offer something *)
Definition offered : list (chr * string) :=
  [("a"%char, "Always perform version checks for this app (the default).");
   ("n"%char, "Never perform version checks for this app.");
   ("y"%char, "Yes, perform a version check now, and ask again tomorrow.");
   ("s"%char, "Skip the version check now, but ask again tomorrow.")].

Lemma offers_iff c t : offers c t <-> In (c, t) offered.
Proof.
  unfold offers. split.
  - intros H. vm_compute in H. repeat (destruct H as [H|H]; [try discriminate H; inversion H; subst; vm_compute; tauto|]). destruct H.
  - intros [H|[H|[H|[H|[]]]]]; injection H as <- <-; vm_compute; tauto.
Qed.

Lemma part_not p s : parts 0 p s = [] -> ~ has_part p s.
Proof. intros H (a & b & E). apply (parts_at _ _ a b 0) in E. now rewrite H in E. Qed.

Lemma offered_lemma c t : offers c t -> (fst (verdict (str1 c)) = true <-> checks_now t) /\ (snd (verdict (str1 c)) = "ASK" <-> asks_again t).
Proof.
  intros H. apply offers_iff in H.
  assert (N : forall t, (parts 0 "Always" t = [] /\ parts 0 "Yes" t = []) -> ~ checks_now t).
  { intros u [H1 H2] (b & [->| ->]); [apply (part_not _ _ H1)|apply (part_not _ _ H2)]; exists ""; eexists.
    - change ("Always perform version checks" +s+ b) with ("Always" +s+ (" perform version checks" +s+ b)). reflexivity.
    - change ("Yes, perform a version check now" +s+ b) with ("Yes" +s+ (", perform a version check now" +s+ b)). reflexivity. }
  assert (A : forall t, parts 0 " ask again tomorrow." t = [] -> ~ asks_again t).
  { intros u H1 (a & ->). apply (part_not _ _ H1). exists a, "". now rewrite app_nil_r_s. }
  destruct H as [H|[H|[H|[H|[]]]]]; injection H as <- <-; (split; split; intros K); try reflexivity; try discriminate K;
    try (exfalso; revert K; apply N; split; vm_compute; reflexivity); try (exfalso; revert K; apply A; vm_compute; reflexivity).
  - eexists. left. reflexivity.
  - eexists. right. reflexivity.
  - exists "Yes, perform a version check now, and". reflexivity.
  - exists "Skip the version check now, but". reflexivity.
Qed.
