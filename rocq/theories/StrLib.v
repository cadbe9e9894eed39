(** Lemmas about the string functions of Base.v. *)
From Verif Require Import Base.

Global Arguments Ascii.eqb : simpl never.
Global Arguments String.eqb : simpl never.

Lemma app_nil_r_s (s : string) : s +s+ EmptyString = s.
Proof. induction s as [|c s IH]; cbn; [reflexivity|now rewrite IH]. Qed.

Lemma app_assoc_s (a b c : string) : (a +s+ b) +s+ c = a +s+ (b +s+ c).
Proof. induction a as [|x a IH]; cbn; [reflexivity|now rewrite IH]. Qed.

Lemma length_app_s (a b : string) : String.length (a +s+ b) = String.length a + String.length b.
Proof. induction a as [|x a IH]; cbn; [reflexivity|now rewrite IH]. Qed.

Lemma app_inv_head_s (a b c : string) : a +s+ b = a +s+ c -> b = c.
Proof. induction a as [|x a IH]; cbn; intros H; [exact H|]. injection H; auto. Qed.

Lemma app_eq_nil_s (a b : string) : a +s+ b = EmptyString -> a = EmptyString /\ b = EmptyString.
Proof. destruct a; cbn; intros H; [auto|discriminate]. Qed.

Lemma app_inv_tail_s (a b c : string) : a +s+ c = b +s+ c -> a = b.
Proof.
  revert b; induction a as [|x a IH]; intros [|y b] H; cbn in H.
  - reflexivity.
  - exfalso. apply (f_equal String.length) in H. cbn in H. rewrite length_app_s in H. lia.
  - exfalso. apply (f_equal String.length) in H. cbn in H. rewrite length_app_s in H. lia.
  - injection H as -> H. f_equal. apply IH, H.
Qed.

Lemma stake_app (a b : string) : stake (String.length a) (a +s+ b) = a.
Proof. induction a as [|x a IH]; cbn; [now destruct b|now rewrite IH]. Qed.

Lemma sdrop_app (a b : string) : sdrop (String.length a) (a +s+ b) = b.
Proof. induction a as [|x a IH]; cbn; [now destruct b|exact IH]. Qed.

Lemma stake_sdrop n s : stake n s +s+ sdrop n s = s.
Proof. revert s; induction n as [|n IH]; intros [|c s]; cbn; try reflexivity. now rewrite IH. Qed.

Lemma stake_all n s : String.length s <= n -> stake n s = s.
Proof. revert s; induction n as [|n IH]; intros [|c s] H; cbn in *; try reflexivity; try lia. rewrite IH; [reflexivity|lia]. Qed.

Lemma sdrop_all n s : String.length s <= n -> sdrop n s = EmptyString.
Proof. revert s; induction n as [|n IH]; intros [|c s] H; cbn in *; try reflexivity; try lia. apply IH; lia. Qed.

Lemma length_stake n s : String.length (stake n s) = Nat.min n (String.length s).
Proof. revert s; induction n as [|n IH]; intros [|c s]; cbn; try reflexivity. now rewrite IH. Qed.

Lemma length_sdrop n s : String.length (sdrop n s) = String.length s - n.
Proof. revert s; induction n as [|n IH]; intros [|c s]; cbn; try reflexivity. apply IH. Qed.

Lemma stake_full_eq p s : stake (String.length p) s = p <-> exists r, s = p +s+ r.
Proof.
  split.
  - intros H. exists (sdrop (String.length p) s). rewrite <- H at 1. symmetry. apply stake_sdrop.
  - intros [r ->]. apply stake_app.
Qed.

Lemma prefix_cons c p d s : String.prefix (String c p) (String d s) = Ascii.eqb c d && String.prefix p s.
Proof.
  cbn [String.prefix]. destruct (ascii_dec c d) as [->|Hne]; [now rewrite Ascii.eqb_refl|].
  now rewrite (proj2 (Ascii.eqb_neq c d) Hne).
Qed.

Global Arguments String.prefix : simpl never.

Lemma prefix_nil s : String.prefix EmptyString s = true.
Proof. now destruct s. Qed.

Lemma prefix_iff p s : String.prefix p s = true <-> exists r, s = p +s+ r.
Proof.
  revert s; induction p as [|c p IH]; intros s.
  - split; [intros _; now exists s|intros _; apply prefix_nil].
  - destruct s as [|d s].
    + split; [discriminate|intros [r H]; discriminate].
    + rewrite prefix_cons, andb_true_iff, Ascii.eqb_eq, IH. split.
      * intros [-> [r ->]]. now exists r.
      * intros [r H]. cbn in H. injection H as <- ->. split; [reflexivity|now exists r].
Qed.

Lemma get_app (a b : string) n : String.get (String.length a + n) (a +s+ b) = String.get n b.
Proof. induction a as [|x a IH]; cbn; [reflexivity|exact IH]. Qed.

Lemma get_lt n s : n < String.length s -> exists c, String.get n s = Some c.
Proof.
  revert s; induction n as [|n IH]; intros [|c s] H; cbn in *; try lia.
  - now exists c.
  - apply IH; lia.
Qed.

Lemma is_empty_iff s : is_empty s = true <-> s = EmptyString.
Proof. destruct s; cbn; split; congruence. Qed.

Lemma is_empty_false s : is_empty s = false <-> s <> EmptyString.
Proof. destruct s; cbn; split; congruence. Qed.

Lemma chars_app a b : chars (a +s+ b) = chars a ++ chars b.
Proof. induction a as [|x a IH]; cbn; [reflexivity|unfold chars in *; now rewrite IH]. Qed.

Lemma of_chars_chars s : of_chars (chars s) = s.
Proof. apply string_of_list_ascii_of_string. Qed.

Lemma chars_of_chars l : chars (of_chars l) = l.
Proof. apply list_ascii_of_string_of_list_ascii. Qed.

Lemma chars_inj a b : chars a = chars b -> a = b.
Proof. intros H. rewrite <- (of_chars_chars a), H. apply of_chars_chars. Qed.

Lemma length_chars s : List.length (chars s) = String.length s.
Proof. induction s as [|c s IH]; cbn; [reflexivity|]. unfold chars in IH. now rewrite IH. Qed.

Lemma of_chars_app a b : of_chars (a ++ b) = of_chars a +s+ of_chars b.
Proof. apply chars_inj. rewrite chars_app, !chars_of_chars. reflexivity. Qed.

Lemma sall_forallb f s : sall f s = forallb f (chars s).
Proof. induction s as [|c s IH]; cbn; [reflexivity|]. unfold chars in IH. now rewrite IH. Qed.

Lemma sall_app f a b : sall f (a +s+ b) = sall f a && sall f b.
Proof. rewrite !sall_forallb, chars_app. apply forallb_app. Qed.

Lemma scontains_In c s : scontains c s = true <-> In c (chars s).
Proof.
  induction s as [|d s IH]; cbn; [split; [discriminate|tauto]|].
  rewrite orb_true_iff, IH, Ascii.eqb_eq. unfold chars. intuition congruence.
Qed.

Lemma sfind_None c s : sfind c s = None <-> scontains c s = false.
Proof.
  induction s as [|d s IH]; cbn; [tauto|].
  destruct (Ascii.eqb_spec c d) as [->|Hne]; cbn; [split; discriminate|].
  rewrite <- IH. destruct (sfind c s); cbn; split; congruence.
Qed.

(** [find] gives the first occurrence; erasing there removes exactly that occurrence *)
Lemma sfind_Some c s n : sfind c s = Some n ->
  exists a b, s = a +s+ String c b /\ n = String.length a /\ scontains c a = false /\ erase_at n s = a +s+ b.
Proof.
  revert n; induction s as [|d s IH]; intros n H; cbn in H; [discriminate|].
  destruct (Ascii.eqb_spec c d) as [->|Hne].
  - injection H as <-. exists EmptyString, s. cbn. auto.
  - destruct (sfind c s) as [m|]; cbn in H; [|discriminate]. injection H as <-.
    destruct (IH m eq_refl) as (a & b & -> & -> & Ha & He).
    exists (String d a), b. cbn. rewrite He. repeat split; auto.
    rewrite (proj2 (Ascii.eqb_neq c d)); auto.
Qed.

Lemma scontains_app c a b : scontains c (a +s+ b) = scontains c a || scontains c b.
Proof. induction a as [|d a IH]; cbn; [reflexivity|]. now rewrite IH, orb_assoc. Qed.

Lemma eqb_eq_s a b : String.eqb a b = true <-> a = b.
Proof. apply String.eqb_eq. Qed.

Lemma mem_In s l : mem s l = true <-> In s l.
Proof.
  unfold mem. rewrite existsb_exists. split.
  - intros (x & Hx & He). apply String.eqb_eq in He. now subst.
  - intros H. exists s. split; [exact H|apply String.eqb_refl].
Qed.
