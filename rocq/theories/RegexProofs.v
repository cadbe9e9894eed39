(** Proofs about Regex.v: derivatives decide the meaning of compiled expressions. *)
From Verif Require Import Base StrLib Regex RegexSpec.

(** ** The meaning of the compiled form *)

Fixpoint means (r : rx) (b e : bool) (w : string) : Prop :=
  match r with
  | RVoid => False
  | REmpty => w = ""
  | RSet s => one_of (in_set s) w
  | RBegin => w = "" /\ b = true
  | REnd => w = "" /\ e = true
  | RSeq r1 r2 => exists u v, w = u +s+ v /\ means r1 b (ends v e) u /\ means r2 (begins b u) e v
  | RAlt r1 r2 => means r1 b e w \/ means r2 b e w
  | RStar r => exists n, pieces (means r) n b e w
  end.

Lemma app_nil_s s : s +s+ "" = s.
Proof. induction s; cbn; congruence. Qed.
Lemma app_empty u v : "" = u +s+ v -> u = "" /\ v = "".
Proof. destruct u; cbn; [auto|discriminate]. Qed.
Lemma begins_empty b : begins b "" = b.
Proof. apply andb_true_r. Qed.
Lemma begins_char b c w : begins b (String c w) = false.
Proof. apply andb_false_r. Qed.
Lemma begins_false w : begins false w = false.
Proof. reflexivity. Qed.
Lemma begins_app b u v : begins b (u +s+ v) = begins (begins b u) v.
Proof. unfold begins. destruct b, u; reflexivity. Qed.
Lemma ends_app u v e : ends (u +s+ v) e = ends u (ends v e).
Proof. unfold ends. destruct u; reflexivity. Qed.
Lemma ends_empty e : ends "" e = e.
Proof. reflexivity. Qed.

(** ** Derivatives *)

Lemma null_means r : forall b e, null b e r = true <-> means r b e "".
Proof.
  induction r; intros b e; cbn [null means].
  - split; [discriminate|intros []].
  - tauto.
  - split; [discriminate|intros (c & H & _); discriminate].
  - tauto.
  - tauto.
  - rewrite andb_true_iff, IHr1, IHr2. split.
    + intros [H1 H2]. exists "", "". rewrite begins_empty, ends_empty. auto.
    + intros (u & v & E & H1 & H2). apply app_empty in E as [-> ->]. rewrite begins_empty in H2. auto.
  - rewrite orb_true_iff, IHr1, IHr2. tauto.
  - split; [|auto]. intros _. exists 0. reflexivity.
Qed.

Lemma cat_means r1 r2 b e w : means (cat r1 r2) b e w <-> means (RSeq r1 r2) b e w.
Proof.
  assert (V1 : means (RSeq RVoid r2) b e w <-> False) by (cbn; split; [intros (u & v & _ & [] & _)|intros []]).
  assert (V2 : means (RSeq r1 RVoid) b e w <-> False) by (cbn; split; [intros (u & v & _ & _ & [])|intros []]).
  assert (E1 : means (RSeq REmpty r2) b e w <-> means r2 b e w).
  { cbn. split; [intros (u & v & -> & -> & H); rewrite begins_empty in H; exact H|intros H; exists "", w; rewrite begins_empty; auto]. }
  assert (E2 : means (RSeq r1 REmpty) b e w <-> means r1 b e w).
  { cbn. split; [intros (u & v & -> & H & ->); rewrite app_nil_s, ends_empty in *; exact H|intros H; exists w, ""; rewrite app_nil_s, ends_empty; auto]. }
  destruct r1, r2; cbn [cat]; (reflexivity || (symmetry; assumption)).
Qed.
Lemma either_means r1 r2 b e w : means (either r1 r2) b e w <-> means r1 b e w \/ means r2 b e w.
Proof. destruct r1, r2; cbn [either means]; tauto. Qed.

Lemma deriv_means r : forall b c e w, means (deriv b c r) false e w <-> means r b e (String c w).
Proof.
  induction r; intros b c e w; cbn [deriv].
  - reflexivity.
  - cbn. split; [intros []|discriminate].
  - unfold means at 2. destruct (in_set s c) eqn:I; cbn.
    + split; [intros ->; exists c; auto|intros (d & E & _); injection E as <- ->; reflexivity].
    + split; [intros []|intros (d & E & H)]. injection E as <- ->. congruence.
  - cbn. split; [intros []|intros [? _]; discriminate].
  - cbn. split; [intros []|intros [? _]; discriminate].
  - rewrite either_means, cat_means. cbn [means]. split.
    + intros [(u & v & -> & H1 & H2)|H].
      * exists (String c u), v. rewrite begins_char. apply IHr1 in H1. auto.
      * destruct (null b false r1) eqn:N; [|destruct H]. apply null_means in N. exists "", (String c w). rewrite begins_empty. apply IHr2 in H. auto.
    + intros (u & v & E & H1 & H2). destruct u as [|d u]; cbn in E.
      * subst v. right. rewrite begins_empty in H2. apply (null_means r1) in H1. change (ends (String c w) e) with false in H1. rewrite H1. apply IHr2. exact H2.
      * injection E as <- ->. left. exists u, v. rewrite begins_char in H2. split; [reflexivity|]. split; [apply IHr1|]; assumption.
  - rewrite either_means, IHr1, IHr2. reflexivity.
  - rewrite cat_means. cbn [means]. split.
    + intros (u & v & -> & H1 & n & H2). apply IHr in H1. exists (S n). exists (String c u), v. rewrite begins_char. auto.
    + intros (n & H). induction n as [|n IH]; [discriminate|]. destruct H as (u & v & E & H1 & H2). destruct u as [|d u]; cbn in E.
      * subst v. rewrite begins_empty in H2. exact (IH H2).
      * injection E as <- ->. rewrite begins_char in H2. exists u, v. split; [reflexivity|]. split; [apply IHr; exact H1|exists n; exact H2].
Qed.

Theorem matched_means r : forall w b, matched b r w = true <-> means r b true w.
Proof.
  intros w. revert r. induction w as [|c w IH]; intros r b; cbn [matched]; [apply null_means|]. rewrite IH. apply deriv_means.
Qed.

Lemma matched_prefix_means r : forall s b, matched_prefix b r s = true <-> exists v x, s = v +s+ x /\ means r b (is_empty x) v.
Proof.
  intros s. revert r. induction s as [|c s IH]; intros r b; cbn [matched_prefix].
  - rewrite orb_false_r, null_means. split; [intros H; exists "", ""; auto|intros (v & x & E & H)]. apply app_empty in E as [-> ->]. exact H.
  - rewrite orb_true_iff, null_means, IH. split.
    + intros [H|(v & x & -> & H)]; [exists "", (String c s); auto|]. apply deriv_means in H. exists (String c v), x. auto.
    + intros (v & x & E & H). destruct v as [|d v]; cbn in E; [subst x; left; exact H|]. injection E as <- ->. right. exists v, x. split; [reflexivity|]. apply deriv_means. exact H.
Qed.
Lemma searched_means r : forall s b, searched b r s = true <-> exists u v x, s = u +s+ v +s+ x /\ means r (begins b u) (is_empty x) v.
Proof.
  induction s as [|c s IH]; intros b; cbn [searched]; rewrite orb_true_iff, matched_prefix_means.
  - split.
    + intros [(v & x & E & H)|H]; [|discriminate]. exists "", v, x. rewrite begins_empty. auto.
    + intros (u & v & x & E & H). left. apply app_empty in E as [-> E]. rewrite begins_empty in H. exists v, x. auto.
  - rewrite IH. split.
    + intros [(v & x & E & H)|(u & v & x & -> & H)]; [exists "", v, x; rewrite begins_empty; auto|]. exists (String c u), v, x. rewrite begins_char. auto.
    + intros (u & v & x & E & H). destruct u as [|d u]; cbn in E; [left; exists v, x; rewrite begins_empty in H; auto|]. injection E as <- ->. right. exists u, v, x. rewrite begins_char in H. auto.
Qed.

(** ** Equal meaning *)

Definition same (r1 r2 : rx) : Prop := forall b e w, means r1 b e w <-> means r2 b e w.
Lemma same_refl r : same r r. Proof. intros b e w. reflexivity. Qed.
Lemma same_sym r1 r2 : same r1 r2 -> same r2 r1. Proof. intros H b e w. symmetry. apply H. Qed.
Lemma same_trans r1 r2 r3 : same r1 r2 -> same r2 r3 -> same r1 r3.
Proof. intros H1 H2 b e w. rewrite (H1 b e w). apply H2. Qed.
Lemma same_seq r1 r2 r1' r2' : same r1 r1' -> same r2 r2' -> same (RSeq r1 r2) (RSeq r1' r2').
Proof. intros H1 H2 b e w. cbn. split; intros (u & v & E & P & Q); exists u, v; (split; [exact E|split; [apply H1|apply H2]; assumption]). Qed.
Lemma same_alt r1 r2 r1' r2' : same r1 r1' -> same r2 r2' -> same (RAlt r1 r2) (RAlt r1' r2').
Proof. intros H1 H2 b e w. cbn. rewrite (H1 b e w), (H2 b e w). reflexivity. Qed.
Lemma pieces_iff (P Q : bool -> bool -> string -> Prop) : (forall b e w, P b e w <-> Q b e w) -> forall n b e w, pieces P n b e w <-> pieces Q n b e w.
Proof.
  intros H n. induction n as [|n IH]; intros b e w; cbn; [reflexivity|].
  split; intros (u & v & E & A & B); exists u, v; (split; [exact E|split; [apply H|apply IH]; assumption]).
Qed.
Lemma same_star r r' : same r r' -> same (RStar r) (RStar r').
Proof. intros H b e w. cbn. split; intros (n & A); exists n; (eapply pieces_iff; [|exact A]); intros; [symmetry|]; apply H. Qed.
Lemma empty_seq r : same (RSeq REmpty r) r.
Proof. intros b e w. rewrite <- cat_means. destruct r; reflexivity. Qed.
Lemma seq_empty r : same (RSeq r REmpty) r.
Proof. intros b e w. rewrite <- cat_means. destruct r; reflexivity. Qed.
Lemma seq_assoc r1 r2 r3 : same (RSeq (RSeq r1 r2) r3) (RSeq r1 (RSeq r2 r3)).
Proof.
  intros b e w. cbn. split.
  - intros (uv & x & -> & (u & v & -> & A & B) & C). exists u, (v +s+ x). rewrite app_assoc_s, ends_app. split; [reflexivity|]. split; [exact A|].
    exists v, x. rewrite <- begins_app. auto.
  - intros (u & vx & -> & A & v & x & -> & B & C). exists (u +s+ v), x. rewrite app_assoc_s. split; [reflexivity|]. rewrite begins_app. split; [|exact C].
    exists u, v. rewrite <- ends_app. auto.
Qed.
Lemma alt_assoc r1 r2 r3 : same (RAlt (RAlt r1 r2) r3) (RAlt r1 (RAlt r2 r3)).
Proof. intros b e w. cbn. tauto. Qed.

(** ** Repetition *)

Lemma repeated_means r n : forall b e w, means (repeated n r) b e w <-> pieces (means r) n b e w.
Proof.
  induction n as [|n IH]; intros b e w; cbn; [reflexivity|].
  split; intros (u & v & E & A & B); exists u, v; (split; [exact E|split; [exact A|apply IH; exact B]]).
Qed.
Lemma up_to_means r n : forall b e w, means (up_to n r) b e w <-> exists k, k <= n /\ pieces (means r) k b e w.
Proof.
  induction n as [|n IH]; intros b e w; cbn.
  - split; [intros ->; exists 0; split; [lia|reflexivity]|intros (k & L & H)]. replace k with 0 in H by lia. exact H.
  - split.
    + intros [-> |(u & v & -> & A & B)]; [exists 0; split; [lia|reflexivity]|]. apply IH in B as (k & L & B). exists (S k). split; [lia|]. exists u, v. auto.
    + intros ([|k] & L & H); [left; exact H|]. destruct H as (u & v & -> & A & B). right. exists u, v. split; [reflexivity|]. split; [exact A|]. apply IH. exists k. split; [lia|exact B].
Qed.
Lemma pieces_add (P : bool -> bool -> string -> Prop) n : forall m b e w,
  pieces P (n + m) b e w <-> exists u v, w = u +s+ v /\ pieces P n b (ends v e) u /\ pieces P m (begins b u) e v.
Proof.
  induction n as [|n IH]; intros m b e w; cbn.
  - split; [intros H; exists "", w; rewrite begins_empty; auto|intros (u & v & -> & -> & H)]. rewrite begins_empty in H. exact H.
  - split.
    + intros (u & v & -> & A & B). apply IH in B as (x & y & -> & B & C). exists (u +s+ x), y. rewrite app_assoc_s, begins_app. split; [reflexivity|]. split; [|exact C].
      exists u, x. rewrite <- ends_app. auto.
    + intros (ux & y & -> & (u & x & -> & A & B) & C). exists u, (x +s+ y). rewrite app_assoc_s, ends_app. split; [reflexivity|]. split; [exact A|].
      apply IH. exists x, y. rewrite <- begins_app. auto.
Qed.
Lemma seq_pieces r (P : nat -> Prop) r2 n b e w :
  (forall b e w, means r2 b e w <-> exists k, P k /\ pieces (means r) k b e w) ->
  means (RSeq (repeated n r) r2) b e w <-> exists k, P k /\ pieces (means r) (n + k) b e w.
Proof.
  intros H. cbn. split.
  - intros (u & v & -> & A & B). apply repeated_means in A. apply H in B as (k & L & B). exists k. split; [exact L|]. apply pieces_add. exists u, v. auto.
  - intros (k & L & A). apply pieces_add in A as (u & v & -> & A & B). exists u, v. split; [reflexivity|]. split; [apply repeated_means; exact A|apply H; exists k; auto].
Qed.
Lemma exactly_means r n b e w : means (RSeq (repeated n r) REmpty) b e w <-> exists k, allowed (Exactly n) k /\ pieces (means r) k b e w.
Proof.
  rewrite (seq_pieces r (fun k => k = 0)).
  - cbn. split; [intros (k & -> & A); exists (n + 0); split; [lia|exact A]|intros (k & -> & A); exists 0; rewrite Nat.add_0_r; auto].
  - intros. cbn. split; [intros ->; exists 0; split; reflexivity|intros (k & -> & A); exact A].
Qed.
Lemma at_least_means r n b e w : means (RSeq (repeated n r) (RStar r)) b e w <-> exists k, allowed (AtLeast n) k /\ pieces (means r) k b e w.
Proof.
  rewrite (seq_pieces r (fun _ => True)).
  - cbn. split; [intros (k & _ & A); exists (n + k); split; [lia|exact A]|intros (k & L & A); exists (k - n)]. split; [exact Logic.I|]. replace (n + (k - n)) with k by lia. exact A.
  - intros. cbn. split; [intros (k & A); exists k; auto|intros (k & _ & A); exists k; exact A].
Qed.
Lemma between_means r n m b e w : n <= m -> means (RSeq (repeated n r) (up_to (m - n) r)) b e w <-> exists k, allowed (Between n m) k /\ pieces (means r) k b e w.
Proof.
  intros L. rewrite (seq_pieces r (fun k => k <= m - n)).
  - cbn. split; [intros (k & ? & A); exists (n + k); split; [lia|exact A]|intros (k & ? & A); exists (k - n)]. split; [lia|]. replace (n + (k - n)) with k by lia. exact A.
  - intros. apply up_to_means.
Qed.
Lemma any_means r b e w : means (RStar r) b e w <-> exists k, allowed Any k /\ pieces (means r) k b e w.
Proof. cbn. split; [intros (k & A); exists k; auto|intros (k & _ & A); exists k; exact A]. Qed.
Lemma many_means r b e w : means (RSeq r (RStar r)) b e w <-> exists k, allowed Many k /\ pieces (means r) k b e w.
Proof.
  cbn. split.
  - intros (u & v & -> & A & n & B). exists (S n). split; [lia|]. exists u, v. auto.
  - intros ([|k] & L & A); [lia|]. destruct A as (u & v & -> & A & B). exists u, v. split; [reflexivity|]. split; [exact A|exists k; exact B].
Qed.
Lemma maybe_means r b e w : means (RAlt r REmpty) b e w <-> exists k, allowed Maybe k /\ pieces (means r) k b e w.
Proof.
  cbn. split.
  - intros [A| ->]; [exists 1|exists 0; split; [lia|reflexivity]]. split; [lia|]. exists w, "". rewrite app_nil_s, ends_empty. split; [reflexivity|split; [exact A|reflexivity]].
  - intros ([|[|k]] & L & A); [right; exact A|left|lia]. destruct A as (u & v & -> & A & B). cbn in B. subst v. rewrite app_nil_s, ends_empty in *. exact A.
Qed.
