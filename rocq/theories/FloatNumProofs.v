(** Rounding and digits of rational numbers. *)
From Coq Require Import QArith Qpower Qabs Lqa Lia.
From Verif Require Import Base FloatNum.
Local Open Scope Z_scope.

Notation qz := inject_Z.
Definition ratio (n d : Z) : Q := (qz n / qz d)%Q.

(** ** Powers *)
Section Base_b.
Variable b : Z.
Hypothesis Hb : 1 < b.

Lemma b_gt1 : (1 < qz b)%Q.
Proof. change 1%Q with (qz 1). rewrite <- Zlt_Qlt. exact Hb. Qed.
Lemma b_pos : (0 < qz b)%Q.
Proof. pose proof b_gt1. lra. Qed.
Lemma b_not0 : ~ (qz b == 0)%Q.
Proof. pose proof b_gt1. lra. Qed.
Lemma pw_pos e : (0 < qz b ^ e)%Q.
Proof. apply Qpower_0_lt, b_pos. Qed.
Lemma pw_add x y : (qz b ^ (x + y) == qz b ^ x * qz b ^ y)%Q.
Proof. apply Qpower_plus, b_not0. Qed.
Lemma pw_Z e : 0 <= e -> (qz (b ^ e) == qz b ^ e)%Q.
Proof. apply Zpower_Qpower. Qed.
Lemma pw_le x y : x <= y -> (qz b ^ x <= qz b ^ y)%Q.
Proof. intros H. apply Qpower_le_compat_l; [exact H|]. pose proof b_gt1. lra. Qed.
Lemma pw_lt x y : x < y -> (qz b ^ x < qz b ^ y)%Q.
Proof. intros H. apply Qpower_lt_compat_l; [exact H|apply b_gt1]. Qed.
Lemma pw_opp e : (qz b ^ (- e) * qz b ^ e == 1)%Q.
Proof. rewrite <- pw_add. replace (- e + e) with 0 by lia. reflexivity. Qed.

(** x in [b^X, b^(X+1)) *)
Definition scaled (x : Q) (X : Z) : Prop := (qz b ^ X <= x)%Q /\ (x < qz b ^ (X + 1))%Q.

Lemma scaled_unique x X Y : scaled x X -> scaled x Y -> X = Y.
Proof.
  intros [A1 A2] [B1 B2]. assert (forall U V, (qz b ^ U <= x)%Q -> (x < qz b ^ (V + 1))%Q -> U <= V) as H.
  { intros U V P Q. assert (U < V + 1); [|lia]. apply (Qpower_lt_compat_l_inv (qz b)); [lra|apply b_gt1]. }
  pose proof (H _ _ A1 B2). pose proof (H _ _ B1 A2). lia.
Qed.

Lemma places_spec : forall fuel z, 0 < z -> z < 2 ^ Z.of_nat (S fuel) -> 0 < places fuel b z /\ b ^ (places fuel b z - 1) <= z < b ^ places fuel b z.
Proof.
  induction fuel as [|fuel IH]; intros z Pz Lz.
  - cbn [places]. change (2 ^ Z.of_nat 1) with 2 in Lz. split; [lia|]. change (1 - 1) with 0. rewrite Z.pow_0_r, Z.pow_1_r. lia.
  - cbn [places]. destruct (Z.ltb_spec z b) as [L|L].
    + split; [lia|]. change (1 - 1) with 0. rewrite Z.pow_0_r, Z.pow_1_r. lia.
    + assert (P1 : 0 < z / b) by (apply Z.div_str_pos; lia).
      assert (L1 : z / b < 2 ^ Z.of_nat (S fuel)).
      { apply Z.div_lt_upper_bound; [lia|]. rewrite Nat2Z.inj_succ, Z.pow_succ_r in Lz by lia. assert (0 < 2 ^ Z.of_nat (S fuel)) by (apply Z.pow_pos_nonneg; lia). nia. }
      destruct (IH _ P1 L1) as (P & A & B). split; [lia|]. replace (1 + places fuel b (z / b) - 1) with (Z.succ (places fuel b (z / b) - 1)) by lia.
      rewrite Z.pow_succ_r by lia. replace (1 + places fuel b (z / b)) with (Z.succ (places fuel b (z / b))) by lia. rewrite Z.pow_succ_r by lia.
      pose proof (Z.div_mod z b ltac:(lia)) as E. pose proof (Z.mod_pos_bound z b ltac:(lia)). nia.
Qed.

Lemma width_spec z : 0 < z -> 0 < width b z /\ b ^ (width b z - 1) <= z < b ^ width b z.
Proof.
  intros P. apply places_spec; [exact P|]. destruct (Z.log2_spec z P) as [_ L]. pose proof (Z.log2_nonneg z). rewrite Nat2Z.inj_succ, Z2Nat.id by lia. exact L.
Qed.

Lemma ratio_pos n d : 0 < n -> 0 < d -> (0 < ratio n d)%Q.
Proof. intros N D. unfold ratio. apply Qlt_shift_div_l; [change 0%Q with (qz 0); rewrite <- Zlt_Qlt; exact D|]. rewrite Qmult_0_l. change 0%Q with (qz 0). rewrite <- Zlt_Qlt. exact N. Qed.

Lemma qz_pos d : 0 < d -> (0 < qz d)%Q.
Proof. intros D. change 0%Q with (qz 0). rewrite <- Zlt_Qlt. exact D. Qed.

Lemma magnitude_spec n d : 0 < n -> 0 < d -> scaled (ratio n d) (magnitude b n d).
Proof.
  intros N D. pose proof (qz_pos d D) as Dq. unfold magnitude. destruct (Z.leb_spec d n) as [L|L].
  - assert (P : 0 < n / d) by (apply Z.div_str_pos; lia). destruct (width_spec _ P) as (W & A & B). set (w := width b (n / d)) in *.
    pose proof (Z.div_mod n d ltac:(lia)) as E. pose proof (Z.mod_pos_bound n d ltac:(lia)). unfold scaled, ratio. replace (w - 1 + 1) with w by lia. rewrite <- !pw_Z by lia. split.
    + apply Qle_shift_div_l; [exact Dq|]. rewrite <- inject_Z_mult, <- Zle_Qle. nia.
    + apply Qlt_shift_div_r; [exact Dq|]. rewrite <- inject_Z_mult, <- Zlt_Qlt. nia.
  - assert (P : 0 < (d - 1) / n) by (apply Z.div_str_pos; lia). destruct (width_spec _ P) as (W & A & B). set (w := width b ((d - 1) / n)) in *.
    pose proof (Z.div_mod (d - 1) n ltac:(lia)) as E. pose proof (Z.mod_pos_bound (d - 1) n ltac:(lia)). unfold scaled, ratio.
    pose proof (pw_opp w) as O1. pose proof (pw_opp (w - 1)) as O2. replace (- w + 1) with (- (w - 1)) by lia.
    pose proof (pw_pos (- w)) as P1. pose proof (pw_pos (- (w - 1))) as P2.
    assert (A' : (qz b ^ (w - 1) * qz n < qz d)%Q) by (rewrite <- pw_Z by lia; rewrite <- inject_Z_mult, <- Zlt_Qlt; nia).
    assert (B' : (qz d <= qz b ^ w * qz n)%Q) by (rewrite <- pw_Z by lia; rewrite <- inject_Z_mult, <- Zle_Qle; nia).
    split.
    + apply Qle_shift_div_l; [exact Dq|]. apply (Qmult_le_l _ _ (qz b ^ (- w)) P1) in B'. rewrite Qmult_assoc, O1, Qmult_1_l in B'. exact B'.
    + apply Qlt_shift_div_r; [exact Dq|]. apply (Qmult_lt_l _ _ (qz b ^ (- (w - 1))) P2) in A'. rewrite Qmult_assoc, O2, Qmult_1_l in A'. exact A'.
Qed.

(** ** The nearest integer *)

(** [q] is next to [x]; the even one of two *)
Definition next_to (x : Q) (q : Z) : Prop :=
  (Qabs (x - qz q) <= 1 # 2)%Q /\ ((Qabs (x - qz q) == 1 # 2)%Q -> Z.even q = true).

Lemma qz_apart p q : p <> q -> (1 <= Qabs (qz p - qz q))%Q.
Proof.
  intros N. unfold Qminus. rewrite <- inject_Z_opp, <- inject_Z_plus. change 1%Q with (qz 1).
  assert (H : (Qabs (qz (p + - q)) == qz (Z.abs (p + - q)))%Q) by (destruct (p + - q); reflexivity). rewrite H, <- Zle_Qle. lia.
Qed.

Lemma abs_cases x y : (Qabs x <= y)%Q -> (x <= y)%Q /\ (- y <= x)%Q.
Proof. intros H. apply Qabs_Qle_condition in H. tauto. Qed.

Lemma next_to_unique x q q' : next_to x q -> next_to x q' -> q = q'.
Proof.
  assert (W : forall q q', q < q' -> next_to x q -> next_to x q' -> False).
  { intros a c L [A1 A2] [C1 C2]. apply abs_cases in A1 as [A1 A1']. apply abs_cases in C1 as [C1 C1'].
    assert (G : (qz a + 1 <= qz c)%Q) by (change 1%Q with (qz 1); rewrite <- inject_Z_plus, <- Zle_Qle; lia).
    assert (E : (x - qz a == 1 # 2)%Q) by lra. assert (E' : (x - qz c == - (1 # 2))%Q) by lra.
    assert (c = a + 1) as ->.
    { assert (H : (qz c == qz (a + 1))%Q) by (rewrite inject_Z_plus; change (qz 1) with 1%Q; lra). unfold Qeq in H. cbn in H. lia. }
    assert (Ea : Z.even a = true) by (apply A2; rewrite E; reflexivity). assert (Ec : Z.even (a + 1) = true) by (apply C2; rewrite E'; reflexivity).
    rewrite Z.even_add in Ec. rewrite Ea in Ec. discriminate Ec. }
  intros A B. destruct (Z.lt_trichotomy q q') as [L|[->|L]]; [exfalso; eauto|reflexivity|exfalso; eauto].
Qed.

Lemma next_to_eq x y q : (x == y)%Q -> next_to x q -> next_to y q.
Proof. intros E [A B]. split; [rewrite <- E; exact A|intros H; apply B; rewrite E; exact H]. Qed.

Lemma nearest_spec n d : 0 < d -> next_to (ratio n d) (nearest n d).
Proof.
  intros D. pose proof (qz_pos d D) as Dq. unfold nearest. pose proof (Z.div_mod n d ltac:(lia)) as E. pose proof (Z.mod_pos_bound n d ltac:(lia)) as R.
  set (q := n / d) in *. set (r := n mod d) in *.
  assert (V : (ratio n d == qz q + qz r / qz d)%Q).
  { unfold ratio. rewrite E, inject_Z_plus, inject_Z_mult. field. lra. }
  assert (R0 : (0 <= qz r / qz d)%Q) by (apply Qle_shift_div_l; [exact Dq|]; rewrite Qmult_0_l; change 0%Q with (qz 0); rewrite <- Zle_Qle; lia).
  assert (R1 : (qz r / qz d < 1)%Q) by (apply Qlt_shift_div_r; [exact Dq|]; rewrite Qmult_1_l, <- Zlt_Qlt; lia).
  unfold next_to. setoid_rewrite V. destruct (Z.compare_spec (2 * r) d) as [H|H|H].
  - assert (Hh : (qz r / qz d == 1 # 2)%Q).
    { apply (Qmult_inj_r _ _ (qz d)); [lra|]. transitivity (qz r); [field; lra|]. assert (Hq : (qz d == 2 * qz r)%Q) by (rewrite <- H, inject_Z_mult; reflexivity). rewrite Hq. ring. }
    destruct (Z.even q) eqn:Ev.
    + split; [apply Qabs_Qle_condition; lra|auto].
    + split; [rewrite inject_Z_plus; change (qz 1) with 1%Q; apply Qabs_Qle_condition; lra|]. intros _. rewrite Z.even_add, Ev. reflexivity.
  - assert (Hh : (qz r / qz d < 1 # 2)%Q).
    { apply Qlt_shift_div_r; [exact Dq|]. assert (Hq : (2 * qz r < qz d)%Q) by (change 2%Q with (qz 2); rewrite <- inject_Z_mult, <- Zlt_Qlt; lia). lra. }
    split; [apply Qabs_Qle_condition; lra|]. intros Q. rewrite Qabs_pos in Q by lra. lra.
  - assert (Hh : (1 # 2 < qz r / qz d)%Q).
    { apply Qlt_shift_div_l; [exact Dq|]. assert (Hq : (qz d < 2 * qz r)%Q) by (change 2%Q with (qz 2); rewrite <- inject_Z_mult, <- Zlt_Qlt; lia). lra. }
    rewrite inject_Z_plus. change (qz 1) with 1%Q. split; [apply Qabs_Qle_condition; lra|]. intros Q. rewrite Qabs_neg in Q by lra. lra.
Qed.

Lemma nearest_unit_spec n d u : 0 < d -> next_to (ratio n d * qz b ^ (- u)) (nearest_unit b n d u).
Proof.
  intros D. pose proof (qz_pos d D) as Dq. unfold nearest_unit. destruct (Z.leb_spec 0 u) as [L|L].
  - assert (P : 0 < b ^ u) by (apply Z.pow_pos_nonneg; lia). eapply next_to_eq; [|apply nearest_spec; nia]. unfold ratio. rewrite inject_Z_mult, pw_Z by lia.
    pose proof (pw_opp u) as O. pose proof (pw_pos u). apply (Qmult_inj_r _ _ (qz b ^ u)); [lra|]. rewrite <- (Qmult_assoc (qz n / qz d)), O. field. lra.
  - eapply next_to_eq; [|apply nearest_spec; exact D]. unfold ratio. rewrite inject_Z_mult, pw_Z by lia. field. lra.
Qed.
End Base_b.

Lemma ratio_fraction b m e : 1 < b -> let '(n, d) := fraction b m e in 0 < d /\ (ratio n d == qz m * qz b ^ e)%Q /\ (0 < m -> 0 < n).
Proof.
  intros B. unfold fraction. destruct (Z.leb_spec 0 e) as [L|L].
  - split; [lia|]. assert (0 < b ^ e) by (apply Z.pow_pos_nonneg; lia). split; [|nia]. unfold ratio. rewrite inject_Z_mult, pw_Z by lia. field.
  - assert (P : 0 < b ^ (- e)) by (apply Z.pow_pos_nonneg; lia). split; [exact P|]. split; [|auto]. unfold ratio. rewrite pw_Z by lia.
    pose proof (pw_opp b B e) as O. pose proof (pw_pos b B (- e)) as Pq. apply (Qmult_inj_r _ _ (qz b ^ (- e))); [lra|]. rewrite <- Qmult_assoc, (Qmult_comm (qz b ^ e)), O. field. lra.
Qed.
