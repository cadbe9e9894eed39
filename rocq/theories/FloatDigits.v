(** Six digits: the nearest decimal, and when nothing is lost. *)
From Coq Require Import QArith Qpower Qabs Lqa Lia.
From Verif Require Import Base FloatNum FloatNumProofs.
Local Open Scope Z_scope.

Lemma ten : 1 < 10. Proof. lia. Qed.
Lemma two : 1 < 2. Proof. lia. Qed.

(** at most six significant digits *)
Definition decimal6 (y : Q) : Prop := exists d k, 0 <= d < 1000000 /\ (y == qz d * 10 ^ k)%Q.

Lemma p10_5 u : (10 ^ (u + 5) == 100000 * 10 ^ u)%Q.
Proof. change (10)%Q with (qz 10). rewrite (pw_add 10 ten). change (qz 10 ^ 5)%Q with (100000)%Q. ring. Qed.
Lemma p10_6 u : (10 ^ (u + 6) == 1000000 * 10 ^ u)%Q.
Proof. change (10)%Q with (qz 10). rewrite (pw_add 10 ten). change (qz 10 ^ 6)%Q with (1000000)%Q. ring. Qed.
Lemma p10_pos u : (0 < 10 ^ u)%Q.
Proof. apply (pw_pos 10 ten). Qed.
Lemma p10_1 u : (10 ^ (u + 1) == 10 * 10 ^ u)%Q.
Proof. change (10)%Q with (qz 10). rewrite (pw_add 10 ten). change (qz 10 ^ 1)%Q with (10)%Q. change (10%Q) with (qz 10). ring. Qed.

Lemma abs_scale x y u : (0 < u)%Q -> (x == y * u)%Q -> (Qabs x == Qabs y * u)%Q.
Proof. intros U E. rewrite E, Qabs_Qmult, (Qabs_pos u) by lra. reflexivity. Qed.

Lemma multiple_closest v u q z : (0 < u)%Q -> (Qabs (v - qz q * u) <= (1 # 2) * u)%Q -> (Qabs (v - qz q * u) <= Qabs (v - qz z * u))%Q.
Proof.
  intros U H. destruct (Z.eq_dec z q) as [->|N]; [apply Qle_refl|]. pose proof (qz_apart z q N) as A.
  assert (B : (u <= Qabs (qz z * u - qz q * u))%Q).
  { rewrite (abs_scale _ (qz z - qz q) u U) by ring. assert (B := Qmult_le_compat_r _ _ u A ltac:(lra)). lra. }
  assert (T : (Qabs (qz z * u - qz q * u) <= Qabs (v - qz z * u) + Qabs (v - qz q * u))%Q).
  { setoid_replace (qz z * u - qz q * u)%Q with ((v - qz q * u) + - (v - qz z * u))%Q by ring. eapply Qle_trans; [apply Qabs_triangle|]. rewrite Qabs_opp. lra. }
  lra.
Qed.

Lemma six_lemma n d : 0 < n -> 0 < d -> let '(q, X) := six n d in
  100000 <= q < 1000000 /\ (forall y, decimal6 y -> Qabs (ratio n d - qz q * 10 ^ (X - 5)) <= Qabs (ratio n d - y))%Q.
Proof.
  intros N D. set (v := ratio n d). pose proof (magnitude_spec 10 ten n d N D) as [M1 M2]. fold v in M1, M2. unfold six. set (X := magnitude 10 n d) in *.
  pose proof (nearest_unit_spec 10 ten n d (X - 5) D) as [U _]. fold v in U. set (q := nearest_unit 10 n d (X - 5)) in *. set (u := X - 5) in *.
  pose proof (p10_pos u) as Pu. change (qz 10) with 10%Q in *. pose proof (pw_opp 10 ten u) as O. change (qz 10) with 10%Q in O.
  replace X with (u + 5) in M1 by (unfold u; lia). replace (X + 1) with (u + 6) in M2 by (unfold u; lia). rewrite p10_5 in M1. rewrite p10_6 in M2.
  assert (E : (Qabs (v - qz q * 10 ^ u) <= (1 # 2) * 10 ^ u)%Q).
  { rewrite (abs_scale _ (v * 10 ^ (- u) - qz q) (10 ^ u) Pu). { apply Qmult_le_compat_r; [exact U|lra]. }
    transitivity (v * (10 ^ (- u) * 10 ^ u) - qz q * 10 ^ u)%Q; [rewrite O; ring|ring]. }
  assert (Q1 : 100000 <= q <= 1000000).
  { apply abs_cases in E as [E1 E2]. split.
    - assert (H : 99999 < q); [|lia]. rewrite Zlt_Qlt. change (qz 99999) with (99999)%Q. apply (Qmult_lt_r _ _ (10 ^ u) Pu). lra.
    - assert (H : q < 1000001); [|lia]. rewrite Zlt_Qlt. change (qz 1000001) with (1000001)%Q. apply (Qmult_lt_r _ _ (10 ^ u) Pu). lra. }
  assert (C : forall y, decimal6 y -> (Qabs (v - qz q * 10 ^ u) <= Qabs (v - y))%Q).
  { intros y (a & k & A & ->). destruct (Z_lt_le_dec k u) as [L|L].
    - assert (Y : (qz a * 10 ^ k <= 100000 * 10 ^ u)%Q).
      { pose proof (pw_le 10 ten (k + 1) u ltac:(lia)) as H. change (qz 10) with 10%Q in H. rewrite p10_1 in H. pose proof (p10_pos k) as Pk.
        assert (A1 : (qz a <= 1000000)%Q) by (change 1000000%Q with (qz 1000000); rewrite <- Zle_Qle; lia).
        assert (A2 : (qz a * 10 ^ k <= 1000000 * 10 ^ k)%Q) by (apply Qmult_le_compat_r; [exact A1|lra]). lra. }
      eapply Qle_trans; [apply (multiple_closest v (10 ^ u) q 100000 Pu E)|]. change (qz 100000) with (100000)%Q. rewrite !Qabs_pos by lra. lra.
    - assert (H : (qz a * 10 ^ k == qz (a * 10 ^ (k - u)) * 10 ^ u)%Q).
      { rewrite inject_Z_mult, (pw_Z 10) by lia. change (qz 10) with 10%Q. rewrite <- Qmult_assoc. change 10%Q with (qz 10). rewrite <- (pw_add 10 ten). replace (k - u + u) with k by lia. reflexivity. }
      setoid_rewrite H. apply multiple_closest; auto. }
  destruct (Z.eqb_spec q 1000000) as [Eq|Nq].
  - split; [lia|]. intros y Y. assert (H : (qz 100000 * 10 ^ (X + 1 - 5) == qz q * 10 ^ u)%Q).
    { replace (X + 1 - 5) with (u + 1) by (unfold u; lia). rewrite p10_1, Eq. change (qz 100000) with (100000)%Q. change (qz 1000000) with (1000000)%Q. ring. }
    setoid_rewrite H. auto.
  - split; [lia|]. exact C.
Qed.

(** two decimals of six digits are apart *)
Lemma decimals_apart a k c j : 100000 <= a < 1000000 -> 100000 <= c < 1000000 ->
  (Qabs (qz a * 10 ^ k - qz c * 10 ^ j) <= qz a * 10 ^ k * (1 # 8000000))%Q -> (qz a * 10 ^ k == qz c * 10 ^ j)%Q.
Proof.
  intros A C H. pose proof (p10_pos k) as Pk. pose proof (p10_pos j) as Pj.
  assert (A1 : (100000 <= qz a)%Q) by (change 100000%Q with (qz 100000); rewrite <- Zle_Qle; lia).
  assert (A2 : (qz a < 1000000)%Q) by (change 1000000%Q with (qz 1000000); rewrite <- Zlt_Qlt; lia).
  assert (C1 : (100000 <= qz c)%Q) by (change 100000%Q with (qz 100000); rewrite <- Zle_Qle; lia).
  assert (C2 : (qz c < 1000000)%Q) by (change 1000000%Q with (qz 1000000); rewrite <- Zlt_Qlt; lia).
  assert (S : forall x y, x <= y -> forall z, (qz z * 10 ^ y == qz (z * 10 ^ (y - x)) * 10 ^ x)%Q).
  { intros x y L z. rewrite inject_Z_mult, (pw_Z 10) by lia. rewrite <- Qmult_assoc. change 10%Q with (qz 10). rewrite <- (pw_add 10 ten). replace (y - x + x) with y by lia. reflexivity. }
  assert (Mul : forall w z x, (0 < 10 ^ x)%Q -> (Qabs (qz w * 10 ^ x - qz z * 10 ^ x) < 10 ^ x)%Q -> w = z).
  { intros w z x Px L. destruct (Z.eq_dec w z) as [E|N]; [exact E|]. exfalso. pose proof (qz_apart w z N) as G.
    rewrite (abs_scale _ (qz w - qz z) (10 ^ x) Px) in L by ring. assert (B := Qmult_le_compat_r _ _ (10 ^ x) G ltac:(lra)). lra. }
  destruct (Z_le_gt_dec k j) as [L|L].
  - rewrite (S k j L c) in *. assert (a = c * 10 ^ (j - k)) as <-; [|reflexivity]. apply (Mul _ _ k Pk). eapply Qle_lt_trans; [exact H|].
    assert (B : (qz a * 10 ^ k < 1000000 * 10 ^ k)%Q) by (apply Qmult_lt_r; assumption). lra.
  - assert (L' : j <= k) by lia. assert (K : (10 * 10 ^ j <= 10 ^ k)%Q).
    { rewrite <- p10_1. change 10%Q with (qz 10). apply (pw_le 10 ten). lia. }
    assert (Bc : (qz c * 10 ^ j < 1000000 * 10 ^ j)%Q) by (apply Qmult_lt_r; assumption).
    set (y := (qz a * 10 ^ k)%Q) in *.
    assert (Y : (y < 1000001 * 10 ^ j)%Q). { apply abs_cases in H as [H1 H2]. lra. }
    assert (Hj : (Qabs (y - qz c * 10 ^ j) < 10 ^ j)%Q) by lra.
    unfold y in *. rewrite (S j k L' a) in *. assert (a * 10 ^ (k - j) = c) as ->; [|reflexivity]. apply (Mul _ _ j Pj Hj).
Qed.

(** a decimal with at most six digits can be scaled to six *)
Lemma decimal_scaled a k : 0 < a < 1000000 -> exists a' k', 100000 <= a' < 1000000 /\ (qz a' * 10 ^ k' == qz a * 10 ^ k)%Q.
Proof.
  intros A. pose proof (width_spec 10 ten a ltac:(lia)) as (W & L & U). set (w := width 10 a) in *.
  assert (w <= 6).
  { destruct (Z_le_gt_dec w 6) as [G|G]; [exact G|]. exfalso. assert (10 ^ 6 <= 10 ^ (w - 1)) by (apply Z.pow_le_mono_r; lia). change (10 ^ 6) with 1000000 in *. lia. }
  exists (a * 10 ^ (6 - w)), (k - (6 - w)). split.
  - assert (E5 : 10 ^ (w - 1) * 10 ^ (6 - w) = 100000) by (rewrite <- Z.pow_add_r by lia; replace (w - 1 + (6 - w)) with 5 by lia; reflexivity).
    assert (E6 : 10 ^ w * 10 ^ (6 - w) = 1000000) by (rewrite <- Z.pow_add_r by lia; replace (w + (6 - w)) with 6 by lia; reflexivity).
    assert (0 < 10 ^ (6 - w)) by (apply Z.pow_pos_nonneg; lia). nia.
  - rewrite inject_Z_mult, (pw_Z 10) by lia. rewrite <- Qmult_assoc. change (10%Q) with (qz 10). rewrite <- (pw_add 10 ten). replace (6 - w + (k - (6 - w))) with k by lia. reflexivity.
Qed.

(** numbers close to a decimal of six digits are printed as this decimal *)
Lemma six_kept n d a k : 0 < n -> 0 < d -> 0 < a < 1000000 -> (Qabs (ratio n d - qz a * 10 ^ k) <= qz a * 10 ^ k * (1 # 16777216))%Q ->
  let '(q, X) := six n d in (qz q * 10 ^ (X - 5) == qz a * 10 ^ k)%Q.
Proof.
  intros N D A H. pose proof (six_lemma n d N D) as S. destruct (six n d) as [q X]. destruct S as [Q C]. destruct (decimal_scaled a k A) as (a' & k' & A' & E).
  pose proof (C (qz a * 10 ^ k)%Q ltac:(exists a, k; split; [lia|reflexivity])) as B. symmetry. rewrite <- E in *. apply decimals_apart; [exact A'|exact Q|].
  set (v := ratio n d) in *. set (y := (qz a' * 10 ^ k')%Q) in *. set (t := (qz q * 10 ^ (X - 5))%Q) in *.
  assert (T : (Qabs (y - t) <= Qabs (v - t) + Qabs (v - y))%Q).
  { setoid_replace (y - t)%Q with ((v - t) + - (v - y))%Q by ring. eapply Qle_trans; [apply Qabs_triangle|]. rewrite Qabs_opp. apply Qle_refl. }
  assert (0 < y)%Q by (unfold y; apply Qmult_lt_0_compat; [change 0%Q with (qz 0); rewrite <- Zlt_Qlt; lia|apply p10_pos]). lra.
Qed.
