(** Rounding of exact numbers. *)
From Coq Require Import QArith Qpower Qabs Lqa Lia.
From Verif Require Import Base StrLib FloatNum Values Charconv Ieee FloatNumProofs FloatDigits FloatRoundSpec.
Local Open Scope Z_scope.

Notation p2 e := (2 ^ e)%Q.
Lemma p2_pos e : (0 < p2 e)%Q. Proof. exact (pw_pos 2 two e). Qed.
Lemma p2_add x y : (p2 (x + y) == p2 x * p2 y)%Q. Proof. exact (pw_add 2 two x y). Qed.
Lemma p2_Z e : 0 <= e -> (qz (2 ^ e) == p2 e)%Q. Proof. exact (pw_Z 2 e). Qed.
Lemma p2_le x y : x <= y -> (p2 x <= p2 y)%Q. Proof. exact (pw_le 2 two x y). Qed.
Lemma p2_lt x y : x < y -> (p2 x < p2 y)%Q. Proof. exact (pw_lt 2 two x y). Qed.
Lemma p2_opp e : (p2 (- e) * p2 e == 1)%Q. Proof. exact (pw_opp 2 two e). Qed.
Lemma p2_inv_lt x y : (p2 x < p2 y)%Q -> x < y.
Proof. intros H. apply (Qpower_lt_compat_l_inv 2); [exact H|reflexivity]. Qed.
Lemma p2_inv_le x y : (p2 x <= p2 y)%Q -> x <= y.
Proof. intros H. destruct (Z.le_gt_cases x y) as [L|L]; [exact L|]. apply p2_lt in L. lra. Qed.

Lemma abs_mul_pos x u : (Qabs x * p2 u == Qabs (x * p2 u))%Q.
Proof. rewrite Qabs_Qmult, (Qabs_pos (p2 u)); [reflexivity|]. pose proof (p2_pos u). lra. Qed.

(** in units of 2^u *)
Lemma unit_abs x q u : (Qabs (x - qz q * p2 u) == Qabs (x * p2 (- u) - qz q) * p2 u)%Q.
Proof. rewrite abs_mul_pos. apply Qabs_wd. pose proof (p2_opp u) as O. transitivity (x * (p2 (- u) * p2 u) - qz q * p2 u)%Q; [rewrite O; ring|ring]. Qed.

Lemma next_to_best x q q' : next_to x q -> (Qabs (x - qz q) <= Qabs (x - qz q'))%Q.
Proof.
  intros [H _]. destruct (Z.eq_dec q q') as [->|N]; [apply Qle_refl|]. pose proof (qz_apart q q' N) as A. pose proof (Qabs_triangle (qz q - x) (x - qz q')) as T.
  assert (E : (qz q - x + (x - qz q') == qz q - qz q')%Q) by ring. rewrite E in T. rewrite (Qabs_Qminus (qz q) x) in T. lra.
Qed.

Lemma next_to_tie x q q' : next_to x q -> q <> q' -> (Qabs (x - qz q) == Qabs (x - qz q'))%Q -> Z.even q = true.
Proof.
  intros [H E] N T. apply E. pose proof (qz_apart q q' N) as A. pose proof (Qabs_triangle (qz q - x) (x - qz q')) as Tr.
  assert (E' : (qz q - x + (x - qz q') == qz q - qz q')%Q) by ring. rewrite E' in Tr. rewrite (Qabs_Qminus (qz q) x) in Tr. lra.
Qed.

Lemma next_to_ge x q z : next_to x q -> (qz z <= x)%Q -> z <= q.
Proof.
  intros [H _] L. apply abs_cases in H as [H1 H2]. destruct (Z.le_gt_cases z q) as [|G]; [assumption|]. assert (q + 1 <= z) as G' by lia. rewrite Zle_Qle, inject_Z_plus in G'. change (qz 1) with 1%Q in G'. lra.
Qed.
Lemma next_to_le x q z : next_to x q -> (x <= qz z)%Q -> q <= z.
Proof.
  intros [H _] L. apply abs_cases in H as [H1 H2]. destruct (Z.le_gt_cases q z) as [|G]; [assumption|]. assert (z + 1 <= q) as G' by lia. rewrite Zle_Qle, inject_Z_plus in G'. change (qz 1) with 1%Q in G'. lra.
Qed.

Section rounding.
Variables (p emin emax : Z).
Hypothesis Hp : 2 <= p.
Hypothesis Hr : emin + p < emax.
Variables (n d : Z).
Hypothesis Hn : 0 < n.
Hypothesis Hd : 0 < d.
Let x := ratio n d.
Let X := magnitude 2 n d.
Let u := Z.max emin (X - p + 1).
Let q := nearest_unit 2 n d u.

Lemma rb_eq : round_bits p emin n d = (q, u). Proof. reflexivity. Qed.
Lemma rb_x : (0 < x)%Q. Proof. exact (ratio_pos n d Hn Hd). Qed.
Lemma rb_X : (p2 X <= x)%Q /\ (x < p2 (X + 1))%Q. Proof. exact (magnitude_spec 2 two n d Hn Hd). Qed.
Lemma rb_q : next_to (x * p2 (- u)) q. Proof. exact (nearest_unit_spec 2 two n d u Hd). Qed.

Lemma unit_le a b w : (a * p2 w <= b)%Q <-> (a <= b * p2 (- w))%Q.
Proof.
  pose proof (p2_opp w) as O. pose proof (p2_pos w). pose proof (p2_pos (- w)). split; intros H1.
  - apply (Qmult_le_r _ _ (p2 w)); [assumption|]. rewrite <- Qmult_assoc, O. lra.
  - apply (Qmult_le_r _ _ (p2 (- w))); [assumption|]. rewrite <- Qmult_assoc, (Qmult_comm (p2 w)), O. lra.
Qed.
Lemma unit_ge a b w : (b <= a * p2 w)%Q <-> (b * p2 (- w) <= a)%Q.
Proof.
  pose proof (p2_opp w) as O. pose proof (p2_pos w). pose proof (p2_pos (- w)). split; intros H1.
  - apply (Qmult_le_r _ _ (p2 w)); [assumption|]. rewrite <- Qmult_assoc, O. lra.
  - apply (Qmult_le_r _ _ (p2 (- w))); [assumption|]. rewrite <- Qmult_assoc, (Qmult_comm (p2 w)), O. lra.
Qed.

Lemma rb_scale e : (p2 e <= x)%Q <-> (p2 (e - u) <= x * p2 (- u))%Q.
Proof. rewrite <- unit_le, <- p2_add. replace (e - u + u) with e by lia. reflexivity. Qed.
Lemma rb_scale' e : (x <= p2 e)%Q <-> (x * p2 (- u) <= p2 (e - u))%Q.
Proof. rewrite <- unit_ge, <- p2_add. replace (e - u + u) with e by lia. reflexivity. Qed.

Lemma rb_upper : q <= 2 ^ p.
Proof.
  apply (next_to_le _ _ _ rb_q). rewrite p2_Z by lia. destruct rb_X as [_ H]. assert (H' : (x <= p2 (u + p))%Q).
  { apply Qlt_le_weak. eapply Qlt_le_trans; [exact H|]. apply p2_le. unfold u. lia. }
  apply rb_scale' in H'. replace (u + p - u) with p in H' by lia. exact H'.
Qed.
Lemma rb_lower : emin < u -> 2 ^ (p - 1) <= q.
Proof.
  intros U. apply (next_to_ge _ _ _ rb_q). rewrite p2_Z by lia. destruct rb_X as [H _]. apply rb_scale in H. replace (X - u) with (p - 1) in H by (unfold u in *; lia). exact H.
Qed.
Lemma rb_nonneg : 0 <= q.
Proof.
  apply (next_to_ge _ _ _ rb_q). pose proof rb_x. pose proof (p2_pos (- u)). change (qz 0) with 0%Q. apply Qlt_le_weak, Qmult_lt_0_compat; assumption.
Qed.

Lemma rb_form : exists m e, 0 <= m < 2 ^ p /\ emin <= e /\ (qz q * p2 u == qz m * p2 e)%Q /\ (2 ^ (p - 1) <= m \/ e = emin) /\ (Z.even q = true -> Z.even m = true).
Proof.
  pose proof rb_upper as U. pose proof rb_nonneg as N. destruct (Z.eq_dec q (2 ^ p)) as [E|E].
  - exists (2 ^ (p - 1)), (u + 1). split; [split; [apply Z.pow_nonneg; lia|apply Z.pow_lt_mono_r; lia]|]. split; [unfold u; lia|]. split; [|split; [left; lia|]].
    + rewrite E, !p2_Z by lia. rewrite <- !p2_add. replace (p - 1 + (u + 1)) with (p + u) by lia. reflexivity.
    + intros _. replace (p - 1) with (1 + (p - 2)) by lia. rewrite Z.pow_add_r, Z.even_mul by lia. reflexivity.
  - exists q, u. split; [lia|]. split; [unfold u; lia|]. split; [reflexivity|]. split; [|auto]. destruct (Z.eq_dec u emin) as [->|Ne]; [auto|]. left. apply rb_lower. unfold u in *. lia.
Qed.

(** a number of the type in other units *)
Lemma coarse m e : u <= e -> exists z, (qz m * p2 e == qz z * p2 u)%Q.
Proof. intros L. exists (m * 2 ^ (e - u)). rewrite inject_Z_mult, p2_Z by lia. rewrite <- Qmult_assoc, <- p2_add. replace (e - u + u) with e by lia. reflexivity. Qed.

Lemma below m e : 0 <= m < 2 ^ p -> emin <= e -> e < u -> (qz m * p2 e < p2 X)%Q /\ exists z, (p2 X == qz z * p2 u)%Q.
Proof.
  intros M E L. assert (EX : X = u + (p - 1)) by (unfold u in *; lia). split.
  - apply Qlt_le_trans with (qz (2 ^ p) * p2 e)%Q; [apply Qmult_lt_r; [apply p2_pos|]; rewrite <- Zlt_Qlt; lia|]. rewrite p2_Z, <- p2_add by lia. apply p2_le. lia.
  - exists (2 ^ (p - 1)). rewrite p2_Z, <- p2_add by lia. rewrite EX. replace (u + (p - 1)) with (p - 1 + u) by lia. reflexivity.
Qed.

Lemma unit_best z : (Qabs (x - qz q * p2 u) <= Qabs (x - qz z * p2 u))%Q.
Proof. rewrite !unit_abs. apply Qmult_le_compat_r; [apply next_to_best, rb_q|]. pose proof (p2_pos u). lra. Qed.

Lemma rb_best m e : 0 <= m < 2 ^ p -> emin <= e -> (Qabs (x - qz q * p2 u) <= Qabs (x - qz m * p2 e))%Q.
Proof.
  intros M E. destruct (Z.le_gt_cases u e) as [L|L].
  - destruct (coarse m e L) as [z ->]. apply unit_best.
  - destruct (below m e M E L) as [B [z Z]]. eapply Qle_trans; [apply (unit_best z)|]. rewrite <- Z. destruct rb_X as [X1 _]. rewrite !Qabs_pos by lra. lra.
Qed.

Lemma rb_tie m e : 0 <= m < 2 ^ p -> emin <= e -> ~ (qz m * p2 e == qz q * p2 u)%Q -> (Qabs (x - qz q * p2 u) == Qabs (x - qz m * p2 e))%Q -> Z.even q = true.
Proof.
  intros M E Ne T. destruct (Z.le_gt_cases u e) as [L|L].
  - destruct (coarse m e L) as [z Z]. rewrite Z in Ne, T. rewrite !unit_abs in T. pose proof (p2_pos u). apply Qmult_inj_r in T; [|lra].
    apply (next_to_tie _ q z rb_q); [|exact T]. intros ->. apply Ne. reflexivity.
  - exfalso. destruct (below m e M E L) as [B [z Z]]. pose proof (unit_best z) as U. rewrite <- Z in U. destruct rb_X as [X1 _]. rewrite T in U. rewrite !Qabs_pos in U by lra. lra.
Qed.

(** at most half a unit in the last place *)
Lemma rb_accurate : (p2 (emin + p - 1) <= x)%Q -> (Qabs (x - qz q * p2 u) <= x * p2 (- p))%Q.
Proof.
  intros H. destruct rb_X as [X1 X2]. assert (L : emin + p - 1 < X + 1) by (apply p2_inv_lt; lra). assert (U : u = X + (- p + 1)) by (unfold u; lia).
  rewrite unit_abs. destruct rb_q as [A _]. apply Qle_trans with ((1 # 2) * p2 u)%Q; [apply Qmult_le_compat_r; [exact A|pose proof (p2_pos u); lra]|].
  rewrite U, p2_add, p2_add. change (p2 1) with 2%Q. apply Qle_trans with (p2 X * p2 (- p))%Q; [apply Qle_lteq; right; ring|]. apply Qmult_le_compat_r; [exact X1|]. pose proof (p2_pos (- p)). lra.
Qed.

Lemma rb_zero : q = 0 <-> (x <= p2 (emin - 1))%Q.
Proof.
  pose proof rb_q as B. split; intros H.
  - rewrite H in B. destruct B as [B _]. apply abs_cases in B as [B _]. change (qz 0) with 0%Q in B. destruct (Z.le_gt_cases u emin) as [L|L].
    + assert (E : u = emin) by (unfold u in *; lia). rewrite <- E. apply rb_scale'. replace (u - 1 - u) with (-1) by lia. change (p2 (-1)) with (1 # 2)%Q. lra.
    + pose proof (rb_lower L) as G. assert (0 < 2 ^ (p - 1)) by (apply Z.pow_pos_nonneg; lia). lia.
  - destruct rb_X as [X1 _]. assert (X <= emin - 1) by (apply p2_inv_le; lra). assert (U : u = emin) by (unfold u; lia).
    apply (next_to_unique (x * p2 (- u))); [exact B|]. assert (Hx : (x * p2 (- u) <= 1 # 2)%Q).
    { rewrite <- U in H. apply rb_scale' in H. replace (u - 1 - u) with (-1) in H by lia. exact H. }
    split; [|reflexivity]. change (qz 0) with 0%Q. pose proof rb_x. pose proof (p2_pos (- u)). pose proof (Qmult_lt_0_compat _ _ H1 H2). apply Qabs_Qle_condition. lra.
Qed.

Lemma rb_inf : (p2 emax <= qz q * p2 u)%Q <-> (p2 emax - p2 (emax - p - 1) <= x)%Q.
Proof.
  pose proof rb_q as B. destruct rb_X as [X1 X2]. destruct (Z.lt_trichotomy X (emax - 1)) as [L|[E|L]].
  - assert (Hx : (x <= p2 (emax - 1))%Q) by (apply Qlt_le_weak; eapply Qlt_le_trans; [exact X2|apply p2_le; lia]).
    assert (Hq : (qz q * p2 u <= p2 (emax - 1))%Q).
    { apply rb_scale' in Hx. assert (U : u <= emax - 1) by (unfold u; lia). rewrite <- (p2_Z (emax - 1 - u)) in Hx by lia. apply (next_to_le _ _ _ B) in Hx.
      rewrite Zle_Qle, p2_Z in Hx by lia. apply Qle_trans with (p2 (emax - 1 - u) * p2 u)%Q; [apply Qmult_le_compat_r; [exact Hx|pose proof (p2_pos u); lra]|].
      rewrite <- p2_add. replace (emax - 1 - u + u) with (emax - 1) by lia. apply Qle_refl. }
    assert (T : (p2 emax == 2 * p2 (emax - 1))%Q) by (change 2%Q with (p2 1) at 2; rewrite <- p2_add; replace (1 + (emax - 1)) with emax by lia; reflexivity).
    pose proof (p2_pos (emax - 1)). assert (G : (p2 (emax - p - 1) < p2 (emax - 1))%Q) by (apply p2_lt; lia). split; intros H1; [lra|]. exfalso. clear Hq.
    assert (Hx' : (x < p2 (emax - 1))%Q). { eapply Qlt_le_trans; [exact X2|apply p2_le; lia]. } lra.
  - assert (U : u = emax - p) by (unfold u; lia). assert (Tm : (p2 emax == p2 p * p2 u)%Q) by (rewrite <- p2_add, U; replace (p + (emax - p)) with emax by lia; reflexivity).
    assert (Th : (p2 (emax - p - 1) == (1 # 2) * p2 u)%Q) by (rewrite U; replace (emax - p - 1) with (-1 + (emax - p)) by lia; rewrite p2_add; reflexivity).
    assert (Ed : (p2 emax - p2 (emax - p - 1) == (p2 p - (1 # 2)) * p2 u)%Q) by (rewrite Tm, Th; ring).
    rewrite Ed, unit_le, Tm. split; intros H.
    + apply Qmult_le_r in H; [|apply p2_pos]. destruct B as [B _]. apply abs_cases in B as [_ B]. lra.
    + assert (Eq : q = 2 ^ p); [|rewrite Eq, p2_Z by lia; apply Qle_refl]. apply (next_to_unique (x * p2 (- u))); [exact B|]. split.
      * rewrite p2_Z by lia. apply Qabs_Qle_condition. assert (Hx : (x <= p2 (p + u))%Q) by (apply Qlt_le_weak; eapply Qlt_le_trans; [exact X2|apply p2_le; lia]). apply rb_scale' in Hx. replace (p + u - u) with p in Hx by lia. lra.
      * intros _. replace p with (1 + (p - 1)) by lia. rewrite Z.pow_add_r, Z.even_mul by lia. reflexivity.
  - assert (U : u = X - p + 1) by (unfold u; lia). assert (Hx : (p2 emax <= x)%Q) by (eapply Qle_trans; [|exact X1]; apply p2_le; lia). pose proof (p2_pos (emax - p - 1)). split; intros _; [lra|].
    pose proof (rb_lower ltac:(lia)) as G. rewrite Zle_Qle, p2_Z in G by lia. apply Qle_trans with (p2 (p - 1) * p2 u)%Q; [rewrite <- p2_add; apply p2_le; lia|]. apply Qmult_le_compat_r; [exact G|]. pose proof (p2_pos u). lra.
Qed.
End rounding.

Lemma round_bits_value p emin n d n' d' : 0 < n -> 0 < d -> 0 < n' -> 0 < d' -> (ratio n d == ratio n' d')%Q -> round_bits p emin n d = round_bits p emin n' d'.
Proof.
  intros N D N' D' E. unfold round_bits. assert (EX : magnitude 2 n d = magnitude 2 n' d').
  { apply (scaled_unique 2 two (ratio n d)); [apply (magnitude_spec 2 two); assumption|]. pose proof (magnitude_spec 2 two n' d' N' D') as [A B]. split; rewrite E; assumption. }
  rewrite EX. set (u := Z.max _ _). f_equal. apply (next_to_unique (ratio n d * qz 2 ^ (- u))); [apply (nearest_unit_spec 2 two); exact D|].
  eapply next_to_eq; [|apply (nearest_unit_spec 2 two); exact D']. now rewrite E.
Qed.

Lemma odd_part_value m : forall e m' e', odd_part m e = (m', e') -> (qz (Zpos m) * p2 e == qz (Zpos m') * p2 e')%Q.
Proof.
  induction m as [m IH|m IH|]; intros e m' e' H; cbn [odd_part] in H; try (injection H as <- <-; reflexivity). rewrite <- (IH _ _ _ H). rewrite p2_add. change (p2 1) with 2%Q.
  change (Zpos m~0) with (2 * Zpos m). rewrite inject_Z_mult. change (qz 2) with 2%Q. ring.
Qed.

Lemma abs_fin neg m e : (abs_value (FFin neg m e) == qz (Zpos m) * p2 e)%Q.
Proof.
  unfold abs_value, fvalue. cbn [numerator]. rewrite Qabs_Qmult, (Qabs_pos (p2 e)) by (pose proof (p2_pos e); lra). destruct neg; reflexivity.
Qed.
Lemma fin_spec neg m e : exists m' e', fin neg m e = FFin neg m' e' /\ (qz (Zpos m') * p2 e' == qz (Zpos m) * p2 e)%Q.
Proof. unfold fin. destruct (odd_part m e) as [m' e'] eqn:E. exists m', e'. split; [reflexivity|]. symmetry. now apply odd_part_value. Qed.

Lemma format_ok k : precision k = (bits k, top k) /\ 3 - top k - bits k = least k /\ 24 <= bits k /\ least k + bits k < top k.
Proof. destruct k; vm_compute; intuition (try discriminate; reflexivity). Qed.

Definition sign_of (x : fnum) : option bool := match x with FZero s | FInf s | FFin s _ _ => Some s | FNan => None end.

Lemma ieee_cases k neg n d : 0 < n -> 0 < d ->
  let x := ratio n d in
  (too_large k x /\ ieee k neg n d = FInf neg) \/
  (~ too_large k x /\ too_small k x /\ ieee k neg n d = FZero neg) \/
  (~ too_large k x /\ ~ too_small k x /\ exists m e, ieee k neg n d = FFin neg m e /\ rounds_to k x (qz (Zpos m) * p2 e) /\ (normal k x -> (Qabs (x - qz (Zpos m) * p2 e) <= x * p2 (- bits k))%Q)).
Proof.
  intros N D x. destruct (format_ok k) as (P & L & B & R). unfold ieee. rewrite P, L. set (p := bits k) in *. set (emin := least k) in *. set (emax := top k) in *. assert (Hp : 2 <= p) by lia.
  pose proof (rb_zero p emin Hp n d N D) as Z0. pose proof (rb_inf p emin emax Hp R n d N D) as Z1. pose proof (rb_nonneg p emin n d N D) as Z2.
  pose proof (rb_form p emin Hp n d N D) as Z3. pose proof (rb_best p emin Hp n d N D) as Z4. pose proof (rb_tie p emin Hp n d N D) as Z5. pose proof (rb_accurate p emin n d N D) as Z6.
  rewrite (rb_eq p emin n d). fold x in Z0, Z1, Z4, Z5, Z6. set (u := Z.max emin (magnitude 2 n d - p + 1)) in *. set (q := nearest_unit 2 n d u) in *. clearbody q u.
  assert (TS : q = 0 <-> too_small k x) by exact Z0. assert (TL : (p2 emax <= qz q * p2 u)%Q <-> too_large k x) by exact Z1. clear Z0 Z1.
  destruct q as [|m|m]; [|..].
  - right. left. split; [|split; [now apply TS|reflexivity]]. rewrite <- TL. change (qz 0) with 0%Q. pose proof (p2_pos emax). lra.
  - assert (I : (emax <? u) || (2 ^ (emax - u) <=? Zpos m) = true <-> (p2 emax <= qz (Zpos m) * p2 u)%Q).
    { rewrite orb_true_iff, Z.ltb_lt, Z.leb_le. destruct (Z.le_gt_cases u emax) as [U|U].
      - assert (E : (p2 emax == qz (2 ^ (emax - u)) * p2 u)%Q) by (rewrite p2_Z, <- p2_add by lia; replace (emax - u + u) with emax by lia; reflexivity). rewrite E, Zle_Qle.
        rewrite (Qmult_le_r _ _ (p2 u)) by apply p2_pos. split; [intros [H|H]; [lia|exact H]|auto].
      - split; [intros _|auto]. apply Qle_trans with (1 * p2 u)%Q; [rewrite Qmult_1_l; apply p2_le; lia|]. apply Qmult_le_compat_r; [change 1%Q with (qz 1); rewrite <- Zle_Qle; lia|pose proof (p2_pos u); lra]. }
    destruct ((emax <? u) || (2 ^ (emax - u) <=? Zpos m)).
    + left. split; [|reflexivity]. rewrite <- TL. now apply I.
    + right. right. split; [rewrite <- TL; intros H; apply I in H; discriminate H|]. split; [rewrite <- TS; discriminate|].
      destruct (fin_spec neg m u) as (m' & e' & -> & V). exists m', e'. split; [reflexivity|]. split; [|intros H; setoid_rewrite V; apply Z6; exact H].
      destruct Z3 as (a & b & A & Bb & E & W & Ev). split; [|split].
      * exists a, b. split; [exact A|]. split; [exact Bb|]. now rewrite V.
      * intros y (c & f & C & F & Y). setoid_rewrite Y. setoid_rewrite V. apply Z4; assumption.
      * intros y (c & f & C & F & Y) Ne T. exists a, b. split; [exact A|]. split; [exact Bb|]. split; [exact W|]. split; [now rewrite V|]. apply Ev. apply (Z5 c f C F).
        -- intros H. apply Ne. now rewrite Y, V.
        -- rewrite <- Y, <- V. exact T.
  - lia.
Qed.

Lemma ieee_value k neg n d n' d' : 0 < n -> 0 < d -> 0 < n' -> 0 < d' -> (ratio n d == ratio n' d')%Q -> ieee k neg n d = ieee k neg n' d'.
Proof. intros N D N' D' E. unfold ieee. destruct (precision k) as [p emax]. now rewrite (round_bits_value p (3 - emax - p) n d n' d' N D N' D' E). Qed.

(** the exact number as a fraction *)
Lemma exact_fraction k neg m : mag_finite m -> (0 < mag_value m)%Q -> exists n d, 0 < n /\ 0 < d /\ (ratio n d == mag_value m)%Q /\ round_exact k (neg, m) = ieee k neg n d /\ finite_mag m = true.
Proof.
  intros F P. destruct m as [m e|m e| |]; try contradiction F; cbn [mag_value] in P.
  - assert (0 < m) as M.
    { destruct (Z.lt_ge_cases 0 m) as [|G]; [assumption|]. rewrite Zle_Qle in G. change (qz 0) with 0%Q in G. pose proof (pw_pos 10 ten e) as T. change (qz 10) with 10%Q in T. assert (qz m * 10 ^ e <= 0 * 10 ^ e)%Q by (apply Qmult_le_compat_r; lra). lra. }
    destruct m as [|m|m]; try lia. pose proof (ratio_fraction 10 (Zpos m) e ten) as H. cbn [round_exact]. destruct (fraction 10 (Zpos m) e) as [n d]. destruct H as (D & V & N). exists n, d. repeat split; auto; lia.
  - assert (0 < m) as M.
    { destruct (Z.lt_ge_cases 0 m) as [|G]; [assumption|]. rewrite Zle_Qle in G. change (qz 0) with 0%Q in G. pose proof (p2_pos e) as T. assert (qz m * 2 ^ e <= 0 * 2 ^ e)%Q by (apply Qmult_le_compat_r; lra). lra. }
    destruct m as [|m|m]; try lia. pose proof (ratio_fraction 2 (Zpos m) e two) as H. cbn [round_exact]. destruct (fraction 2 (Zpos m) e) as [n d]. destruct H as (D & V & N). exists n, d. repeat split; auto; lia.
Qed.

Lemma too_large_wd k x y : (x == y)%Q -> too_large k x -> too_large k y.
Proof. unfold too_large. intros ->. auto. Qed.
Lemma too_small_wd k x y : (x == y)%Q -> too_small k x -> too_small k y.
Proof. unfold too_small. intros ->. auto. Qed.
Lemma rounds_wd k x y z : (x == y)%Q -> rounds_to k x z -> rounds_to k y z.
Proof.
  intros E (A & B & C). split; [exact A|]. split.
  - intros w W. rewrite <- E. now apply B.
  - intros w W N T. apply (C w W N). now rewrite E.
Qed.

(** the number read *)
Lemma round_lemma k neg m : mag_finite m -> (0 < mag_value m)%Q ->
  let x := mag_value m in
  (too_large k x /\ ieee_round k (neg, m) = (VFloat (FInf neg), true)) \/
  (~ too_large k x /\ too_small k x /\ ieee_round k (neg, m) = (VFloat (FZero neg), true)) \/
  (~ too_large k x /\ ~ too_small k x /\ exists a e, ieee_round k (neg, m) = (VFloat (FFin neg a e), false) /\ rounds_to k x (qz (Zpos a) * p2 e) /\ (normal k x -> (Qabs (x - qz (Zpos a) * p2 e) <= x * p2 (- bits k))%Q)).
Proof.
  intros F P x. destruct (exact_fraction k neg m F P) as (n & d & N & D & V & E & Fm). fold x in V. unfold ieee_round. cbn [snd]. rewrite E, Fm. assert (V' : (x == ratio n d)%Q) by now rewrite V.
  destruct (ieee_cases k neg n d N D) as [(A & ->)|[(A & B & ->)|(A & B & a & e & -> & R & Nm)]].
  - left. split; [now apply (too_large_wd k _ _ V)|reflexivity].
  - right. left. split; [intros H; apply A; now apply (too_large_wd k _ _ V')|]. split; [now apply (too_small_wd k _ _ V)|reflexivity].
  - right. right. split; [intros H; apply A; now apply (too_large_wd k _ _ V')|]. split; [intros H; apply B; now apply (too_small_wd k _ _ V')|]. exists a, e. split; [reflexivity|]. split; [now apply (rounds_wd k _ _ _ V)|].
    intros H. setoid_rewrite V'. apply Nm. unfold normal in *. now rewrite V.
Qed.

(** only the number matters *)
Lemma round_same k neg m m' : mag_finite m -> mag_finite m' -> (0 < mag_value m)%Q -> (mag_value m == mag_value m')%Q -> ieee_round k (neg, m) = ieee_round k (neg, m').
Proof.
  intros F F' P E. destruct (exact_fraction k neg m F P) as (n & d & N & D & V & R & Fm). assert (P' : (0 < mag_value m')%Q) by now rewrite <- E.
  destruct (exact_fraction k neg m' F' P') as (n' & d' & N' & D' & V' & R' & Fm'). unfold ieee_round. cbn [snd]. rewrite R, R', Fm, Fm'.
  rewrite (ieee_value k neg n d n' d'); auto. now rewrite V, V', E.
Qed.
