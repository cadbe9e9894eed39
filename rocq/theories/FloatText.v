(** The texts printed for floating point numbers denote them. *)
From Coq Require Import QArith Qpower Qabs Lqa Lia.
From Verif Require Import Base StrLib FloatNum Values ValuesSpec ValuesProofs Charconv FloatSpec FloatNumProofs FloatDigits.
Local Open Scope Z_scope.

Lemma wt_app s : forall r, weight (s +s+ r) = weight s * 10 ^ Z.of_nat (String.length r) + weight r.
Proof.
  induction s as [|c s IH]; intros r; [reflexivity|]. cbn [String.append weight]. rewrite IH, length_app_s, Nat2Z.inj_add, Z.pow_add_r by lia. ring.
Qed.

Lemma digit_chr z : is_digit (ascii_of_N (Z.to_N (48 + z mod 10))) = true /\ digit_val (ascii_of_N (Z.to_N (48 + z mod 10))) = z mod 10.
Proof.
  pose proof (Z.mod_pos_bound z 10 ltac:(lia)) as H. set (r := z mod 10) in *.
  assert (r = 0 \/ r = 1 \/ r = 2 \/ r = 3 \/ r = 4 \/ r = 5 \/ r = 6 \/ r = 7 \/ r = 8 \/ r = 9) as C by lia.
  repeat (destruct C as [->|C]; [split; reflexivity|]). rewrite C. split; reflexivity.
Qed.

Lemma fixed_spec w : forall z, String.length (fixed w z) = w /\ sall is_digit (fixed w z) = true /\ (0 <= z -> weight (fixed w z) = z mod 10 ^ Z.of_nat w).
Proof.
  induction w as [|w IH]; intros z; [split; [reflexivity|]; split; [reflexivity|]; intros _; cbn [fixed weight Z.of_nat]; now rewrite Z.pow_0_r, Z.mod_1_r|].
  cbn [fixed]. destruct (IH (z / 10)) as (L & D & W). destruct (digit_chr z) as [D1 W1]. split; [rewrite length_app_s, L; cbn; lia|]. split.
  - rewrite sall_app, D. cbn [sall str1]. now rewrite D1.
  - intros P. rewrite wt_app. cbn [str1 String.length weight]. rewrite W1, (W (Z.div_pos z 10 P ltac:(lia))). change (Z.of_nat 0) with 0. change (Z.of_nat 1) with 1. rewrite Z.pow_0_r, Z.pow_1_r, Z.mul_1_r, Z.add_0_r.
    rewrite Nat2Z.inj_succ, Z.pow_succ_r by lia. rewrite (Z.rem_mul_r z 10 (10 ^ Z.of_nat w)); [ring|lia|]. apply Z.pow_pos_nonneg; lia.
Qed.

Lemma zeros_spec n : String.length (zeros n) = n /\ sall is_digit (zeros n) = true /\ weight (zeros n) = 0.
Proof.
  induction n as [|n (L & D & W)]; [repeat split|]. cbn [zeros String.length sall weight]. rewrite L, D, W. repeat split.
Qed.

Lemma strip_zeros s : exists k, s = strip s +s+ zeros k.
Proof.
  induction s as [|c s [k E]]; [exists O; reflexivity|]. cbn [strip]. destruct (Ascii.eqb_spec c "0") as [->|N]; cbn [andb].
  - destruct (strip s) as [|x t]; cbn [is_empty].
    + exists (S k). rewrite E at 1. reflexivity.
    + exists k. cbn [String.append]. now rewrite E at 1.
  - exists k. cbn [String.append]. now rewrite E at 1.
Qed.

Lemma sall_strip s : sall is_digit s = true -> sall is_digit (strip s) = true.
Proof. intros H. destruct (strip_zeros s) as [k E]. rewrite E, sall_app in H. now apply andb_true_iff in H as [H _]. Qed.

Notation p10 e := (10 ^ e)%Q.

(** the value of digits before and behind the point *)
Lemma strip_value i f : (qz (weight (i +s+ strip f)) * p10 (- Z.of_nat (String.length (strip f))) == qz (weight (i +s+ f)) * p10 (- Z.of_nat (String.length f)))%Q.
Proof.
  destruct (strip_zeros f) as [k E]. set (g := strip f) in *. rewrite E. rewrite <- app_assoc_s. rewrite (wt_app (i +s+ g)), length_app_s.
  destruct (zeros_spec k) as (L & _ & ->). rewrite L, Z.add_0_r, inject_Z_mult, (pw_Z 10) by lia. change (qz 10) with (10)%Q. rewrite <- Qmult_assoc. change (10)%Q with (qz 10). rewrite <- (pw_add 10 ten).
  replace (Z.of_nat k + - Z.of_nat (String.length g + k)) with (- Z.of_nat (String.length g)) by lia. reflexivity.
Qed.

Lemma mantissa_layout i f : digits i -> sall is_digit f = true -> mantissa_text (i +s+ point (strip f)) (i +s+ strip f) (String.length (strip f)).
Proof.
  intros I F. apply sall_strip in F. destruct (strip f) as [|c g]; cbn [point is_empty].
  - rewrite app_nil_r_s. now constructor.
  - change (String "." (String c g)) with ("." +s+ String c g). constructor. destruct I as [I1 I2]. split; [destruct i; [congruence|discriminate]|]. now rewrite sall_app, I2, F.
Qed.

Lemma digits_stake n s : (0 < n)%nat -> digits s -> digits (stake n s).
Proof.
  intros N [S D]. split; [destruct n as [|n]; [lia|]; destruct s; [congruence|discriminate]|]. rewrite <- (stake_sdrop n s), sall_app in D. now apply andb_true_iff in D as [D _].
Qed.
Lemma digits_sdrop n s : digits s -> sall is_digit (sdrop n s) = true.
Proof. intros [_ D]. rewrite <- (stake_sdrop n s), sall_app in D. now apply andb_true_iff in D as [_ D]. Qed.

Lemma exponent_layout X : exists d, (if Z.abs X <? 10 then "0" else "") +s+ Z_to_string (Z.abs X) = d /\ digits d /\ weight d = Z.abs X.
Proof.
  eexists. split; [reflexivity|]. pose proof (Z_to_string_numeral false (Z.abs X) ltac:(right; lia)) as N. assert (D : digits (Z_to_string (Z.abs X)) /\ weight (Z_to_string (Z.abs X)) = Z.abs X).
  { remember (Z_to_string (Z.abs X)) as t eqn:Et. remember (Z.abs X) as a eqn:Ea. clear Et Ea. destruct N as [s D|s D _]; [split; [exact D|reflexivity]|discriminate]. }
  destruct D as [[D1 D2] E2]. destruct (Z.abs X <? 10); cbn [String.append]; [|split; [split; assumption|exact E2]].
  split; [split; [discriminate|exact D2]|]. cbn [weight]. rewrite E2. change (digit_val "0") with 0. lia.
Qed.

Lemma layout_text q X : 100000 <= q < 1000000 -> exists w e, unsigned_text (layout q X) (Dec w e) /\ (qz w * p10 e == qz q * p10 (X - 5))%Q.
Proof.
  intros Q. unfold layout. destruct (fixed_spec 6 q) as (L & D & W). rewrite Z.mod_small in W by (change (10 ^ Z.of_nat 6) with 1000000; lia). specialize (W ltac:(lia)). set (s := fixed 6 q) in *.
  assert (Ds : digits s) by (split; [destruct s; [discriminate L|discriminate]|exact D]).
  assert (Cut : forall n, (0 < n <= 6)%nat -> let i := stake n s in let f := sdrop n s in
    mantissa_text (i +s+ point (strip f)) (i +s+ strip f) (String.length (strip f)) /\
    (qz (weight (i +s+ strip f)) * p10 (- Z.of_nat (String.length (strip f))) == qz q * p10 (- (6 - Z.of_nat n)))%Q).
  { intros n N i f. split; [apply mantissa_layout; [now apply digits_stake; [lia|]|now apply digits_sdrop]|]. rewrite strip_value. unfold i, f. rewrite stake_sdrop, W, length_sdrop, L.
    replace (Z.of_nat (6 - n)) with (6 - Z.of_nat n) by lia. reflexivity. }
  destruct ((-4 <=? X) && (X <? 6)) eqn:R.
  - apply andb_true_iff in R as [R1 R2]. apply Z.leb_le in R1. apply Z.ltb_lt in R2. destruct (Z.leb_spec 0 X) as [P|P].
    + destruct (Cut (Z.to_nat (X + 1)) ltac:(lia)) as [M V]. cbv zeta in M, V. eexists _, _. split.
      * rewrite <- (app_nil_r_s (stake _ s +s+ _)). eapply text_number; [exact M|constructor].
      * rewrite Z2Nat.id in V by lia. replace (- (6 - (X + 1))) with (X - 5) in V by lia. exact V.
    + set (k := Z.to_nat (- X - 1)). destruct (zeros_spec k) as (Lk & Dk & Wk).
      assert (Df : sall is_digit (zeros k +s+ strip s) = true) by (rewrite sall_app, Dk; now apply sall_strip).
      exists (weight ("0" +s+ (zeros k +s+ strip s))), (0 - Z.of_nat (String.length (zeros k +s+ strip s))). split.
      * rewrite <- (app_nil_r_s ("0." +s+ zeros k +s+ strip s)). eapply text_number; [|constructor]. apply (mantissa_point "0" (zeros k +s+ strip s)). split; [discriminate|exact Df].
      * assert (Ww : weight ("0" +s+ (zeros k +s+ strip s)) = weight ("" +s+ strip s)) by (rewrite !wt_app, Wk; change (weight "0") with 0; cbn [String.append weight]; ring).
        rewrite Ww, length_app_s, Lk. pose proof (strip_value "" s) as V. cbn [String.append] in *. rewrite W, L in V.
        replace (0 - Z.of_nat (k + String.length (strip s))) with (- Z.of_nat (String.length (strip s)) + - Z.of_nat k) by lia.
        change (10)%Q with (qz 10) in *. rewrite (pw_add 10 ten), Qmult_assoc, V, <- Qmult_assoc, <- (pw_add 10 ten). replace (- Z.of_nat 6 + - Z.of_nat k) with (X - 5) by lia. reflexivity.
  - destruct (Cut 1%nat ltac:(lia)) as [M V]. cbv zeta in M, V. destruct (exponent_layout X) as (d & Ed & Dd & Wd). rewrite Ed.
    exists (weight (stake 1 s +s+ strip (sdrop 1 s))), (X - Z.of_nat (String.length (strip (sdrop 1 s)))). split.
    + rewrite <- app_assoc_s. destruct (Z.ltb_spec X 0) as [N|N].
      * assert (Ex : exponent_text ("e" +s+ "-" +s+ d) X) by (replace X with (- weight d) by lia; apply (exponent_minus "e" d); auto). eapply text_number; eauto.
      * assert (Ex : exponent_text ("e" +s+ "+" +s+ d) X) by (replace X with (weight d) by lia; apply (exponent_plus "e" d); auto). eapply text_number; eauto.
    + change (- (6 - Z.of_nat 1)) with (-5) in V. change (10)%Q with (qz 10) in *. unfold Z.sub. rewrite !(pw_add 10 ten X). change (-(5))%Z with (-5). rewrite (Qmult_comm (qz 10 ^ X)), Qmult_assoc, V. ring.
Qed.

Definition magnitude_value (m : mag) : Q :=
  match m with Dec m e => qz m * 10 ^ e | Hexa m e => qz m * 2 ^ e | _ => 0 end.

(** ** Printing *)
Lemma print_g_finite neg m e : exists w j, float_text (print_g (FFin neg m e)) (neg, Dec w j) /\ (decimal6 (qz w * p10 j) /\ (0 < qz w * p10 j)%Q) /\
  (forall y, decimal6 y -> Qabs (qz (Zpos m) * 2 ^ e - qz w * p10 j) <= Qabs (qz (Zpos m) * 2 ^ e - y))%Q /\
  (forall a k, 0 < a < 1000000 -> (Qabs (qz (Zpos m) * 2 ^ e - qz a * 10 ^ k) <= qz a * 10 ^ k * (1 # 16777216))%Q -> (qz w * p10 j == qz a * 10 ^ k)%Q).
Proof.
  unfold print_g. pose proof (ratio_fraction 2 (Zpos m) e two) as F. destruct (fraction 2 (Zpos m) e) as [n d]. destruct F as (D & V & N). specialize (N ltac:(lia)). change (qz 2) with 2%Q in V.
  pose proof (six_lemma n d N D) as S. pose proof (fun a k H => six_kept n d a k N D H) as K. destruct (six n d) as [q X]. destruct S as [Q C]. destruct (layout_text q X Q) as (w & j & T & E). exists w, j.
  split; [|split; [|split]].
  - destruct neg; cbn [sign].
    + now apply float_minus.
    + now apply float_plain.
  - split; [exists q, (X - 5); split; [lia|exact E]|]. rewrite E. apply Qmult_lt_0_compat; [change 0%Q with (qz 0); rewrite <- Zlt_Qlt; lia|apply p10_pos].
  - intros y Y. setoid_rewrite E. setoid_rewrite <- V. now apply C.
  - intros a k A H. rewrite E. apply K; [exact A|]. now setoid_rewrite V.
Qed.
