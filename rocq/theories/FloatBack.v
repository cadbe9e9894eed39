(** What is shown for a floating point number is read as the same number. *)
From Coq Require Import QArith Qpower Qabs Lqa Lia.
From Verif Require Import Base StrLib FloatNum Values ValuesSpec Charconv Ieee FloatSpec FloatProofs ShimProofs FloatNumProofs FloatDigits FloatText FloatRoundSpec FloatRound.
Local Open Scope Z_scope.

Definition float_ty (k : fkind) (nm mn mx : string) : ety := TFloat nm mn mx (std_from_chars ieee_round k).

(** below the normal numbers the units are all equal *)
Lemma ieee_small k neg n d n' d' m e : 0 < n -> 0 < d -> 0 < n' -> 0 < d' -> ~ normal k (ratio n d) -> ieee k neg n d = FFin neg m e ->
  (Qabs (ratio n' d' - qz (Zpos m) * p2 e) <= Qabs (ratio n d - qz (Zpos m) * p2 e))%Q -> ieee k neg n' d' = FFin neg m e.
Proof.
  intros N D N' D' Nm E C. rewrite <- E. destruct (format_ok k) as (P & L & B & R). unfold ieee in *. rewrite P, L in *. unfold normal in Nm. set (p := bits k) in *. set (emin := least k) in *. set (emax := top k) in *.
  assert (Er : round_bits p emin n' d' = round_bits p emin n d); [|now rewrite Er].
  rewrite (rb_eq p emin n d) in E. pose proof (rb_q p emin n d D) as Q1. rewrite !rb_eq. pose proof (rb_q p emin n' d' D') as Q2. pose proof (rb_X n d N D) as [X1 _]. pose proof (rb_X n' d' N' D') as [X1' X2'].
  apply Qnot_le_lt in Nm. assert (Xs : magnitude 2 n d < emin + p - 1) by (apply p2_inv_lt; lra).
  assert (U : Z.max emin (magnitude 2 n d - p + 1) = emin) by lia. rewrite U in *. set (q := nearest_unit 2 n d emin) in *.
  assert (V : (qz (Zpos m) * p2 e == qz q * p2 emin)%Q /\ 0 < q).
  { destruct q as [|q|q]; [discriminate E| |discriminate E]. destruct (_ || _); [discriminate E|]. destruct (fin_spec neg q emin) as (m' & e' & F & V). rewrite F in E. injection E as <- <-. split; [exact V|lia]. }
  destruct V as [V Q]. rewrite V in C. rewrite !unit_abs in C. apply Qmult_le_r in C; [|apply p2_pos].
  assert (Qu : q <= 2 ^ (p - 1)).
  { apply (next_to_le _ _ _ Q1). rewrite p2_Z by lia. apply unit_ge. rewrite <- p2_add. replace (p - 1 + emin) with (emin + p - 1) by lia. lra. }
  assert (U' : Z.max emin (magnitude 2 n' d' - p + 1) = emin).
  { assert (Xb : magnitude 2 n' d' < emin + p); [|lia]. apply p2_inv_lt. eapply Qle_lt_trans; [exact X1'|]. apply Qnot_le_lt. intros H. replace (emin + p) with (p + emin) in H by lia. rewrite p2_add in H. apply unit_le in H.
    destruct Q1 as [Q1 _]. assert (A : (Qabs (ratio n' d' * p2 (- emin) - qz q) <= 1 # 2)%Q) by lra. apply abs_cases in A as [A _].
    rewrite Zle_Qle, p2_Z in Qu by lia. assert (Pp : (p2 p == 2 * p2 (p - 1))%Q) by (change 2%Q with (p2 1) at 2; rewrite <- p2_add; replace (1 + (p - 1)) with p by lia; reflexivity).
    assert (1 < p2 (p - 1))%Q by (change 1%Q with (p2 0); apply p2_lt; lia). lra. }
  rewrite U' in *. f_equal. symmetry. apply (next_to_unique (ratio n' d' * p2 (- emin))); [|exact Q2]. destruct Q1 as [Qa Qb]. split; [lra|]. intros Eh. apply Qb. lra.
Qed.

Lemma parse_number k nm mn mx old s neg m v : float_text s (neg, m) -> ieee_round k (neg, m) = (VFloat v, false) -> parse_elem (float_ty k nm mn mx) old s = POk (VFloat v) PSuccess.
Proof. intros T E. apply float_parse. eauto. Qed.

Lemma ieee_of_round k neg m a e : mag_finite m -> (0 < mag_value m)%Q -> ieee_round k (neg, m) = (VFloat (FFin neg a e), false) ->
  exists n d, 0 < n /\ 0 < d /\ (ratio n d == mag_value m)%Q /\ ieee k neg n d = FFin neg a e.
Proof. intros F P E. destruct (exact_fraction k neg m F P) as (n & d & N & D & V & R & Fm). exists n, d. repeat split; auto. unfold ieee_round in E. rewrite R in E. now injection E as ->. Qed.

Lemma round_of_ieee k neg m a e n d : mag_finite m -> (0 < mag_value m)%Q -> 0 < n -> 0 < d -> (ratio n d == mag_value m)%Q -> ieee k neg n d = FFin neg a e -> ieee_round k (neg, m) = (VFloat (FFin neg a e), false).
Proof.
  intros F P N D V E. destruct (exact_fraction k neg m F P) as (n' & d' & N' & D' & V' & R & Fm). unfold ieee_round. cbn [snd]. rewrite R, (ieee_value k neg n' d' n d N' D' N D ltac:(now rewrite V', V)), E. now rewrite andb_false_r.
Qed.

(** numbers of at most six significant digits *)
Lemma read_back_lemma k neg a i s w j nm mn mx old : 0 < a < 1000000 -> (qz w * 10 ^ j == qz a * 10 ^ i)%Q ->
  float_text s (neg, Dec w j) -> ~ too_large k (qz a * 10 ^ i) -> ~ too_small k (qz a * 10 ^ i) ->
  exists x, parse_elem (float_ty k nm mn mx) old s = POk (VFloat x) PSuccess /\
    parse_elem (float_ty k nm mn mx) old (to_string (Scalar (float_ty k nm mn mx)) (VFloat x)) = POk (VFloat x) PSuccess /\
    (normal k (qz a * 10 ^ i) -> exists w' j', float_text (to_string (Scalar (float_ty k nm mn mx)) (VFloat x)) (neg, Dec w' j') /\ (qz w' * 10 ^ j' == qz a * 10 ^ i)%Q).
Proof.
  intros A E T TL TS. set (y := (qz a * 10 ^ i)%Q) in *. assert (Py : (0 < y)%Q). { unfold y. apply Qmult_lt_0_compat; [change 0%Q with (qz 0); rewrite <- Zlt_Qlt; lia|apply p10_pos]. }
  assert (P : (0 < mag_value (Dec w j))%Q) by (cbn [mag_value]; lra).
  destruct (round_lemma k neg (Dec w j) Logic.I P) as [(H & _)|[(_ & H & _)|(_ & _ & m & e & R & Rd & Nm)]]; [exfalso; apply TL; now apply (too_large_wd k _ _ E)|exfalso; apply TS; now apply (too_small_wd k _ _ E)|].
  exists (FFin neg m e). split; [now apply (parse_number k nm mn mx old s neg _ _ T)|]. change (to_string _ _) with (print_g (FFin neg m e)).
  destruct (print_g_finite neg m e) as (w' & j' & T' & [D6 Pos'] & Cl & Kp).
  assert (Dy : decimal6 y) by (exists a, i; split; [lia|reflexivity]).
  assert (Norm : normal k y -> (qz w' * 10 ^ j' == y)%Q).
  { intros Ny. apply Kp; [exact A|]. fold y. assert (Nw : normal k (mag_value (Dec w j))) by (unfold normal in *; cbn [mag_value]; rewrite E; exact Ny). specialize (Nm Nw). cbn [mag_value] in Nm. setoid_rewrite E in Nm. rewrite Qabs_Qminus.
    eapply Qle_trans; [exact Nm|]. rewrite !(Qmult_comm y). apply Qmult_le_compat_r; [|lra]. destruct (format_ok k) as (_ & _ & B & _). change (1 # 16777216)%Q with (p2 (-24)). apply p2_le. lia. }
  split; [|intros Ny; exists w', j'; split; [exact T'|now apply Norm]].
  apply (parse_number k nm mn mx old _ neg _ _ T').
  destruct (Qlt_le_dec y (p2 (least k + bits k - 1))) as [Sm|Ny].
  - destruct (ieee_of_round k neg (Dec w j) m e Logic.I P R) as (n & d & N & D & V & I). cbn [mag_value] in V.
    assert (M' : mag_finite (Dec w' j')) by exact Logic.I.
    destruct (exact_fraction k neg (Dec w' j') M' Pos') as (n' & d' & N' & D' & V' & _ & _). cbn [mag_value] in V'.
    apply (round_of_ieee k neg (Dec w' j') m e n' d' M' Pos' N' D' V'). apply (ieee_small k neg n d n' d' m e N D N' D'); [|exact I|].
    + unfold normal. rewrite V, E. fold y. lra.
    + rewrite V, V', E. rewrite !(Qabs_Qminus _ (qz (Zpos m) * p2 e)). apply Cl. exact Dy.
  - rewrite <- R. symmetry. apply round_same; [exact Logic.I|exact Logic.I|exact P|]. cbn [mag_value]. rewrite E, (Norm Ny). reflexivity.
Qed.

(** exactly the values which can be given with at most six significant digits *)
Lemma read_back_exact k neg m e nm mn mx old :
  parse_elem (float_ty k nm mn mx) old (to_string (Scalar (float_ty k nm mn mx)) (VFloat (FFin neg m e))) = POk (VFloat (FFin neg m e)) PSuccess <->
  exists s w j a i, 0 < a < 1000000 /\ (qz w * 10 ^ j == qz a * 10 ^ i)%Q /\ float_text s (neg, Dec w j) /\
    parse_elem (float_ty k nm mn mx) old s = POk (VFloat (FFin neg m e)) PSuccess.
Proof.
  split.
  - intros H. destruct (print_g_finite neg m e) as (w & j & T & [(a & i & A & E) Pos] & _ & _). exists (print_g (FFin neg m e)), w, j, a, i.
    split; [|split; [exact E|split; [exact T|exact H]]]. split; [|lia]. destruct (Z.eq_dec a 0) as [->|]; [|lia]. rewrite E in Pos. change (qz 0) with 0%Q in Pos. lra.
  - intros (s & w & j & a & i & A & E & T & H).
    assert (Py : (0 < qz a * 10 ^ i)%Q). { apply Qmult_lt_0_compat; [change 0%Q with (qz 0); rewrite <- Zlt_Qlt; lia|apply p10_pos]. }
    assert (P : (0 < mag_value (Dec w j))%Q) by (cbn [mag_value]; lra).
    pose proof H as H0. apply float_parse in H0 as (x & Tx & R). rewrite (float_text_unique _ _ _ Tx T) in R.
    destruct (round_lemma k neg (Dec w j) Logic.I P) as [(_ & R')|[(_ & _ & R')|(TL & TS & _)]]; [rewrite R' in R; discriminate R|rewrite R' in R; discriminate R|].
    destruct (read_back_lemma k neg a i s w j nm mn mx old A E T) as (x' & Hx & Back & _).
    + intros H'. apply TL. apply (too_large_wd k _ _ (Qeq_sym _ _ E) H').
    + intros H'. apply TS. apply (too_small_wd k _ _ (Qeq_sym _ _ E) H').
    + rewrite H in Hx. injection Hx as <-. exact Back.
Qed.
