(** Ranges of floating point numbers. *)
From Coq Require Import QArith Qpower Qabs Lqa Lia.
From Verif Require Import Base StrLib Fs FloatNum Values ValuesSpec ValuesProofs Validators ValidatorsSpec ValidatorsProofs Charconv Ieee FloatSpec FloatProofs ShimProofs FloatNumProofs FloatDigits FloatText FloatRoundSpec FloatRound FloatBack.
Local Open Scope Z_scope.

(** ** Comparison *)
Lemma shifted x k : (match x with FFin _ _ _ | FZero _ => True | _ => False end) -> k <= exponent x -> (fvalue x == qz (numerator x * 2 ^ (exponent x - k)) * p2 k)%Q.
Proof.
  intros F L. rewrite inject_Z_mult, p2_Z by lia. rewrite <- Qmult_assoc, <- p2_add. replace (exponent x - k + k) with (exponent x) by lia.
  destruct x; try contradiction F; unfold fvalue; cbn [numerator exponent]; [change (qz 0) with 0%Q; ring|reflexivity].
Qed.

Lemma fleb_spec x y : fleb x y = true <-> float_le x y.
Proof.
  assert (G : forall x y, (match x with FFin _ _ _ | FZero _ => True | _ => False end) -> (match y with FFin _ _ _ | FZero _ => True | _ => False end) ->
    (numerator x * 2 ^ (exponent x - Z.min (exponent x) (exponent y)) <=? numerator y * 2 ^ (exponent y - Z.min (exponent x) (exponent y))) = true <-> (fvalue x <= fvalue y)%Q).
  { intros a b A B. rewrite (shifted a (Z.min (exponent a) (exponent b)) A) by lia. rewrite (shifted b (Z.min (exponent a) (exponent b)) B) by lia.
    rewrite Z.leb_le, Zle_Qle. rewrite (Qmult_le_r _ _ (p2 (Z.min (exponent a) (exponent b)))) by apply p2_pos. reflexivity. }
  destruct x as [sx|[]| |sx mx ex], y as [sy|[]| |sy my ey]; cbn [fleb float_le]; try (split; [discriminate|tauto]); try (split; [reflexivity|tauto]); try (split; auto; fail); apply G; exact Logic.I.
Qed.

(** ** Numbers of a type *)
Lemma odd_unique m e m' e' : Z.odd (Zpos m) = true -> Z.odd (Zpos m') = true -> (qz (Zpos m) * p2 e == qz (Zpos m') * p2 e')%Q -> m = m' /\ e = e'.
Proof.
  assert (W : forall m e m' e', e < e' -> Z.odd (Zpos m) = true -> (qz (Zpos m) * p2 e == qz (Zpos m') * p2 e')%Q -> False).
  { intros a x b y L O E. assert (H : (qz (Zpos a) == qz (Zpos b * 2 ^ (y - x)))%Q).
    { rewrite inject_Z_mult, p2_Z by lia. apply (Qmult_inj_r _ _ (p2 x)); [pose proof (p2_pos x); lra|]. rewrite E, <- Qmult_assoc, <- p2_add. replace (y - x + x) with y by lia. reflexivity. }
    assert (Zpos a = Zpos b * 2 ^ (y - x)) as Ha by (now apply inject_Z_injective). rewrite Ha, Z.odd_mul in O. apply andb_true_iff in O as [_ O].
    replace (y - x) with (1 + (y - x - 1)) in O by lia. rewrite Z.pow_add_r, Z.odd_mul in O by lia. discriminate O. }
  intros O O' E. destruct (Z.lt_trichotomy e e') as [L|[->|L]].
  - exfalso. eapply (W m e m' e'); eauto.
  - split; [|reflexivity]. apply Qmult_inj_r in E; [|pose proof (p2_pos e'); lra]. apply (proj1 (inject_Z_injective _ _)) in E. now injection E.
  - exfalso. eapply (W m' e' m e); eauto. now symmetry.
Qed.

Lemma odd_part_odd m : forall e, Z.odd (Zpos (fst (odd_part m e))) = true.
Proof. induction m; intros e; cbn [odd_part fst]; auto. Qed.

Lemma ieee_kind k neg n d : 0 < n -> 0 < d -> of_kind k (ieee k neg n d).
Proof.
  intros N D. pose proof (ieee_cases k neg n d N D) as C. assert (O : forall m e, ieee k neg n d = FFin neg m e -> Z.odd (Zpos m) = true /\ (qz (Zpos m) * p2 e < p2 (top k))%Q).
  { intros m e. destruct (format_ok k) as (P & _). unfold ieee. rewrite P. destruct (round_bits _ _ n d) as [q u]. destruct q as [|q|q]; try discriminate. destruct ((top k <? u) || (2 ^ (top k - u) <=? Zpos q)) eqn:T; [discriminate|].
    unfold fin. destruct (odd_part q u) as [m' e'] eqn:E. intros [= <- <-]. split; [pose proof (odd_part_odd q u) as O; now rewrite E in O|]. rewrite <- (odd_part_value _ _ _ _ E).
    apply orb_false_iff in T as [T1 T2]. apply Z.ltb_ge in T1. apply Z.leb_gt in T2. rewrite Zlt_Qlt, p2_Z in T2 by lia. replace (top k) with (top k - u + u) by lia. rewrite p2_add. apply Qmult_lt_r; [apply p2_pos|exact T2]. }
  destruct C as [(_ & ->)|[(_ & _ & ->)|(_ & _ & m & e & E & (G & _) & _)]]; try exact Logic.I. rewrite E. destruct (O m e E). cbn. auto.
Qed.

Lemma ieee_exact k neg m e n d : 0 < n -> 0 < d -> of_kind k (FFin neg m e) -> (ratio n d == qz (Zpos m) * p2 e)%Q -> ieee k neg n d = FFin neg m e.
Proof.
  intros N D (O & G & T) V. pose proof (ieee_kind k neg n d N D) as K. set (x := (qz (Zpos m) * p2 e)%Q) in *.
  destruct (ieee_cases k neg n d N D) as [(L & E)|[(_ & S & E)|(_ & _ & m' & e' & E & (G' & Cl & _) & _)]].
  - exfalso. apply (too_large_wd k _ _ V) in L. unfold too_large in L. destruct G as (a & i & A & I & Ev). fold x in Ev. destruct (format_ok k) as (_ & _ & B & R).
    (* a number of the type below 2^top is at most 2^top - 2^(top - bits) *)
    set (p := bits k) in *. set (t := top k) in *. assert (Pa : (qz a <= p2 p - 1)%Q). { rewrite <- p2_Z by lia. change 1%Q with (qz 1). unfold Qminus. rewrite <- inject_Z_opp, <- inject_Z_plus, <- Zle_Qle. lia. }
    assert (H2 : (p2 (t - p - 1) == (1 # 2) * p2 (t - p))%Q) by (replace (t - p - 1) with (-1 + (t - p)) by lia; rewrite p2_add; reflexivity).
    pose proof (p2_pos (t - p)). destruct (Z.le_gt_cases i (t - p)) as [Li|Li].
    + assert (Hx : (x <= p2 t - p2 (t - p))%Q).
      { rewrite Ev. assert (E1 : (p2 t == p2 p * p2 (t - p))%Q) by (rewrite <- p2_add; replace (p + (t - p)) with t by lia; reflexivity).
        apply Qle_trans with (qz a * p2 (t - p))%Q; [rewrite !(Qmult_comm (qz a)); apply Qmult_le_compat_r; [now apply p2_le|change 0%Q with (qz 0); rewrite <- Zle_Qle; lia]|].
        apply Qle_trans with ((p2 p - 1) * p2 (t - p))%Q; [apply Qmult_le_compat_r; lra|]. rewrite E1. lra. }
      lra.
    + assert (Ha : a < 2 ^ (t - i) \/ t < i) by (destruct (Z.le_gt_cases i t) as [Lt|Gt]; [left|right; exact Gt]; rewrite Zlt_Qlt, p2_Z by lia; apply (Qmult_lt_r _ _ (p2 i)); [apply p2_pos|]; rewrite <- Ev, <- p2_add; replace (t - i + i) with t by lia; exact T).
      assert (A0 : 1 <= a). { destruct (Z.eq_dec a 0) as [->|]; [|lia]. assert (0 < x)%Q by (apply Qmult_lt_0_compat; [reflexivity|apply p2_pos]). rewrite Ev in H0. change (qz 0) with 0%Q in H0. lra. }
      destruct Ha as [Ha|Ha].
      * assert (Ha2 : (qz a <= p2 (t - i) - 1)%Q). { destruct (Z.le_gt_cases i t) as [Lt|Gt]; [|rewrite Z.pow_neg_r in Ha by lia; lia]. rewrite <- p2_Z by lia. change 1%Q with (qz 1). unfold Qminus. rewrite <- inject_Z_opp, <- inject_Z_plus, <- Zle_Qle. lia. }
        assert (Hx : (x <= p2 t - p2 i)%Q). { rewrite Ev. apply Qle_trans with ((p2 (t - i) - 1) * p2 i)%Q; [apply Qmult_le_compat_r; [exact Ha2|pose proof (p2_pos i); lra]|]. assert (E1 : (p2 t == p2 (t - i) * p2 i)%Q) by (rewrite <- p2_add; replace (t - i + i) with t by lia; reflexivity). rewrite E1. lra. }
        pose proof (p2_lt (t - p) i Li). lra.
      * assert (p2 t < x)%Q; [|lra]. rewrite Ev. apply Qlt_le_trans with (1 * p2 i)%Q; [rewrite Qmult_1_l; now apply p2_lt|]. apply Qmult_le_compat_r; [change 1%Q with (qz 1); rewrite <- Zle_Qle; lia|pose proof (p2_pos i); lra].
  - exfalso. apply (too_small_wd k _ _ V) in S. unfold too_small in S. destruct G as (a & i & A & I & Ev). fold x in Ev.
    assert (A0 : 1 <= a). { destruct (Z.eq_dec a 0) as [->|]; [|lia]. assert (0 < x)%Q by (apply Qmult_lt_0_compat; [reflexivity|apply p2_pos]). rewrite Ev in H. change (qz 0) with 0%Q in H. lra. }
    assert (p2 (least k) <= x)%Q. { rewrite Ev. apply Qle_trans with (1 * p2 i)%Q; [rewrite Qmult_1_l; now apply p2_le|]. apply Qmult_le_compat_r; [change 1%Q with (qz 1); rewrite <- Zle_Qle; lia|pose proof (p2_pos i); lra]. }
    pose proof (p2_lt (least k - 1) (least k) ltac:(lia)). lra.
  - rewrite E in *. destruct K as (O' & _). specialize (Cl x G). setoid_rewrite V in Cl.
    assert (Z0 : (Qabs (x - x) == 0)%Q) by (setoid_replace (x - x)%Q with 0%Q by ring; reflexivity). rewrite Z0 in Cl. apply abs_cases in Cl as [C1 C2].
    destruct (odd_unique m e m' e' O O') as [-> ->]; [fold x; lra|reflexivity].
Qed.

Lemma to_kind_id k x : of_kind k x -> to_kind k x = x.
Proof.
  destruct x as [s|s| |s m e]; try reflexivity. intros K. cbn [to_kind]. pose proof (ratio_fraction 2 (Zpos m) e two) as F. destruct (fraction 2 (Zpos m) e) as [n d]. destruct F as (D & V & N).
  apply ieee_exact; auto. apply N. lia.
Qed.

(** ** std::to_string *)
Lemma print_f_finite neg m e : exists i f z, print_f (FFin neg m e) = sign neg +s+ i +s+ "." +s+ f /\ digits i /\ digits f /\ String.length f = 6%nat /\
  weight (i +s+ f) = z /\ next_to (qz (Zpos m) * p2 e * 1000000) z.
Proof.
  unfold print_f. pose proof (ratio_fraction 2 (Zpos m) e two) as F. destruct (fraction 2 (Zpos m) e) as [n d]. destruct F as (D & V & N). specialize (N ltac:(lia)).
  pose proof (nearest_unit_spec 10 ten n d (-6) D) as Nq. set (q := nearest_unit 10 n d (-6)) in *.
  assert (Q0 : 0 <= q). { apply (next_to_ge _ _ _ Nq). pose proof (ratio_pos n d N D). pose proof (p10_pos 6). change (qz 0) with 0%Q. apply Qlt_le_weak, Qmult_lt_0_compat; assumption. }
  destruct (fixed_spec 6 q) as (L & Df & W). specialize (W Q0). pose proof (Z_to_string_numeral false (q / 1000000) ltac:(right; apply Z.div_pos; lia)) as Ni.
  assert (Di : digits (Z_to_string (q / 1000000)) /\ weight (Z_to_string (q / 1000000)) = q / 1000000).
  { remember (Z_to_string (q / 1000000)) as t. remember (q / 1000000) as z. clear Heqt Heqz. destruct Ni as [s H|s H _]; [auto|discriminate]. }
  destruct Di as [Di Wi]. exists (Z_to_string (q / 1000000)), (fixed 6 q), q. split; [reflexivity|]. split; [exact Di|]. split; [split; [destruct (fixed 6 q); [discriminate L|discriminate]|exact Df]|]. split; [exact L|]. split.
  - rewrite wt_app, Wi, W, L. change (10 ^ Z.of_nat 6) with 1000000. pose proof (Z.div_mod q 1000000 ltac:(lia)). lia.
  - eapply next_to_eq; [|exact Nq]. rewrite V. reflexivity.
Qed.

(** ** The validator for floating point numbers *)
Definition float_msg (mn mx x : fnum) : string := "Value " +s+ print_f x +s+ " is not in range [" +s+ print_f mn +s+ "," +s+ print_f mx +s+ "].".

Lemma float_range1_spec k mn mx y : (float_le mn (to_kind k y) /\ float_le (to_kind k y) mx /\ float_range1 k mn mx (VFloat y) = VOk) \/
  (~ (float_le mn (to_kind k y) /\ float_le (to_kind k y) mx) /\ float_range1 k mn mx (VFloat y) = VThrow (float_msg mn mx (to_kind k y))).
Proof.
  unfold float_range1. cbn [promote]. pose proof (fleb_spec (to_kind k y) mx) as A. pose proof (fleb_spec mn (to_kind k y)) as B. destruct (fleb (to_kind k y) mx), (fleb mn (to_kind k y)); cbn [andb negb].
  1: left; split; [now apply B|split; [now apply A|reflexivity]].
  all: right; split; [intros [H1 H2]; apply A in H2; apply B in H1; discriminate|]; unfold float_range_str, float_msg; rewrite ?app_assoc_s; reflexivity.
Qed.

Definition float_within (mn mx x : fnum) : Prop := float_le mn x /\ float_le x mx.

Lemma floats_no_text x ys : elements x = map VFloat ys -> by_characters x = x.
Proof. destruct x; try reflexivity. destruct ys as [|y [|]]; discriminate. Qed.

Lemma float_range_lemma k mn mx f x ys : elements x = map VFloat ys -> Forall (of_kind k) ys ->
  (Forall (float_within mn mx) ys /\ float_range_validator k mn mx f x = (f, VOk)) \/
  (exists l y l', ys = l ++ y :: l' /\ Forall (float_within mn mx) l /\ ~ float_within mn mx y /\
     float_range_validator k mn mx f x = (f, VThrow ("Value " +s+ print_f y +s+ " is not in range [" +s+ print_f mn +s+ "," +s+ print_f mx +s+ "]."))).
Proof.
  intros Hx Hk. unfold float_range_validator. rewrite (floats_no_text x ys Hx).
  assert (H1 : forall y, of_kind k y -> float_range1 k mn mx (VFloat y) = VOk -> float_within mn mx y).
  { intros y K E. pose proof (float_range1_spec k mn mx y) as S. rewrite (to_kind_id k y K) in S. destruct S as [(A & B & _)|(_ & S)]; [split; assumption|congruence]. }
  assert (H2 : forall ys, Forall (of_kind k) ys -> Forall (fun a => float_range1 k mn mx a = VOk) (map VFloat ys) -> Forall (float_within mn mx) ys).
  { clear -H1. induction ys as [|y ys IH]; intros Hk H; [constructor|]. inversion_clear H. inversion_clear Hk. constructor; [now apply H1|auto]. }
  destruct (lift_pure_spec (float_range1 k mn mx) f x (fun _ _ => Logic.I)) as [[Ha Hr]|(l & a & l' & He & Hl & Ha & Hr)].
  - left. split; [|exact Hr]. rewrite Hx in Ha. now apply H2.
  - right. rewrite Hx in He. apply map_eq_app in He as (l1 & l2 & -> & <- & He). destruct l2 as [|y l3]; [discriminate|]. injection He as <- <-.
    apply Forall_app in Hk as [K1 K2]. inversion_clear K2 as [|? ? Ky _]. exists l1, y, l3. split; [reflexivity|]. split; [now apply H2|].
    pose proof (float_range1_spec k mn mx y) as S. rewrite (to_kind_id k y Ky) in S. destruct S as [(_ & _ & S)|(Nw & S)]; [congruence|]. split; [exact Nw|]. rewrite Hr, S. reflexivity.
Qed.

(** a number of another type is converted first *)
Lemma float_range_other k mn mx f y :
  (float_within mn mx (to_kind k y) /\ float_range_validator k mn mx f (VFloat y) = (f, VOk)) \/
  (~ float_within mn mx (to_kind k y) /\ float_range_validator k mn mx f (VFloat y) = (f, VThrow (float_msg mn mx (to_kind k y)))).
Proof.
  change (float_range_validator k mn mx f (VFloat y)) with (f, float_range1 k mn mx (VFloat y)).
  destruct (float_range1_spec k mn mx y) as [(A & B & ->)|(A & ->)]; [left; split; [split; assumption|reflexivity]|right; split; [exact A|reflexivity]].
Qed.

Lemma nan_refused k mn mx f : exists m, float_range_validator k mn mx f (VFloat FNan) = (f, VThrow m).
Proof. destruct (float_range_other k mn mx f FNan) as [([H _] & _)|(_ & E)]; [destruct mn as [|[]| |]; destruct H|]. eexists. exact E. Qed.

(** ** The validator for integers *)
Lemma truncate_spec x z : truncate x = Some z <-> (exists s, x = FZero s) /\ z = 0 \/ (exists s m e, x = FFin s m e) /\ cut_off (fvalue x) z.
Proof.
  assert (U : forall q z z', cut_off q z -> cut_off q z' -> z = z').
  { intros q a b [(P & A & B)|(P & A & B)] [(P' & A' & B')|(P' & A' & B')]; try lra.
    - assert (a < b + 1) by (rewrite Zlt_Qlt; lra). assert (b < a + 1) by (rewrite Zlt_Qlt; lra). lia.
    - assert (a - 1 < b) by (rewrite Zlt_Qlt; lra). assert (b - 1 < a) by (rewrite Zlt_Qlt; lra). lia. }
  destruct x as [s|s| |s m e]; cbn [truncate].
  - split; [intros [= <-]; left; eauto|intros [[_ ->]|[(? & ? & ? & E) _]]; [reflexivity|discriminate]].
  - split; [discriminate|intros [[(? & E) _]|[(? & ? & ? & E) _]]; discriminate].
  - split; [discriminate|intros [[(? & E) _]|[(? & ? & ? & E) _]]; discriminate].
  - pose proof (ratio_fraction 2 (Zpos m) e two) as F. destruct (fraction 2 (Zpos m) e) as [n d]. destruct F as (D & V & N). specialize (N ltac:(lia)).
    assert (C : cut_off (fvalue (FFin s m e)) (if s then - (n / d) else n / d)).
    { pose proof (Z.mod_pos_bound n d D) as R. pose proof (Z.div_mod n d ltac:(lia)) as Dm. pose proof (qz_pos d D) as Dq.
      assert (L : (qz (n / d) <= ratio n d)%Q) by (unfold ratio; apply Qle_shift_div_l; [exact Dq|]; rewrite <- inject_Z_mult, <- Zle_Qle; lia).
      assert (H : (ratio n d < qz (n / d + 1))%Q) by (unfold ratio; apply Qlt_shift_div_r; [exact Dq|]; rewrite <- inject_Z_mult, <- Zlt_Qlt; lia).
      pose proof (ratio_pos n d N D) as Pr. change (qz 2) with 2%Q in V. rewrite inject_Z_plus in H. change (qz 1) with 1%Q in H. set (r := ratio n d) in *. clearbody r.
      unfold cut_off. destruct s.
      - right. assert (E : (fvalue (FFin true m e) == - r)%Q) by (unfold fvalue; cbn [numerator]; rewrite V; change (qz (Zneg m)) with (qz (- Zpos m)); rewrite inject_Z_opp; ring).
        rewrite E. replace (- (n / d) - 1) with (- (n / d + 1)) by lia. rewrite !inject_Z_opp, inject_Z_plus. change (qz 1) with 1%Q. split; [lra|split; lra].
      - left. assert (E : (fvalue (FFin false m e) == r)%Q) by (unfold fvalue; cbn [numerator]; now rewrite V). rewrite E, inject_Z_plus. change (qz 1) with 1%Q. split; [lra|split; assumption]. }
    split.
    + intros [= <-]. right. eauto.
    + intros [[(? & E) _]|[_ C']]; [discriminate|]. f_equal. eapply U; eauto.
Qed.

Lemma truncate_none x : truncate x = None <-> x = FNan \/ exists s, x = FInf s.
Proof.
  destruct x as [s|s| |s m e]; cbn [truncate].
  - split; [discriminate|intros [?|[? ?]]; discriminate].
  - split; [eauto|reflexivity].
  - split; [auto|reflexivity].
  - destruct (fraction _ _ _). split; [discriminate|intros [?|[? ?]]; discriminate].
Qed.

Definition whole_part (x : fnum) (z : Z) : Prop := (exists s, x = FZero s) /\ z = 0 \/ (exists s m e, x = FFin s m e) /\ cut_off (fvalue x) z.

Lemma whole_unique x z z' : whole_part x z -> whole_part x z' -> z = z'.
Proof. intros A B. apply (proj2 (truncate_spec x z)) in A. apply (proj2 (truncate_spec x z')) in B. congruence. Qed.

Lemma cut_first_in sg bits g y z : whole_part y z -> in_type sg bits z -> cut_first sg bits g (VFloat y) = g (VInt z).
Proof.
  intros W I. cbn [cut_first]. rewrite (proj2 (truncate_spec y z) W). replace ((int_min sg bits <=? z) && (z <=? int_max sg bits)) with true; [reflexivity|]. symmetry.
  rewrite andb_true_iff, !Z.leb_le. unfold in_type, int_min, int_max in *. destruct sg; lia.
Qed.
Lemma cut_first_out sg bits g y : (forall z, whole_part y z -> ~ in_type sg bits z) -> cut_first sg bits g (VFloat y) = VUB.
Proof.
  intros H. cbn [cut_first]. destruct (truncate y) as [z|] eqn:E; [|reflexivity]. pose proof (H z (proj1 (truncate_spec y z) E)) as N. destruct ((int_min sg bits <=? z) && (z <=? int_max sg bits)) eqn:R; [|reflexivity].
  exfalso. apply N. rewrite andb_true_iff, !Z.leb_le in R. unfold in_type, int_min, int_max in *. destruct sg; lia.
Qed.

Lemma lift_elements g f x : lift_range (pure_validator g) f x = for_each (pure_validator g) f (elements x).
Proof. destruct x; try reflexivity; cbn [elements lift_range for_each]; unfold pure_validator; destruct (g _); reflexivity. Qed.

Lemma cut_first_lemma sg bits g f x ys zs : elements x = map VFloat ys -> Forall2 whole_part ys zs -> Forall (in_type sg bits) zs ->
  lift_range (pure_validator (cut_first sg bits g)) f x = lift_range (pure_validator g) f (VList (map VInt zs)).
Proof.
  intros Hx Hw Hi. rewrite !lift_elements, Hx. cbn [elements]. clear Hx x. induction Hw as [|y z ys zs W Hw IH]; [reflexivity|]. inversion_clear Hi. cbn [map for_each]. unfold pure_validator in *.
  rewrite (cut_first_in sg bits g y z) by assumption. destruct (g (VInt z)); auto.
Qed.

Lemma cut_range_lemma sg bits mn mx f x ys zs : (0 < bits)%N -> elements x = map VFloat ys -> Forall2 whole_part ys zs -> Forall (in_type sg bits) zs ->
  (Forall (within mn mx) zs /\ arithmetic_range_any sg bits mn mx f x = (f, VOk)) \/
  (exists l z l', zs = l ++ z :: l' /\ Forall (within mn mx) l /\ ~ within mn mx z /\ arithmetic_range_any sg bits mn mx f x =
     (f, VThrow ("Value " +s+ Z_to_string z +s+ " is not in range [" +s+ Z_to_string mn +s+ "," +s+ Z_to_string mx +s+ "]."))).
Proof.
  intros Hb Hx Hw Hi. unfold arithmetic_range_any. rewrite (floats_no_text x ys Hx), (cut_first_lemma sg bits _ f x ys zs Hx Hw Hi). exact (arithmetic_range_lemma sg bits mn mx f (VList (map VInt zs)) zs Hb eq_refl Hi).
Qed.

Lemma cut_list_lemma sg bits values f x ys zs : (0 < bits)%N -> Forall (in_type sg bits) values -> elements x = map VFloat ys -> Forall2 whole_part ys zs -> Forall (in_type sg bits) zs ->
  snd (value_list_any (TInt sg bits) (map VInt values) f x) = VOk <-> Forall (fun z => In z values) zs.
Proof.
  intros Hb Hv Hx Hw Hi. unfold value_list_any. cbn [as_range]. rewrite (floats_no_text x ys Hx), (cut_first_lemma sg bits _ f x ys zs Hx Hw Hi).
  assert (Ev : Forall (has_type (TInt sg bits)) (map VInt values)) by (rewrite Forall_map; exact Hv).
  assert (Ez : Forall (has_type (TInt sg bits)) (elements (VList (map VInt zs)))) by (cbn [elements]; rewrite Forall_map; exact Hi).
  assert (In_int : forall z, In (VInt z) (map VInt values) <-> In z values).
  { intros z. rewrite in_map_iff. split; [intros (w & [= <-] & H); exact H|eauto]. }
  destruct (value_list_lemma (TInt sg bits) (map VInt values) f (VList (map VInt zs)) Hb Ev Ez) as [[A E]|(l & v & l' & E1 & _ & N & E)]; unfold value_list_validator in E; cbn [as_range by_characters] in E; rewrite E; cbn [snd]; cbn [elements] in *.
  - split; [intros _|reflexivity]. rewrite Forall_map in A. rewrite Forall_forall in *. intros z Z. apply In_int. now apply A.
  - split; [discriminate|]. intros H. exfalso. apply N. assert (Hin : In v (map VInt zs)) by (rewrite E1; apply in_or_app; right; now left). apply in_map_iff in Hin as (z & <- & Hz). apply In_int. rewrite Forall_forall in H. now apply H.
Qed.

(** undefined behaviour *)
Lemma cut_undefined_lemma sg bits g f x l y l' : elements x = map VFloat l ++ VFloat y :: l' -> (forall z, whole_part y z -> ~ in_type sg bits z) ->
  Forall (fun y => exists z, whole_part y z /\ in_type sg bits z /\ g (VInt z) = VOk) l -> lift_range (pure_validator (cut_first sg bits g)) f x = (f, VUB).
Proof.
  intros Hx Hy Hl. rewrite lift_elements, Hx. clear Hx x. induction l as [|a l IH]; cbn [map app for_each]; unfold pure_validator in *.
  - now rewrite (cut_first_out sg bits g y Hy).
  - inversion_clear Hl as [|? ? (z & W & I & G) Hl']. rewrite (cut_first_in sg bits g a z W I), G. now apply IH.
Qed.

(** ** Lists of floating point values *)
Definition same_number (x y : fnum) : Prop := float_le x y /\ float_le y x.
Lemma feqb_spec x y : feqb x y = true <-> same_number x y.
Proof. unfold feqb, same_number. now rewrite andb_true_iff, !fleb_spec. Qed.

Lemma float_list1_spec k values y : (Exists (same_number (to_kind k y)) values /\ float_list1 k values (VFloat y) = VOk) \/
  (~ Exists (same_number (to_kind k y)) values /\ float_list1 k values (VFloat y) =
     VThrow ("Value " +s+ print_g (to_kind k y) +s+ " is not one of " +s+ bracket (map print_g values) +s+ ".")).
Proof.
  unfold float_list1. cbn [promote]. destruct (existsb (feqb (to_kind k y)) values) eqn:E.
  - left. split; [|reflexivity]. apply existsb_exists in E as (w & I & E). apply Exists_exists. exists w. split; [exact I|]. now apply feqb_spec.
  - right. split; [|reflexivity]. intros H. apply Exists_exists in H as (w & I & H). apply feqb_spec in H. assert (existsb (feqb (to_kind k y)) values = true); [|congruence]. apply existsb_exists. eauto.
Qed.

Lemma float_list_lemma k values f x ys : elements x = map VFloat ys ->
  let listed y := Exists (same_number (to_kind k y)) values in
  (Forall listed ys /\ float_list_validator k values f x = (f, VOk)) \/
  (exists l y l', ys = l ++ y :: l' /\ Forall listed l /\ ~ listed y /\
     float_list_validator k values f x = (f, VThrow ("Value " +s+ print_g (to_kind k y) +s+ " is not one of " +s+ bracket (map print_g values) +s+ "."))).
Proof.
  intros Hx listed. unfold float_list_validator. rewrite (floats_no_text x ys Hx), lift_elements, Hx. clear Hx x. induction ys as [|y ys IH]; [left; split; [constructor|reflexivity]|]. cbn [map for_each]. unfold pure_validator in *.
  destruct (float_list1_spec k values y) as [(L & ->)|(L & ->)].
  - destruct IH as [(A & ->)|(l & z & l' & -> & A & B & ->)]; [left; split; [constructor; auto|reflexivity]|]. right. exists (y :: l), z, l'. repeat split; auto.
  - right. exists [], y, ys. repeat split; auto.
Qed.

(** ** Out of range *)
Lemma out_of_range_lemma k nm mn mx old s : parse_elem (float_ty k nm mn mx) old s = POk old POverflow <->
  exists p neg m, longest s p /\ float_text p (neg, m) /\ mag_finite m /\ (0 < mag_value m)%Q /\ (too_large k (mag_value m) \/ too_small k (mag_value m)).
Proof.
  unfold float_ty. rewrite float_overflow. split.
  - intros (p & [neg m] & v & L & T & R). exists p, neg, m. split; [exact L|]. split; [exact T|].
    assert (F : finite_mag m = true) by (unfold ieee_round in R; injection R as _ R; cbn [snd] in R; now apply andb_true_iff in R as [R _]).
    assert (M : mag_finite m /\ (0 < mag_value m)%Q).
    { destruct m as [[|z|z] e|[|z|z] e| |]; try discriminate F; (split; [exact Logic.I|]); cbn [mag_value]; (apply Qmult_lt_0_compat; [reflexivity|]); [apply p10_pos|apply p2_pos]. }
    destruct M as [M P]. split; [exact M|]. split; [exact P|]. destruct (round_lemma k neg m M P) as [(A & _)|[(_ & A & _)|(_ & _ & a & e & E & _)]]; auto. rewrite E in R. discriminate.
  - intros (p & neg & m & L & T & M & P & C). destruct (round_lemma k neg m M P) as [(A & E)|[(_ & A & E)|(A & B & _)]]; [exists p, (neg, m); eauto|exists p, (neg, m); eauto|]. destruct C; contradiction.
Qed.

(** ** Values of other types *)
Definition as_kind (k : fkind) (v : val) : fnum := match v with VFloat y => to_kind k y | VInt z => of_int k z | _ => FNan end.

Lemma becomes_wd k neg x x' y : (x == x')%Q -> becomes k neg x y -> becomes k neg x' y.
Proof.
  intros E. assert (E' : (x' == x)%Q) by now symmetry. intros [(A & B)|[(A & B & C)|(A & B & m & e & C & D)]].
  - left. split; [exact (too_large_wd k x x' E A)|exact B].
  - right. left. split; [intros H; apply A; exact (too_large_wd k x' x E' H)|]. split; [exact (too_small_wd k x x' E B)|exact C].
  - right. right. split; [intros H; apply A; exact (too_large_wd k x' x E' H)|]. split; [intros H; apply B; exact (too_small_wd k x' x E' H)|]. exists m, e. split; [exact C|exact (rounds_wd k x x' _ E D)].
Qed.
Lemma ieee_becomes k neg n d : 0 < n -> 0 < d -> becomes k neg (ratio n d) (ieee k neg n d).
Proof.
  intros N D. destruct (ieee_cases k neg n d N D) as [H|[H|(A & B & m & e & C & R & _)]]; [left; exact H|right; left; exact H|right; right]. split; [exact A|]. split; [exact B|]. exists m, e. auto.
Qed.
Lemma as_kind_converts k v : is_number v -> converts k v (as_kind k v).
Proof.
  destruct v; try contradiction; intros _.
  - assert (R : forall m, (ratio (Zpos m) 1 == qz (Zpos m))%Q) by (intros m; unfold ratio; unfold Qeq; cbn; lia).
    destruct z as [|m|m]; cbn [converts as_kind of_int]; [reflexivity|..]; (eapply becomes_wd; [apply R|]; apply ieee_becomes; lia).
  - destruct x as [s|s| |s m e]; cbn [converts as_kind to_kind]; try reflexivity. pose proof (ratio_fraction 2 (Zpos m) e ltac:(lia)) as F. destruct (fraction 2 (Zpos m) e) as [n d]. destruct F as (D & V & N).
    eapply becomes_wd; [exact V|]. apply ieee_becomes; [apply N|]; lia.
Qed.

Lemma range1_number k mn mx v : is_number v -> (float_within mn mx (as_kind k v) /\ float_range1 k mn mx v = VOk) \/
  (~ float_within mn mx (as_kind k v) /\ float_range1 k mn mx v = VThrow (float_msg mn mx (as_kind k v))).
Proof.
  intros N. assert (E : float_range1 k mn mx v = if negb (fleb (as_kind k v) mx && fleb mn (as_kind k v)) then VThrow ("Value " +s+ print_f (as_kind k v) +s+ " is not in range " +s+ float_range_str mn mx +s+ ".") else VOk).
  { destruct v; try contradiction; reflexivity. }
  rewrite E. clear E. set (y := as_kind k v). clearbody y. pose proof (fleb_spec y mx) as A. pose proof (fleb_spec mn y) as B. destruct (fleb y mx), (fleb mn y); cbn [andb negb].
  1: left; split; [split; [now apply B|now apply A]|reflexivity].
  all: right; split; [intros [H1 H2]; apply A in H2; apply B in H1; discriminate|]; unfold float_range_str, float_msg; rewrite ?app_assoc_s; reflexivity.
Qed.
Lemma list1_number k values v : is_number v -> (Exists (same_number (as_kind k v)) values /\ float_list1 k values v = VOk) \/
  (~ Exists (same_number (as_kind k v)) values /\ float_list1 k values v =
     VThrow ("Value " +s+ print_g (as_kind k v) +s+ " is not one of " +s+ bracket (map print_g values) +s+ ".")).
Proof.
  intros N. assert (E : float_list1 k values v = if existsb (feqb (as_kind k v)) values then VOk else VThrow ("Value " +s+ print_g (as_kind k v) +s+ " is not one of " +s+ bracket (map print_g values) +s+ ".")).
  { destruct v; try contradiction; reflexivity. }
  rewrite E. clear E. set (y := as_kind k v). clearbody y. destruct (existsb (feqb y) values) eqn:E.
  - left. split; [|reflexivity]. apply existsb_exists in E as (w & I & E). apply Exists_exists. exists w. split; [exact I|]. now apply feqb_spec.
  - right. split; [|reflexivity]. intros H. apply Exists_exists in H as (w & I & H). apply feqb_spec in H. assert (existsb (feqb y) values = true); [|congruence]. apply existsb_exists. eauto.
Qed.

Lemma each_number k (P : fnum -> Prop) g (msg : fnum -> string) f x :
  (forall v, is_number v -> (P (as_kind k v) /\ g v = VOk) \/ (~ P (as_kind k v) /\ g v = VThrow (msg (as_kind k v)))) -> Forall is_number (elements x) ->
  exists ys, Forall2 (converts k) (elements x) ys /\
   ((Forall P ys /\ lift_range (pure_validator g) f x = (f, VOk)) \/
    (exists l y l', ys = l ++ y :: l' /\ Forall P l /\ ~ P y /\ lift_range (pure_validator g) f x = (f, VThrow (msg y)))).
Proof.
  intros H N. rewrite lift_elements. induction N as [|v vs Nv N IH]; [exists []; split; [constructor|left; split; [constructor|reflexivity]]|].
  destruct IH as (ys & C & IH). exists (as_kind k v :: ys). split; [constructor; [now apply as_kind_converts|exact C]|]. cbn [for_each]. unfold pure_validator at 1 3.
  destruct (H v Nv) as [(A & E)|(A & E)]; rewrite E.
  - destruct IH as [(B & R)|(l & y & l' & -> & B & D & R)]; [left; split; [constructor; auto|exact R]|]. right. exists (as_kind k v :: l), y, l'. split; [reflexivity|]. auto.
  - right. exists [], (as_kind k v), ys. repeat split; auto.
Qed.

Lemma numbers_only x : Forall is_number (elements x) -> by_characters x = x.
Proof. destruct x; try reflexivity. intros H. inversion_clear H. contradiction. Qed.

Lemma converted_range_lemma k mn mx f x : Forall is_number (elements x) -> exists ys, Forall2 (converts k) (elements x) ys /\
  ((Forall (float_within mn mx) ys /\ float_range_validator k mn mx f x = (f, VOk)) \/
   (exists l y l', ys = l ++ y :: l' /\ Forall (float_within mn mx) l /\ ~ float_within mn mx y /\
      float_range_validator k mn mx f x = (f, VThrow ("Value " +s+ print_f y +s+ " is not in range [" +s+ print_f mn +s+ "," +s+ print_f mx +s+ "].")))).
Proof. intros N. unfold float_range_validator. rewrite (numbers_only x N). revert N. apply (each_number k (float_within mn mx) (float_range1 k mn mx) (float_msg mn mx)). apply range1_number. Qed.
Lemma converted_list_lemma k values f x : Forall is_number (elements x) -> exists ys, Forall2 (converts k) (elements x) ys /\
  let listed y := Exists (same_number y) values in
  ((Forall listed ys /\ float_list_validator k values f x = (f, VOk)) \/
   (exists l y l', ys = l ++ y :: l' /\ Forall listed l /\ ~ listed y /\
      float_list_validator k values f x = (f, VThrow ("Value " +s+ print_g y +s+ " is not one of " +s+ bracket (map print_g values) +s+ ".")))).
Proof.
  intros N. unfold float_list_validator. rewrite (numbers_only x N). revert N.
  apply (each_number k (fun y => Exists (same_number y) values) (float_list1 k values) (fun y => "Value " +s+ print_g y +s+ " is not one of " +s+ bracket (map print_g values) +s+ ".")). apply list1_number.
Qed.

(** integers of at most as many bits as the mantissa are not changed *)
Lemma small_integers k z y : Z.abs z <= 2 ^ bits k -> converts k (VInt z) y -> (fvalue y == qz z)%Q /\ (exists s, y = FZero s) \/ (fvalue y == qz z)%Q /\ (exists s m e, y = FFin s m e).
Proof.
  intros B. assert (K : forall m neg, Zpos m <= 2 ^ bits k -> becomes k neg (qz (Zpos m)) y -> exists a e, y = FFin neg a e /\ (qz (Zpos a) * p2 e == qz (Zpos m))%Q).
  { clear z B. intros m neg B H. destruct (format_ok k) as (_ & L & B24 & R).
    assert (G : grid k (qz (Zpos m))).
    { destruct (Z.eq_dec (Zpos m) (2 ^ bits k)) as [E|E].
      - exists (2 ^ (bits k - 1)), 1. split; [split; [apply Z.pow_nonneg; lia|apply Z.pow_lt_mono_r; lia]|]. split; [destruct k; vm_compute; congruence|]. rewrite E. rewrite (p2_Z (bits k)), (p2_Z (bits k - 1)), <- p2_add by lia. now replace (bits k - 1 + 1) with (bits k) by lia.
      - exists (Zpos m), 0. split; [lia|]. split; [destruct k; vm_compute; congruence|]. change (p2 0) with 1%Q. ring. }
    assert (P1 : (1 <= qz (Zpos m))%Q) by (change 1%Q with (qz 1); rewrite <- Zle_Qle; lia). assert (P2 : (qz (Zpos m) <= p2 (bits k))%Q) by (rewrite <- (p2_Z (bits k)) by lia; rewrite <- Zle_Qle; exact B).
    destruct H as [(A & _)|[(_ & A & _)|(_ & _ & a & e & -> & (_ & H & _))]].
    - exfalso. unfold too_large in A. assert (p2 (bits k) < p2 (top k) - p2 (top k - bits k - 1))%Q; [|lra]. destruct k; vm_compute; reflexivity.
    - exfalso. unfold too_small in A. assert (p2 (least k - 1) < 1)%Q; [|lra]. destruct k; vm_compute; reflexivity.
    - exists a, e. split; [reflexivity|]. specialize (H _ G). assert (Z0 : (qz (Zpos m) - qz (Zpos m) == 0)%Q) by ring. rewrite Z0 in H. change (Qabs 0) with 0%Q in H. apply abs_cases in H as [H1 H2]. lra. }
  destruct z as [|m|m]; cbn [converts].
  - intros ->. left. split; [reflexivity|eauto].
  - intros H. destruct (K m false B H) as (a & e & -> & V). right. split; [exact V|eauto].
  - intros H. destruct (K m true B H) as (a & e & -> & V). right. split; [|eauto]. cbn [fvalue numerator]. change (Zneg a) with (- Zpos a). change (Zneg m) with (- Zpos m). rewrite !inject_Z_opp. rewrite <- V. ring.
Qed.
