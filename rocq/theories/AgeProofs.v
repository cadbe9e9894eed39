From Coq Require Import QArith Qabs Lqa.
From Verif Require Import Base StrLib FloatNum Values Validators ValuesSpec ValuesProofs Charconv FloatSpec FloatProofs ShimProofs Ieee FloatNumProofs FloatDigits FloatText FloatRoundSpec FloatRound FloatBack FloatRange
  VersionCheck VersionSpec Age AgeSpec.
Local Open Scope Z_scope.

(** ** Difference *)
Lemma shift_value x k : (match x with FFin _ _ _ | FZero _ => True | _ => False end) -> k <= exponent x -> (fvalue x == qz (numerator x * 2 ^ (exponent x - k)) * p2 k)%Q.
Proof. exact (shifted x k). Qed.

Definition finite (x : fnum) : Prop := match x with FFin _ _ _ | FZero _ => True | _ => False end.

(** what comes of an exact number with a sign *)
Definition rounded (k : fkind) (x : Q) (y : fnum) : Prop :=
  ((x == 0)%Q /\ exists s, y = FZero s) \/ ((0 < x)%Q /\ becomes k false x y) \/ ((x < 0)%Q /\ becomes k true (- x) y).

Lemma fsub_spec k x y : finite x -> finite y -> rounded k (fvalue x - fvalue y) (fsub k x y).
Proof.
  intros Fx Fy. set (u := Z.min (exponent x) (exponent y)). pose proof (shift_value x u Fx ltac:(lia)) as Vx. pose proof (shift_value y u Fy ltac:(lia)) as Vy.
  set (z := numerator x * 2 ^ (exponent x - u) - numerator y * 2 ^ (exponent y - u)). assert (V : (fvalue x - fvalue y == qz z * p2 u)%Q).
  { rewrite Vx, Vy. unfold z. unfold Zminus. rewrite inject_Z_plus, inject_Z_opp. ring. }
  assert (E : fsub k x y = match z with
      | Z0 => FZero (match x, y with FZero true, FZero false => true | _, _ => false end)
      | Zpos m => let '(n, d) := fraction 2 (Zpos m) u in ieee k false n d
      | Zneg m => let '(n, d) := fraction 2 (Zpos m) u in ieee k true n d end).
  { destruct x as [a|a| |a m e], y as [b|b| |b m' e']; try contradiction; reflexivity. }
  rewrite E. clearbody z. pose proof (p2_pos u) as P. destruct z as [|m|m].
  - left. split; [rewrite V; change (qz 0) with 0%Q; ring|eauto].
  - right. left. assert (0 < qz (Zpos m))%Q by (apply qz_pos; lia). assert (0 < qz (Zpos m) * p2 u)%Q by (apply Qmult_lt_0_compat; assumption). split; [lra|].
    pose proof (ratio_fraction 2 (Zpos m) u ltac:(lia)) as F. destruct (fraction 2 (Zpos m) u) as [n d]. destruct F as (D & Vf & N). eapply becomes_wd; [|apply ieee_becomes; [apply N; lia|exact D]]. rewrite V. exact Vf.
  - right. right. assert (0 < qz (Zpos m))%Q by (apply qz_pos; lia). assert (0 < qz (Zpos m) * p2 u)%Q by (apply Qmult_lt_0_compat; assumption).
    assert (V' : (fvalue x - fvalue y == - (qz (Zpos m) * p2 u))%Q) by (rewrite V; change (Zneg m) with (- Zpos m); rewrite inject_Z_opp; ring). split; [lra|].
    pose proof (ratio_fraction 2 (Zpos m) u ltac:(lia)) as F. destruct (fraction 2 (Zpos m) u) as [n d]. destruct F as (D & Vf & N). eapply becomes_wd; [|apply ieee_becomes; [apply N; lia|exact D]].
    rewrite V'. rewrite Vf. change (qz 2 ^ u)%Q with (p2 u). ring.
Qed.

Lemma fltb_spec x y : fltb x y = true <-> float_le x y /\ ~ float_le y x.
Proof. unfold fltb. rewrite andb_true_iff, negb_true_iff, fleb_spec. pose proof (fleb_spec y x) as H. destruct (fleb y x); split; intros [A B]; split; auto; try discriminate; try (intros C; apply H in C; discriminate). exfalso. now apply B, H. Qed.

(** ** One day *)
Definition day : fnum := of_int F64 86400.
Lemma day_value : (fvalue day == 86400)%Q.
Proof. vm_compute. reflexivity. Qed.
Lemma day_finite : exists m e, day = FFin false m e.
Proof. exists 675%positive, 7. vm_compute. reflexivity. Qed.
(** the number before *)
Definition before : Q := (86400 - p2 (-36))%Q.

Lemma day_grid : grid F64 86400.
Proof. exists 86400, 0. split; [vm_compute; split; congruence|]. split; [vm_compute; congruence|]. vm_compute. reflexivity. Qed.
Lemma before_grid : grid F64 before.
Proof. exists (86400 * 2 ^ 36 - 1), (-36). split; [vm_compute; split; congruence|]. split; [vm_compute; congruence|]. vm_compute. reflexivity. Qed.
(** multiples of 2^-36 *)
Lemma fine_grid m e : 0 <= m < 2 ^ 53 -> (65536 <= qz m * p2 e)%Q -> -36 <= e.
Proof.
  intros M L. destruct (Z.le_gt_cases (-36) e) as [H|H]; [exact H|exfalso]. assert (A : (qz m < p2 53)%Q) by (rewrite <- (p2_Z 53) by lia; rewrite <- Zlt_Qlt; lia).
  assert (B : (p2 e <= p2 (-37))%Q) by (apply p2_le; lia). assert (C : (qz m * p2 e < p2 53 * p2 (-37))%Q).
  { apply Qlt_le_trans with (p2 53 * p2 e)%Q; [apply Qmult_lt_r; [apply p2_pos|exact A]|]. rewrite (Qmult_comm (p2 53) (p2 e)), (Qmult_comm (p2 53) (p2 (-37))). apply Qmult_le_compat_r; [exact B|vm_compute; congruence]. }
  assert (D : (p2 53 * p2 (-37) == 65536)%Q) by (vm_compute; reflexivity). rewrite D in C. lra.
Qed.
Lemma gap y : grid F64 y -> (y < 86400)%Q -> (y <= before)%Q.
Proof.
  intros (m & e & M & _ & Y) L. destruct (Qlt_le_dec y 65536) as [H|H].
  - unfold before. assert (p2 (-36) <= 1)%Q by (vm_compute; congruence). lra.
  - rewrite Y in H, L |- *. pose proof (fine_grid m e M H) as E. assert (V : (qz m * p2 e == qz (m * 2 ^ (e + 36)) * p2 (-36))%Q).
    { rewrite inject_Z_mult, (p2_Z (e + 36)) by lia. rewrite <- Qmult_assoc, <- p2_add. replace (e + 36 + -36) with e by lia. reflexivity. }
    rewrite V in L |- *. set (z := m * 2 ^ (e + 36)) in *. clearbody z. assert (D : (86400 == qz (86400 * 2 ^ 36) * p2 (-36))%Q) by (vm_compute; reflexivity).
    assert (B : (before == qz (86400 * 2 ^ 36 - 1) * p2 (-36))%Q) by (vm_compute; reflexivity). rewrite D in L. rewrite B. apply Qmult_lt_r in L; [|apply p2_pos]. apply Qmult_le_compat_r; [|vm_compute; congruence].
    rewrite <- Zlt_Qlt in L. rewrite <- Zle_Qle. lia.
Qed.
Lemma before_odd : ~ grid_even F64 before.
Proof.
  intros (m & e & M & _ & N & V & Ev). change (bits F64) with 53 in *. change (least F64) with (-1074) in *.
  assert (L : (65536 <= qz m * p2 e)%Q) by (rewrite <- V; vm_compute; congruence). pose proof (fine_grid m e M L) as E.
  assert (B : (before == qz (86400 * 2 ^ 36 - 1) * p2 (-36))%Q) by (vm_compute; reflexivity).
  assert (V' : (qz m * p2 e == qz (m * 2 ^ (e + 36)) * p2 (-36))%Q).
  { rewrite inject_Z_mult, (p2_Z (e + 36)) by lia. rewrite <- Qmult_assoc, <- p2_add. replace (e + 36 + -36) with e by lia. reflexivity. }
  rewrite V' in V. rewrite B in V. assert (W : (qz (86400 * 2 ^ 36 - 1) == qz (m * 2 ^ (e + 36)))%Q) by (apply (Qmult_inj_r _ _ (p2 (-36))); [vm_compute; congruence|exact V]).
  apply (proj1 (inject_Z_injective _ _)) in W. assert (O : Z.even (86400 * 2 ^ 36 - 1) = false) by (vm_compute; reflexivity). rewrite W, Z.even_mul, Ev in O. discriminate.
Qed.

(** which exact ages count as less than a day *)
Lemma day_rounded x y : rounded F64 x y -> (fltb y day = true <-> (x < middle)%Q).
Proof.
  intros R. assert (MP : (0 < middle)%Q) by (vm_compute; reflexivity). destruct day_finite as (a & e & Dv). pose proof day_value as DV.
  assert (Fin : forall s m f, fltb (FFin s m f) day = true <-> (fvalue (FFin s m f) < 86400)%Q).
  { intros s m f. rewrite fltb_spec. rewrite Dv in *. cbn [float_le]. rewrite DV. split; [intros [_ H]; now apply Qnot_le_lt|intros H; split; [lra|intros C; lra]]. }
  destruct R as [(X & s & ->)|[(X & B)|(X & B)]].
  - split; [intros _; lra|intros _]. destruct s; vm_compute; reflexivity.
  - destruct B as [(T & ->)|[(_ & T & ->)|(_ & _ & m & f & -> & (G & N & Ti))]].
    + split; [rewrite fltb_spec, Dv; intros [[] _]|]. intros L. exfalso. unfold too_large in T. assert (middle < p2 (top F64) - p2 (top F64 - bits F64 - 1))%Q by (vm_compute; reflexivity). lra.
    + split; [intros _; unfold too_small in T; assert (p2 (least F64 - 1) < middle)%Q by (vm_compute; reflexivity); lra|intros _; vm_compute; reflexivity].
    + rewrite Fin. assert (V : (fvalue (FFin false m f) == qz (Zpos m) * p2 f)%Q) by (cbn [fvalue numerator]; reflexivity). rewrite V. set (v := (qz (Zpos m) * p2 f)%Q) in *. clearbody v.
      assert (PE : (middle == before + p2 (-37))%Q /\ (86400 == middle + p2 (-37))%Q /\ (0 < p2 (-37))%Q) by (split; [|split]; vm_compute; reflexivity). destruct PE as (PE & PE2 & PE3).
      split; intros L.
      * apply Qnot_le_lt. intros C. pose proof (gap v G L) as Gv. pose proof (N _ day_grid) as D. destruct (Qlt_le_dec x 86400) as [H|H].
        -- assert (A1 : (Qabs (x - 86400) == 86400 - x)%Q) by (rewrite Qabs_neg by lra; ring). assert (A2 : (Qabs (x - v) == x - v)%Q) by (rewrite Qabs_pos by lra; ring). rewrite A1, A2 in D.
           assert (Ve : (v == before)%Q) by lra. assert (NE : ~ (86400 == v)%Q) by lra. apply before_odd. assert (T : (Qabs (x - v) == Qabs (x - 86400))%Q) by (rewrite A1, A2; lra).
           destruct (Ti _ day_grid NE T) as (m1 & e1 & H1 & H2 & H3 & H4 & H5). exists m1, e1. rewrite <- Ve. auto.
        -- rewrite (Qabs_pos (x - 86400)) in D by lra. rewrite (Qabs_pos (x - v)) in D by lra. lra.
      * apply Qnot_le_lt. intros C. pose proof (N _ before_grid) as D. rewrite (Qabs_neg (x - v)) in D by lra. destruct (Qlt_le_dec x before) as [H|H].
        -- rewrite (Qabs_neg (x - before)) in D by lra. lra.
        -- rewrite (Qabs_pos (x - before)) in D by lra. lra.
  - split; [intros _; lra|intros _]. destruct B as [(T & ->)|[(_ & T & ->)|(_ & _ & m & f & -> & _)]]; try (vm_compute; reflexivity).
    apply Fin. cbn [fvalue numerator]. change (Zneg m) with (- Zpos m). rewrite inject_Z_opp. assert (0 < qz (Zpos m) * p2 f)%Q by (apply Qmult_lt_0_compat; [apply qz_pos; lia|apply p2_pos]). lra.
Qed.

(** ** The stored time *)

Lemma read_stands line : stands_for line (time_read (std_from_chars ieee_round F64 line)).
Proof.
  unfold std_from_chars. destruct (std_scan line) as [[x rest]|] eqn:E.
  - apply std_longest in E as (p & -> & T & L). destruct (ieee_round F64 x) as [v out] eqn:R. assert (V : exists d, v = VFloat d) by (unfold ieee_round in R; injection R as <- _; eauto). destruct V as (d & ->).
    destruct out; cbn [time_read].
    + right. split; [reflexivity|]. intros p' x' L' T'. destruct L' as ((r2 & E2) & L').
      assert (S : std_scan (p +s+ rest) = Some (x', r2)) by (apply std_longest; exists p'; split; [exact E2|]; split; [exact T'|]; split; [eauto|exact L']).
      assert (S' : std_scan (p +s+ rest) = Some (x, rest)) by (apply std_longest; exists p; auto). rewrite S in S'. injection S' as -> _. now rewrite R.
    + left. exists p, x. auto.
  - right. split; [reflexivity|]. intros p x L T. exfalso. assert (exists x r, std_scan line = Some (x, r)) as (x' & r & H); [|congruence].
    destruct L as ((r & ->) & _ & M). destruct (std_complete p x r T) as (x' & r' & H & _). eauto.
Qed.

Lemma now_finite now : Z.abs now <= 2 ^ 53 -> finite (of_int F64 now) /\ (fvalue (of_int F64 now) == qz now)%Q.
Proof.
  intros H. destruct (small_integers F64 now (of_int F64 now) H) as [(V & s & E)|(V & s & m & e & E)]; [exact (as_kind_converts F64 (VInt now) Logic.I)|..]; split; try exact V; rewrite E; exact Logic.I.
Qed.

Lemma recent_number read line now : Z.abs now <= 2 ^ 53 -> recent read line now = true <-> younger now (time_read (read line)).
Proof.
  intros H. destruct (now_finite now H) as (F & V). unfold recent, time_diff. fold day. set (c := of_int F64 now) in *. clearbody c. set (d := time_read (read line)). clearbody d.
  assert (Fin : finite d -> fltb (fsub F64 c d) day = true <-> (qz now - fvalue d < middle)%Q).
  { intros Fd. rewrite <- V. apply day_rounded. now apply fsub_spec. }
  destruct d as [s|s| |s m e]; cbn [younger].
  - apply Fin. exact Logic.I.
  - destruct c; try contradiction; destruct s; vm_compute; split; congruence.
  - destruct c; try contradiction; vm_compute; split; intros; try discriminate; contradiction.
  - apply Fin. exact Logic.I.
Qed.

Lemma library_recent_lemma line now : Z.abs now <= 2 ^ 53 -> exists d, stands_for line d /\ (library_recent line now = true <-> younger now d).
Proof. intros H. exists (time_read (std_from_chars ieee_round F64 line)). split; [apply read_stands|]. now apply recent_number. Qed.

(** ** Times written by the code *)
Lemma Z_digits t : 0 <= t -> digits (Z_to_string t) /\ weight (Z_to_string t) = t.
Proof.
  intros H. pose proof (Z_to_string_numeral false t ltac:(right; lia)) as N. remember (Z_to_string t) as s eqn:Es. clear Es. destruct N as [s D|s D _]; [split; [exact D|reflexivity]|discriminate].
Qed.
Lemma z_text t : 0 <= t -> float_text (Z_to_string t) (false, Dec t 0).
Proof.
  intros H. destruct (Z_digits t H) as (D & W). assert (U : unsigned_text (Z_to_string t +s+ "") (Dec (weight (Z_to_string t)) (0 - Z.of_nat 0))) by (apply text_number; [apply mantissa_whole; exact D|constructor]).
  rewrite app_nil_r_s, W in U. now constructor.
Qed.
Lemma z_round t : 0 <= t <= 2 ^ 53 -> ieee_round F64 (false, Dec t 0) = (VFloat (of_int F64 t), false).
Proof.
  intros H. destruct t as [|m|m]; [reflexivity| |lia]. unfold ieee_round. assert (E : round_exact F64 (false, Dec (Zpos m) 0) = of_int F64 (Zpos m)).
  { cbn [round_exact of_int]. unfold fraction. change (0 <=? 0) with true. cbv iota. change (10 ^ 0) with 1. now rewrite Z.mul_1_r. }
  rewrite E. f_equal. destruct (small_integers F64 (Zpos m) (of_int F64 (Zpos m)) ltac:(exact (proj2 H)) (as_kind_converts F64 (VInt (Zpos m)) Logic.I)) as [(V & s & K)|(V & s & a & e & K)]; rewrite K in *; [|reflexivity].
  exfalso. cbn [fvalue] in V. assert (0 < qz (Zpos m))%Q by (apply qz_pos; lia). lra.
Qed.
Lemma z_read t : 0 <= t <= 2 ^ 53 -> std_from_chars ieee_round F64 (Z_to_string t) = FcOk (VFloat (of_int F64 t)) "".
Proof. intros H. unfold std_from_chars. rewrite (proj2 (std_whole _ _) (z_text t ltac:(lia))). now rewrite z_round. Qed.

Lemma whole_day a : (qz a < middle)%Q <-> a < 86400.
Proof.
  split; intros H.
  - rewrite Zlt_Qlt. apply Qlt_trans with middle; [exact H|vm_compute; reflexivity].
  - apply Qle_lt_trans with (qz 86399); [rewrite <- Zle_Qle; lia|vm_compute; reflexivity].
Qed.
Lemma finite_younger now d : finite d -> younger now d <-> (qz now - fvalue d < middle)%Q.
Proof. destruct d; try contradiction; reflexivity. Qed.

Lemma library_clock : clock_ok library_recent.
Proof.
  intros t now Ht Hn. apply Bool.eq_iff_eq_true. unfold library_recent. rewrite (recent_number _ (Z_to_string t) now) by lia. rewrite z_read by lia. cbn [time_read].
  destruct (now_finite t ltac:(lia)) as (F & V). rewrite (finite_younger now _ F), V, Z.ltb_lt, <- whole_day. unfold Zminus. rewrite inject_Z_plus, inject_Z_opp. reflexivity.
Qed.

(** ** The replacement *)
Lemma digits_no_space s : digits s -> forall c q, s = String c q -> is_space c = false.
Proof. intros [_ D] c q ->. cbn in D. apply andb_prop in D as [D _]. clear -D. destruct c as [[] [] [] [] [] [] [] []]; try reflexivity; discriminate D. Qed.
Lemma digits_no_hex s : digits s -> ~ hex_prefixed s.
Proof.
  intros [_ D] (sg & z & c & q & Hsg & Hz & _ & H). destruct z as [|a [|b [|? ?]]]; try discriminate Hz. change ([to_lower a; to_lower b] = ["0"; "x"]%char) in Hz. injection Hz as Ha Hb.
  assert (K : is_digit b = false) by (clear -Hb; destruct b as [[] [] [] [] [] [] [] []]; try reflexivity; discriminate Hb).
  destruct Hsg as [->| ->]; destruct H as [H|H]; subst s; cbn in D; rewrite ?K, ?andb_false_r in D; try discriminate D; apply andb_prop in D as [D _]; discriminate D.
Qed.
Lemma digits_no_nul s : digits s -> no_nul s.
Proof. intros [_ D]. unfold no_nul. revert D. induction s as [|c s IH]; [reflexivity|]. cbn. intros H. apply andb_prop in H as [H1 H2]. rewrite IH by exact H2. rewrite andb_true_r. clear -H1. destruct c as [[] [] [] [] [] [] [] []]; try reflexivity; discriminate H1. Qed.

Lemma shim_time t : 0 <= t <= 2 ^ 53 -> time_read (snd (shim_read ieee_round ieee_through_float F64 (Z_to_string t) false)) = to_kind F32 (of_int F64 t).
Proof.
  intros H. destruct (Z_digits t ltac:(lia)) as (D & _). set (s := Z_to_string t) in *. pose proof (proj2 (std_whole _ _) (z_text t ltac:(lia))) as S. fold s in S.
  assert (P : after_char "+" s = None). { destruct D as [N D]. destruct s as [|c s']; [reflexivity|]. cbn in D. apply andb_prop in D as [D _]. unfold after_char. destruct (Ascii.eqb_spec "+" c) as [<-|]; [discriminate D|reflexivity]. }
  assert (C : c_string s = s) by (unfold c_string; rewrite span_all; [reflexivity|exact (digits_no_nul s D)]).
  unfold shim_read, shim_from_chars. rewrite (proj2 (after_plus s) P). cbn [exponent_check]. rewrite shim_start_general, C. rewrite (strto_same s (digits_no_space s D) (digits_no_hex s D) P), S, (z_round t H). cbn [orb snd time_read].
  destruct (now_finite t ltac:(lia)) as (F & _). destruct (of_int F64 t) as [| | |neg m e]; try contradiction; [reflexivity|]. cbn [ieee_through_float to_kind]. unfold ieee_round. cbn [fst round_exact time_read]. reflexivity.
Qed.
Lemma shim_errno_time s : time_read (snd (shim_read ieee_round ieee_through_float F64 s true)) = FZero false.
Proof. rewrite shim_stale. destruct (after_char "+" s); reflexivity. Qed.

(** a float is that close *)
Lemma float_close t j : 0 < t -> 1 <= j <= 29 -> t < 2 ^ (24 + j) -> exists y, to_kind F32 (of_int F64 t) = y /\ finite y /\ (Qabs (qz t - fvalue y) <= p2 (j - 1))%Q.
Proof.
  intros T J L. assert (B : t <= 2 ^ 53) by (assert (2 ^ (24 + j) <= 2 ^ 53) by (apply Z.pow_le_mono_r; lia); lia).
  destruct (small_integers F64 t (of_int F64 t) ltac:(change (2 ^ bits F64) with (2 ^ 53); lia) (as_kind_converts F64 (VInt t) Logic.I)) as [(V & s & K)|(V & s & m & e & K)]; rewrite K in V |- *.
  { exfalso. cbn [fvalue] in V. pose proof (qz_pos t T). lra. }
  assert (s = false). { destruct s; [|reflexivity]. exfalso. cbn [fvalue numerator] in V. change (Zneg m) with (- Zpos m) in V. rewrite inject_Z_opp in V. assert (0 < qz (Zpos m) * p2 e)%Q by (apply Qmult_lt_0_compat; [apply qz_pos; lia|apply p2_pos]). pose proof (qz_pos t T). lra. }
  subst s. cbn [fvalue numerator] in V. pose proof (as_kind_converts F32 (VFloat (FFin false m e)) Logic.I) as Cv. cbn [converts as_kind] in Cv. apply (becomes_wd _ _ _ _ _ V) in Cv. exists (to_kind F32 (FFin false m e)). split; [reflexivity|].
  set (y := to_kind F32 (FFin false m e)) in *. clearbody y. clear K V m e.
  assert (P : (0 < p2 (j - 1))%Q) by apply p2_pos. assert (T1 : (1 <= qz t)%Q) by (change 1%Q with (qz 1); rewrite <- Zle_Qle; lia).
  assert (T2 : (qz t < p2 53)%Q). { apply Qlt_le_trans with (p2 (24 + j)); [rewrite <- (p2_Z (24 + j)) by lia; rewrite <- Zlt_Qlt; exact L|apply p2_le; lia]. }
  destruct Cv as [(A & _)|[(_ & A & _)|(_ & _ & m & e & -> & (_ & N & _))]].
  - exfalso. unfold too_large in A. assert (p2 53 < p2 (top F32) - p2 (top F32 - bits F32 - 1))%Q by (vm_compute; reflexivity). lra.
  - exfalso. unfold too_small in A. assert (p2 (least F32 - 1) < 1)%Q by (vm_compute; reflexivity). lra.
  - split; [exact Logic.I|]. cbn [fvalue numerator]. set (h := 2 ^ (j - 1)). assert (H0 : 0 < h) by (apply Z.pow_pos_nonneg; lia). assert (H1 : 2 ^ j = 2 * h) by (unfold h; rewrite <- Z.pow_succ_r by lia; f_equal; lia).
    set (q := (t + h) / 2 ^ j). assert (Q1 : 2 ^ j * q <= t + h < 2 ^ j * q + 2 ^ j) by (unfold q; pose proof (Z.div_mod (t + h) (2 ^ j) ltac:(lia)); pose proof (Z.mod_pos_bound (t + h) (2 ^ j) ltac:(lia)); lia).
    assert (Q2 : 0 <= q <= 2 ^ 24).
    { split; [apply Z.div_pos; lia|]. assert (P24 : 2 ^ (24 + j) = 2 ^ 24 * 2 ^ j) by (apply Z.pow_add_r; lia). assert (q < 2 ^ 24 + 1); [|lia]. apply Z.div_lt_upper_bound; lia. }
    assert (G : grid F32 (qz (q * 2 ^ j))).
    { change (bits F32) with 24. destruct (Z.eq_dec q (2 ^ 24)) as [E|E].
      - exists (2 ^ 23), (j + 1). split; [vm_compute; split; congruence|]. split; [change (least F32) with (-149); lia|]. rewrite E. rewrite <- (p2_Z (j + 1)) by lia. rewrite <- inject_Z_mult. rewrite (Z.pow_add_r 2 j 1) by lia. apply inject_Z_injective. change (2 ^ 24) with (2 ^ 23 * 2). change (2 ^ 1) with 2. ring.
      - exists q, j. split; [change (bits F32) with 24; lia|]. split; [change (least F32) with (-149); lia|]. rewrite <- (p2_Z j) by lia. now rewrite <- inject_Z_mult. }
    apply Qle_trans with (Qabs (qz t - qz (q * 2 ^ j))); [exact (N _ G)|]. rewrite <- (p2_Z (j - 1)) by lia. fold h. assert (E : (qz t - qz (q * 2 ^ j) == qz (t - q * 2 ^ j))%Q) by (unfold Zminus; rewrite inject_Z_plus, inject_Z_opp; reflexivity).
    rewrite E. apply Qabs_Qle_condition. rewrite <- inject_Z_opp. rewrite <- !Zle_Qle. lia.
Qed.

Lemma shim_clock_lemma t now j : 0 <= t -> 1 <= j <= 29 -> t < 2 ^ (24 + j) -> 0 <= now < 2 ^ 53 ->
  (now - t < 86400 - 2 ^ (j - 1) -> shim_recent false (Z_to_string t) now = true) /\
  (86400 + 2 ^ (j - 1) <= now - t -> shim_recent false (Z_to_string t) now = false).
Proof.
  intros T J L Hn. assert (B : t <= 2 ^ 53) by (assert (2 ^ (24 + j) <= 2 ^ 53) by (apply Z.pow_le_mono_r; lia); lia).
  unfold shim_recent. pose proof (recent_number (fun s => snd (shim_read ieee_round ieee_through_float F64 s false)) (Z_to_string t) now ltac:(lia)) as R. cbv beta in R. rewrite (shim_time t (conj T B)) in R.
  assert (C : exists y, to_kind F32 (of_int F64 t) = y /\ finite y /\ (Qabs (qz t - fvalue y) <= p2 (j - 1))%Q).
  { destruct (Z.eq_dec t 0) as [->|N]; [|apply float_close; lia]. exists (FZero false). split; [reflexivity|]. split; [exact Logic.I|]. change (Qabs (qz 0 - fvalue (FZero false))) with 0%Q. pose proof (p2_pos (j - 1)). lra. }
  destruct C as (y & Ey & F & Cl). rewrite Ey, (finite_younger now y F) in R. apply abs_cases in Cl as [C1 C2]. rewrite <- (p2_Z (j - 1)) in C1, C2 by lia. set (h := 2 ^ (j - 1)) in *. clearbody h.
  set (v := fvalue y) in *. clearbody v. split; intros H.
  - apply R. assert (K : (qz (now - t + h) < middle)%Q) by (apply whole_day; lia). unfold Zminus in K. rewrite !inject_Z_plus, inject_Z_opp in K. lra.
  - apply Bool.not_true_iff_false. intros H2. apply R in H2. assert (K : (middle <= qz (now - t - h))%Q) by (apply Qnot_lt_le; rewrite whole_day; lia). unfold Zminus in K. rewrite !inject_Z_plus, !inject_Z_opp in K. lra.
Qed.

Lemma shim_errno_lemma line now : 0 <= now < 2 ^ 53 -> shim_recent true line now = (now <? 86400).
Proof.
  intros Hn. apply Bool.eq_iff_eq_true. unfold shim_recent. rewrite (recent_number _ line now) by lia. rewrite shim_errno_time. cbn [younger fvalue]. rewrite Z.ltb_lt, <- whole_day. split; intros H; lra.
Qed.
