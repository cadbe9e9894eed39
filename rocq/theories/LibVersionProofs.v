(** Lemmas for C107. *)
From Verif Require Import Base StrLib Values ValuesSpec ValuesProofs VersionCheck VersionSpec VersionProofs LibVersion LibVersionSpec.
From Coq Require Import Lia.

Lemma number_order a b : valid a -> valid b -> two_digits a -> two_digits b -> (version_number a < version_number b)%Z <-> older a b.
Proof. unfold valid, two_digits, older, version_number. lia. Qed.

Lemma dec z : (0 <= z)%Z -> digits (Z_to_string z) /\ weight (Z_to_string z) = z.
Proof. intros H. pose proof (Z_to_string_numeral false z (or_intror H)) as N. destruct N as [s D|s E _]; [auto|discriminate E]. Qed.

Definition stops (r : string) : Prop := match r with String c _ => is_digit c = false | EmptyString => True end.
Lemma dec_inj y z r t : (0 <= y)%Z -> (0 <= z)%Z -> stops r -> stops t -> Z_to_string y +s+ r = Z_to_string z +s+ t -> y = z /\ r = t.
Proof.
  intros Hy Hz Sr St E. destruct (dec y Hy) as [[_ Dy] Wy], (dec z Hz) as [[_ Dz] Wz].
  pose proof (span_digits_app _ _ Dy Sr) as A. rewrite E, (span_digits_app _ _ Dz St) in A. injection A as A ->. split; [congruence|reflexivity].
Qed.

Lemma text_inj a b : valid a -> valid b -> version_cstring a = version_cstring b -> a = b.
Proof.
  intros (A1 & A2 & A3 & A4) (B1 & B2 & B3 & B4) E. unfold version_cstring in E.
  apply dec_inj in E as [E1 E]; [|assumption|assumption|exact eq_refl|exact eq_refl]. apply app_inv_head_s in E.
  apply dec_inj in E as [E2 E]; [|assumption|assumption|exact eq_refl|exact eq_refl]. apply app_inv_head_s in E.
  assert (T : forall z, stops (if (0 <? z)%Z then "-rc." +s+ Z_to_string z else "")) by (intros z; destruct (0 <? z)%Z; [exact eq_refl|exact Logic.I]).
  apply dec_inj in E as [E3 E]; [|assumption|assumption|apply T|apply T].
  assert (E4 : r_candidate a = r_candidate b).
  { destruct (Z.ltb_spec 0 (r_candidate a)), (Z.ltb_spec 0 (r_candidate b)); try discriminate E; [|lia].
    apply app_inv_head_s in E. rewrite <- (app_nil_r_s (Z_to_string (r_candidate a))), <- (app_nil_r_s (Z_to_string (r_candidate b))) in E.
    apply dec_inj in E as [E _]; [exact E|assumption|assumption|exact Logic.I|exact Logic.I]. }
  destruct a, b. cbn in *. congruence.
Qed.

Lemma text_read r : valid r -> r_candidate r = 0%Z -> (r_major r < 2 ^ 31)%Z -> (r_minor r < 2 ^ 31)%Z -> (r_patch r < 2 ^ 31)%Z ->
  get_numbers (version_cstring r) = (r_major r, r_minor r, r_patch r).
Proof.
  intros (A1 & A2 & A3 & A4) C M1 M2 M3. apply get_numbers_text.
  - exists (Z_to_string (r_major r)), (Z_to_string (r_minor r)), (Z_to_string (r_patch r)).
    destruct (dec _ A1) as [D1 W1], (dec _ A2) as [D2 W2], (dec _ A3) as [D3 W3]. rewrite W1, W2, W3. unfold version_cstring. rewrite C. cbn [Z.ltb Z.compare].
    rewrite app_nil_r_s. repeat split; assumption || reflexivity || apply D1 || apply D2 || apply D3.
  - unfold fits_int. repeat split; lia.
Qed.

Lemma candidate_read r : valid r -> (0 < r_candidate r)%Z -> get_numbers (version_cstring r) = (0, 0, 0)%Z.
Proof.
  intros (A1 & A2 & A3 & A4) C. unfold get_numbers, version_cstring. rewrite (proj2 (Z.ltb_lt _ _) C).
  destruct (dec _ A1) as [[N1 D1] _], (dec _ A2) as [[N2 D2] _], (dec _ A3) as [[N3 D3] _].
  assert (E : forall s, s <> "" -> is_empty s = false) by (intros [|c s] H; [now destruct H|reflexivity]).
  unfold match_version. rewrite (span_digits_app _ _ D1) by reflexivity. rewrite (E _ N1). cbn [String.append]. cbn [Ascii.eqb Bool.eqb negb].
  change (Ascii.eqb "." ".") with true. cbn [negb].
  rewrite (span_digits_app _ _ D2) by reflexivity. rewrite (E _ N2). change (Ascii.eqb "." ".") with true. cbn [negb].
  rewrite (span_digits_app _ _ D3) by reflexivity. rewrite (E _ N3). reflexivity.
Qed.
