(** Proofs about characters, numbers and pieces of texts (C100). *)
From Coq Require Import DecimalString DecimalFacts DecimalZ DecimalN DecimalPos.
From Verif Require Import Base StrLib Values Validators HelpText ValuesSpec ValuesProofs AgeProofs TextSpec.
Local Open Scope Z_scope.

(** ** Characters *)

Lemma all_chars (P : chr -> Prop) : (forall n : nat, (n < 256)%nat -> P (ascii_of_nat n)) -> forall c, P c.
Proof. intros H c. rewrite <- (ascii_nat_embedding c). apply H. apply nat_ascii_bounded. Qed.

Lemma table (f : chr -> bool) (l : list chr) : forallb (fun n => Bool.eqb (f (ascii_of_nat n)) (existsb (Ascii.eqb (ascii_of_nat n)) l)) (seq 0 256) = true ->
  forall c, f c = true <-> In c l.
Proof.
  intros H. rewrite forallb_forall in H. apply all_chars. intros n Hn. specialize (H n). rewrite in_seq in H. specialize (H ltac:(lia)). apply eqb_prop in H. rewrite H.
  rewrite existsb_exists. split; [intros (x & Hx & E); apply Ascii.eqb_eq in E; now subst x|intros Hi; exists (ascii_of_nat n); split; [exact Hi|apply Ascii.eqb_refl]].
Qed.

Lemma classes_lemma c : (is_digit c = true <-> In c (letters_of the_digits)) /\ (is_lower c = true <-> In c (letters_of small_letters)) /\
  (is_upper c = true <-> In c (letters_of capital_letters)) /\ (is_alnum c = true <-> In c (letters_of (small_letters ++ capital_letters ++ the_digits))) /\
  (is_space c = true <-> In c blanks).
Proof. repeat match goal with |- _ /\ _ => split end; revert c; apply table; vm_compute; reflexivity. Qed.

Lemma case_lemma c : (forall i, String.get i capital_letters = Some c -> String.get i small_letters = Some (to_lower c)) /\ (~ In c (letters_of capital_letters) -> to_lower c = c) /\
  (forall i, String.get i small_letters = Some c -> String.get i capital_letters = Some (to_upper c)) /\ (~ In c (letters_of small_letters) -> to_upper c = c).
Proof.
  assert (G : forall a b (f : chr -> chr), forallb (fun i => match String.get i a, String.get i b with Some x, Some y => Ascii.eqb (f x) y | _, _ => false end) (seq 0 26) = true ->
     String.length a = 26%nat -> forall i, String.get i a = Some c -> String.get i b = Some (f c)).
  { intros a b f H La i Hi. rewrite forallb_forall in H. assert (Hl : (i < 26)%nat).
    { rewrite <- La. clear - Hi. revert i Hi. induction a as [|d a IH]; intros [|i] Hi; cbn in *; try discriminate; [lia|]. specialize (IH _ Hi). lia. }
    specialize (H i ltac:(apply in_seq; lia)). rewrite Hi in H. destruct (String.get i b) as [y|]; [|discriminate H]. apply Ascii.eqb_eq in H. now subst y. }
  destruct (classes_lemma c) as (_ & L & U & _). split; [apply G; vm_compute; reflexivity|]. split; [|split; [apply G; vm_compute; reflexivity|]].
  - intros N. unfold to_lower. destruct (is_upper c); [exfalso; apply N; tauto|reflexivity].
  - intros N. unfold to_upper. destruct (is_lower c); [exfalso; apply N; tauto|reflexivity].
Qed.

Lemma digit_lemma d c : String.get d the_digits = Some c -> digit_val c = Z.of_nat d.
Proof. do 10 (destruct d as [|d]; [intros H; injection H as <-; reflexivity|]). destruct d; discriminate. Qed.

(** ** Numbers *)

Lemma written_cons d ds : (d < 10)%nat -> exists c, String.get d the_digits = Some c /\ written (d :: ds) = String c (written ds).
Proof. intros H. do 10 (destruct d as [|d]; [eexists; split; reflexivity|]). lia. Qed.

Lemma written_digits ds : Forall (fun d => (d < 10)%nat) ds -> sall is_digit (written ds) = true /\ String.length (written ds) = List.length ds /\ denoted ds = weight (written ds).
Proof.
  assert (K : forall ds a, fold_left (fun a d => 10 * a + Z.of_nat d) ds a = a * 10 ^ Z.of_nat (List.length ds) + denoted ds).
  { clear ds. induction ds as [|d ds IH] using rev_ind; intros a; [cbn; lia|]. unfold denoted. rewrite !fold_left_app. cbn [fold_left]. rewrite IH. fold (denoted ds). rewrite app_length. cbn [List.length].
    rewrite Nat2Z.inj_add, Z.pow_add_r by lia. change (10 ^ Z.of_nat 1) with 10. unfold denoted. lia. }
  intros F. induction F as [|d ds Hd F IH]; [auto|]. destruct (written_cons d ds Hd) as (c & G & ->). destruct IH as (I1 & I2 & I3). cbn [sall String.length List.length weight].
  split; [rewrite I1, andb_true_r; apply classes_lemma; clear - G; do 10 (destruct d as [|d]; [injection G as <-; cbn; tauto|]); destruct d; discriminate|]. split; [now rewrite I2|].
  unfold denoted. cbn [fold_left]. rewrite K. rewrite <- I3, I2, (digit_lemma d c G). lia.
Qed.

Lemma digits_written s : sall is_digit s = true -> exists ds, Forall (fun d => (d < 10)%nat) ds /\ s = written ds.
Proof.
  induction s as [|c s IH]; intros H; [exists []; split; [constructor|reflexivity]|]. cbn [sall] in H. apply andb_true_iff in H as [Hc Hs]. destruct (IH Hs) as (ds & F & ->).
  apply classes_lemma in Hc. assert (exists d, (d < 10)%nat /\ String.get d the_digits = Some c) as (d & Hd & G).
  { cbn in Hc. repeat destruct Hc as [<-|Hc]; try contradiction; [exists 0%nat|exists 1%nat|exists 2%nat|exists 3%nat|exists 4%nat|exists 5%nat|exists 6%nat|exists 7%nat|exists 8%nat|exists 9%nat]; (split; [lia|reflexivity]). }
  exists (d :: ds). split; [now constructor|]. destruct (written_cons d ds Hd) as (c' & G' & ->). congruence.
Qed.

Lemma proper_pos ds : proper ds -> 0 <= denoted ds /\ (denoted ds = 0 -> ds = [0%nat]).
Proof.
  assert (N : forall ds a, 0 <= a -> a <= fold_left (fun a d => 10 * a + Z.of_nat d) ds a).
  { clear ds. induction ds as [|d ds IH]; intros a Ha; cbn [fold_left]; [lia|]. specialize (IH (10 * a + Z.of_nat d)). lia. }
  intros (Ne & _ & L). split; [apply N; lia|]. destruct ds as [|d ds]; [congruence|]. unfold denoted. cbn [fold_left]. intros E.
  pose proof (N ds (10 * 0 + Z.of_nat d) ltac:(lia)). destruct d as [|d]; [|lia]. now rewrite (L ds eq_refl).
Qed.

Lemma proper_front ds d : proper (ds ++ [d]) -> (d < 10)%nat /\ (ds = [] \/ (proper ds /\ 0 < denoted ds)).
Proof.
  intros (Ne & F & L). apply Forall_app in F as [F Fd]. split; [now inversion Fd|]. destruct ds as [|x ds]; [now left|right].
  assert (P : proper (x :: ds)). { split; [discriminate|]. split; [exact F|]. intros ds' [= -> ->]. specialize (L (ds' ++ [d]) eq_refl). now destruct ds'. }
  split; [exact P|]. pose proof (proper_pos _ P) as [H1 H2]. destruct (Z.eq_dec (denoted (x :: ds)) 0) as [E|]; [|lia]. exfalso. specialize (H2 E). injection H2 as -> ->.
  specialize (L [d] eq_refl). discriminate L.
Qed.

Lemma denoted_snoc ds d : denoted (ds ++ [d]) = 10 * denoted ds + Z.of_nat d.
Proof. unfold denoted. now rewrite fold_left_app. Qed.

Lemma proper_unique ds : forall ds', proper ds -> proper ds' -> denoted ds = denoted ds' -> ds = ds'.
Proof.
  induction ds as [|d ds IH] using rev_ind; intros ds' P P' E; [now destruct P|].
  destruct ds' as [|d' ds' _] using rev_ind; [now destruct P'|]. destruct (proper_front _ _ P) as [Hd Q]. destruct (proper_front _ _ P') as [Hd' Q']. rewrite !denoted_snoc in E.
  assert (En : denoted ds = denoted ds' /\ d = d') by lia. destruct En as [En ->]. f_equal. destruct Q as [->|[Q Z1]], Q' as [->|[Q' Z2]]; [reflexivity| | |apply IH; auto]; unfold denoted in *; cbn in *; lia.
Qed.

Lemma unorm_head u : Decimal.unorm u = u -> u = Decimal.D0 Decimal.Nil \/ exists v, u = Decimal.D1 v \/ u = Decimal.D2 v \/ u = Decimal.D3 v \/ u = Decimal.D4 v \/ u = Decimal.D5 v \/ u = Decimal.D6 v \/
  u = Decimal.D7 v \/ u = Decimal.D8 v \/ u = Decimal.D9 v.
Proof.
  assert (N : forall u v, Decimal.nzhead u <> Decimal.D0 v). { intros w; induction w; intros v; cbn; try discriminate. apply IHw. }
  unfold Decimal.unorm. destruct (Decimal.nzhead u) as [|v|v|v|v|v|v|v|v|v|v] eqn:E; intros H; symmetry in H; [now left|exfalso; now apply (N u v)|..]; right; exists v; tauto.
Qed.

Lemma nat_string_head z : 0 <= z -> forall s, Z_to_string z = String "0" s -> s = EmptyString.
Proof.
  intros Hz s. unfold Z_to_string. destruct z as [|p|p]; [intros [= <-]; reflexivity| |lia]. cbn [Z.to_int].
  assert (U : Decimal.unorm (Pos.to_uint p) = Pos.to_uint p). { change (Pos.to_uint p) with (N.to_uint (Npos p)). rewrite <- DecimalN.Unsigned.to_of. now rewrite DecimalN.Unsigned.of_to. }
  change (NilZero.string_of_int (Decimal.Pos (Pos.to_uint p))) with (NilZero.string_of_uint (Pos.to_uint p)). intros H.
  destruct (unorm_head _ U) as [E|(v & E)]; [rewrite E in H; cbn in H; congruence|]. exfalso. repeat destruct E as [E|E]; rewrite E in H; cbn in H; discriminate H.
Qed.

Lemma decimal_lemma z s : s = Z_to_string z <-> decimal z s.
Proof.
  assert (Pos' : forall z, 0 <= z -> exists ds, proper ds /\ Z_to_string z = written ds /\ z = denoted ds).
  { clear z s. intros z Hz. destruct (Z_digits z Hz) as [[Ne D] W]. destruct (digits_written _ D) as (ds & F & E). exists ds. split; [|split; [exact E|]].
    - split; [intros ->; rewrite E in Ne; now apply Ne|]. split; [exact F|]. intros ds' ->. cbn [written] in E. change (substring 0 1 the_digits) with "0" in E. cbn [append] in E. apply (nat_string_head z Hz) in E.
      destruct ds' as [|d ds']; [reflexivity|]. inversion F as [|? ? _ F']. inversion F' as [|? ? Hd _]. subst. destruct (written_cons d ds' Hd) as (c & _ & K). rewrite K in E. discriminate E.
    - rewrite (proj2 (proj2 (written_digits ds F))), <- E. now rewrite W. }
  assert (Ex : decimal z (Z_to_string z)).
  { destruct (Z.lt_ge_cases z 0) as [L|L].
    - destruct (Pos' (- z) ltac:(lia)) as (ds & P & E & V). exists ds. split; [exact P|right]. split; [|lia]. rewrite <- E. destruct z as [|p|p]; try lia. reflexivity.
    - destruct (Pos' z ltac:(lia)) as (ds & P & E & V). exists ds. split; [exact P|left]. auto. }
  split; [intros ->; exact Ex|]. intros (ds & P & H). destruct Ex as (ds' & P' & H'). pose proof (proper_pos _ P) as [Q _]. pose proof (proper_pos _ P') as [Q' _].
  destruct H as [[-> Hz]|(-> & Hz & Hp)], H' as [[E' Hz']|(E' & Hz' & Hp')]; try lia; rewrite E', (proper_unique ds ds' P P' ltac:(lia)); reflexivity.
Qed.

(** ** Pieces *)

Lemma pieces_lemma a b c : stake (String.length a) (a +s+ b) = a /\ sdrop (String.length a) (a +s+ b) = b /\ erase_at (String.length a) (a +s+ String c b) = a +s+ b.
Proof. split; [apply stake_app|]. split; [apply sdrop_app|]. induction a as [|d a IH]; [reflexivity|]. cbn. now rewrite IH. Qed.

Lemma find_lemma c s : (forall n, sfind c s = Some n <-> exists a b, s = a +s+ String c b /\ String.length a = n /\ ~ In c (letters_of a)) /\
  (sfind c s = None <-> ~ In c (letters_of s)) /\ (scontains c s = true <-> In c (letters_of s)).
Proof.
  split; [|split].
  - induction s as [|d s IH]; intros n; cbn [sfind].
    + split; [discriminate|]. intros ([|x a] & b & E & _); discriminate E.
    + destruct (Ascii.eqb_spec c d) as [<-|N].
      * split; [intros [= <-]; exists "", s; split; [reflexivity|split; [reflexivity|intros []]]|]. intros (a & b & E & L & H). destruct a as [|x a]; [cbn in L; congruence|].
        cbn in E. injection E as <- _. exfalso. apply H. now left.
      * split.
        -- destruct (sfind c s) as [m|] eqn:E; [|discriminate]. cbn. intros [= <-]. destruct (proj1 (IH m) eq_refl) as (a & b & -> & L & H). exists (String d a), b. split; [reflexivity|]. split; [cbn; now rewrite L|].
           intros [K|K]; [congruence|now apply H].
        -- intros (a & b & E & L & H). destruct a as [|x a]; [cbn in E; congruence|]. cbn in E, L. injection E as <- ->. destruct n as [|n]; [discriminate L|]. injection L as L.
           rewrite (proj2 (IH n)); [reflexivity|]. exists a, b. split; [reflexivity|]. split; [exact L|]. intros K. apply H. now right.
  - rewrite sfind_None, <- not_true_iff_false, scontains_In. reflexivity.
  - apply scontains_In.
Qed.

Lemma texts_lemma s t f n c l : (starts_with t s = true <-> exists r, s = t +s+ r) /\ (is_empty s = true <-> s = "") /\ (sall f s = true <-> Forall (fun x => f x = true) (letters_of s)) /\
  letters_of (srep n c) = repeat c n /\ (mem s l = true <-> In s l) /\ letters_of (sconcat l) = flat_map letters_of l /\ letters_of (smap to_upper s) = map to_upper (letters_of s).
Proof.
  split; [apply prefix_iff|]. split; [apply is_empty_iff|]. split; [rewrite sall_forallb, forallb_forall, Forall_forall; reflexivity|].
  split; [induction n as [|n IH]; [reflexivity|cbn; now rewrite <- IH]|]. split; [apply mem_In|].
  split; [induction l as [|x l IH]; [reflexivity|cbn [sconcat flat_map]; rewrite <- IH; apply chars_app]|]. induction s as [|x s IH]; [reflexivity|]. change (to_upper x :: letters_of (smap to_upper s) = to_upper x :: map to_upper (letters_of s)). now rewrite IH.
Qed.

Lemma join_lemma l : bracket l = "[" +s+ String.concat ", " l +s+ "]".
Proof.
  unfold bracket. assert (J : join_comma l = String.concat ", " l); [|now rewrite J]. induction l as [|a [|b l] IH]; [reflexivity|reflexivity|].
  change (a +s+ ", " +s+ join_comma (b :: l) = a +s+ ", " +s+ String.concat ", " (b :: l)). now rewrite IH.
Qed.

Lemma errors_lemma k : is_parser_error k = true <-> In k [KUnknownOption; KTooMany; KTooFew; KRequiredMissing; KMultiple; KUserInput; KValidation; KDesign].
Proof. destruct k; cbn; split; try tauto; try discriminate; intros H; repeat destruct H as [H|H]; try discriminate H; contradiction. Qed.

(** ** Calls *)

Lemma calls_lemma {St A} (f : A -> M St unit) l s s' r : mapM_ f l s = (s', r) <->
  (r = Ret tt /\ all_return f (Ret tt) l s s') \/ one_fails f (Ret tt) l s s' r.
Proof.
  revert s. induction l as [|a l IH]; intros s; cbn [mapM_].
  - split; [intros [= <- <-]; left; split; [reflexivity|constructor]|]. intros [[-> H]|(b & a & c & s1 & E & _)]; [now inversion H|now destruct b].
  - unfold bind. destruct (f a s) as [s1 r1] eqn:E. destruct r1 as [[]| | | | |].
    + rewrite IH. split.
      * intros [[-> H]|(b & x & c & s2 & -> & H & Hx & N)]; [left; split; [reflexivity|econstructor; eauto]|right]. exists (a :: b), x, c, s2. split; [reflexivity|]. split; [econstructor; eauto|auto].
      * intros [[-> H]|(b & x & c & s2 & El & H & Hx & N)]; [left; split; [reflexivity|]; inversion H as [|? ? ? ? ? H1 H2]; subst; congruence|right].
        destruct b as [|y b]; [injection El as <- <-; inversion H; subst; congruence|]. injection El as <- ->. inversion H as [|? ? ? ? ? H1 H2]; subst. exists b, x, c, s2. rewrite E in H1. injection H1 as <-. auto.
    + split; [intros [= <- <-]; right; exists [], a, l, s; repeat split; [constructor|exact E|discriminate]|].
      intros [[-> H]|(b & x & c & s2 & El & H & Hx & N)]; [inversion H; congruence|]. destruct b as [|y b]; [injection El as <- <-; inversion H; subst; congruence|]. injection El as <- ->. inversion H; congruence.
    + split; [intros [= <- <-]; right; exists [], a, l, s; repeat split; [constructor|exact E|discriminate]|].
      intros [[-> H]|(b & x & c & s2 & El & H & Hx & N)]; [inversion H; congruence|]. destruct b as [|y b]; [injection El as <- <-; inversion H; subst; congruence|]. injection El as <- ->. inversion H; congruence.
    + split; [intros [= <- <-]; right; exists [], a, l, s; repeat split; [constructor|exact E|discriminate]|].
      intros [[-> H]|(b & x & c & s2 & El & H & Hx & N)]; [inversion H; congruence|]. destruct b as [|y b]; [injection El as <- <-; inversion H; subst; congruence|]. injection El as <- ->. inversion H; congruence.
    + split; [intros [= <- <-]; right; exists [], a, l, s; repeat split; [constructor|exact E|discriminate]|].
      intros [[-> H]|(b & x & c & s2 & El & H & Hx & N)]; [inversion H; congruence|]. destruct b as [|y b]; [injection El as <- <-; inversion H; subst; congruence|]. injection El as <- ->. inversion H; congruence.
    + split; [intros [= <- <-]; right; exists [], a, l, s; repeat split; [constructor|exact E|discriminate]|].
      intros [[-> H]|(b & x & c & s2 & El & H & Hx & N)]; [inversion H; congruence|]. destruct b as [|y b]; [injection El as <- <-; inversion H; subst; congruence|]. injection El as <- ->. inversion H; congruence.
Qed.
