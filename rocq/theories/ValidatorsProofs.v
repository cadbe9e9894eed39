(** Proofs about the shipped validators. *)
From Verif Require Import Base StrLib Fs Values ValuesSpec Validators ValidatorsSpec Invocation.
From Coq Require Import ZifyBool ZifyN ZifyNat.

(** ** Ranges of elements *)

Lemma lift_pure g f x : exists r, lift_range (pure_validator g) f x = (f, r).
Proof.
  unfold lift_range, pure_validator. destruct x; try (eexists; reflexivity).
  induction l as [|a l IH]; cbn; [eexists; reflexivity|]. destruct (g a); try (eexists; reflexivity). exact IH.
Qed.

(** the first element that is not accepted decides *)
Lemma lift_pure_spec g f x : (forall l, x = VList l -> True) ->
  (Forall (fun a => g a = VOk) (elements x) /\ lift_range (pure_validator g) f x = (f, VOk)) \/
  (exists l a l', elements x = l ++ a :: l' /\ Forall (fun a => g a = VOk) l /\ g a <> VOk /\
                  lift_range (pure_validator g) f x = (f, g a)).
Proof.
  intros _.
  assert (H1 : forall a, (Forall (fun a => g a = VOk) [a] /\ (f, g a) = (f, VOk)) \/
    (exists l b l', [a] = l ++ b :: l' /\ Forall (fun a => g a = VOk) l /\ g b <> VOk /\ (f, g a) = (f, g b))).
  { intros a. destruct (g a) eqn:E; [left; split; [repeat constructor; exact E|reflexivity]|..];
      right; exists [], a, []; rewrite E; repeat split; auto; discriminate. }
  destruct x; try apply H1.
  cbn [elements lift_range]. clear H1. induction l as [|a l IH]; cbn [for_each].
  - left. split; constructor.
  - unfold pure_validator in *. destruct (g a) eqn:E.
    + destruct IH as [[H1 H2]|(l1 & b & l2 & H1 & H2 & H3 & H4)].
      * left. split; [constructor; auto|exact H2].
      * right. exists (a :: l1), b, l2. rewrite H4, H1. repeat split; auto using Forall_cons.
    + right. exists [], a, l. rewrite E. repeat split; auto; discriminate.
    + right. exists [], a, l. rewrite E. repeat split; auto; discriminate.
    + right. exists [], a, l. rewrite E. repeat split; auto; discriminate.
Qed.

(** ** arithmetic_range_validator *)

Lemma wrap_int_id sg bits z : (0 < bits)%N -> in_type sg bits z -> wrap_int sg bits z = z.
Proof.
  unfold wrap_int, in_type. intros Hb H.
  assert (Hp : (2 ^ Z.of_N bits = 2 * 2 ^ (Z.of_N bits - 1))%Z).
  { rewrite <- Z.pow_succ_r by lia. f_equal. lia. }
  assert (Hq : (0 < 2 ^ (Z.of_N bits - 1))%Z) by (apply Z.pow_pos_nonneg; lia).
  set (q := (2 ^ (Z.of_N bits - 1))%Z) in *. rewrite Hp in *. destruct sg; cbn [andb].
  - destruct (Z_lt_le_dec z 0) as [Hz|Hz].
    + replace (z mod (2 * q))%Z with (z + 2 * q)%Z.
      * destruct (Z.leb_spec q (z + 2 * q)%Z); lia.
      * symmetry. rewrite <- (Z.mod_small (z + 2 * q) (2 * q)) by lia.
        rewrite <- (Z_mod_plus_full z 1 (2 * q)). f_equal. lia.
    + rewrite Z.mod_small by lia. destruct (Z.leb_spec q z); lia.
  - apply Z.mod_small. lia.
Qed.

Definition within (mn mx z : Z) : Prop := (mn <= z <= mx)%Z.

Lemma numbers_no_text x zs : elements x = map VInt zs -> by_characters x = x.
Proof. destruct x; try reflexivity. destruct zs as [|z [|]]; discriminate. Qed.

Lemma arithmetic_range_lemma sg bits mn mx f x zs : (0 < bits)%N -> elements x = map VInt zs -> Forall (in_type sg bits) zs ->
  (Forall (within mn mx) zs /\ arithmetic_range_validator sg bits mn mx f x = (f, VOk)) \/
  (exists l z l', zs = l ++ z :: l' /\ Forall (within mn mx) l /\ ~ within mn mx z /\
     arithmetic_range_validator sg bits mn mx f x =
       (f, VThrow ("Value " +s+ Z_to_string z +s+ " is not in range [" +s+ Z_to_string mn +s+ "," +s+ Z_to_string mx +s+ "]."))).
Proof.
  intros Hb Hx Ht.
  assert (H1 : forall z, in_type sg bits z -> arithmetic_range1 sg bits mn mx (VInt z) = VOk <-> in_type sg bits z /\ within mn mx z).
  { intros z Hz. unfold arithmetic_range1, within. cbn [promote]. rewrite wrap_int_id by assumption.
    destruct (Z.leb_spec z mx), (Z.leb_spec mn z); cbn; split; try tauto; try discriminate; intros [_ ?]; lia. }
  assert (H2 : forall zs, Forall (in_type sg bits) zs ->
    Forall (fun a => arithmetic_range1 sg bits mn mx a = VOk) (map VInt zs) -> Forall (within mn mx) zs).
  { clear -H1. induction zs as [|z zs IH]; intros Ht H; [constructor|]. inversion_clear Ht. inversion_clear H.
    constructor; [apply H1; assumption|auto]. }
  unfold arithmetic_range_validator. rewrite (numbers_no_text x zs Hx).
  destruct (lift_pure_spec (arithmetic_range1 sg bits mn mx) f x (fun _ _ => I)) as [[Ha Hr]|(l & a & l' & He & Hl & Ha & Hr)].
  - left. split; [|exact Hr]. rewrite Hx in Ha. apply H2; assumption.
  - right. rewrite Hx in He. apply map_eq_app in He as (l1 & l2 & -> & <- & He).
    destruct l2 as [|z l3]; [discriminate|]. injection He as <- <-.
    apply Forall_app in Ht as [Ht1 Ht2]. inversion_clear Ht2 as [|? ? Hz Ht3].
    exists l1, z, l3. split; [reflexivity|]. split; [apply H2; assumption|].
    assert (Hn : ~ within mn mx z) by (intros H; apply Ha, H1; auto).
    split; [exact Hn|]. rewrite Hr. f_equal.
    unfold arithmetic_range1, within in *. cbn [promote]. rewrite wrap_int_id by assumption.
    destruct (Z.leb_spec z mx), (Z.leb_spec mn z); cbn [andb negb]; try (exfalso; lia);
      unfold range_str; rewrite ?app_assoc_s; reflexivity.
Qed.

(** ** value_list_validator *)

Lemma val_eqb_eq e a b : has_type e a -> has_type e b -> val_eqb a b = true <-> a = b.
Proof.
  unfold has_type. destruct e, a, b; cbn; try tauto; intros _ _;
    rewrite ?Z.eqb_eq, ?eqb_true_iff, ?String.eqb_eq; split; congruence.
Qed.

Definition ety_ok (e : ety) : Prop := match e with TInt _ bits => (0 < bits)%N | _ => True end.

Lemma conv_to_id e v : ety_ok e -> has_type e v -> conv_to e v = v.
Proof.
  unfold has_type. destruct e, v; cbn; try tauto; intros Hb H; now rewrite wrap_int_id by (auto; reflexivity).
Qed.

Lemma as_range_id e x : Forall (has_type e) (elements x) -> as_range e x = x.
Proof. destruct e, x; try reflexivity; cbn; intros H; inversion_clear H; contradiction. Qed.

Lemma value_list1_iff e values v : ety_ok e -> Forall (has_type e) values -> has_type e v ->
  (In v values -> value_list1 e values v = VOk) /\
  (~ In v values -> value_list1 e values v = VThrow ("Value " +s+ to_string (Scalar e) v +s+ " is not one of "
               +s+ to_string (ListOf e) (VList values) +s+ ".")).
Proof.
  intros Hb Hvs Hv. unfold value_list1. rewrite conv_to_id by assumption. rewrite Forall_forall in Hvs.
  destruct (existsb (val_eqb v) values) eqn:E.
  - split; [reflexivity|]. intros H. exfalso. apply H. apply existsb_exists in E as (w & Hw & Heq).
    apply (val_eqb_eq e) in Heq; [now subst|exact Hv|auto].
  - split; [|reflexivity]. intros H. exfalso.
    assert (existsb (val_eqb v) values = true); [|congruence].
    apply existsb_exists. exists v. split; [exact H|]. apply (val_eqb_eq e); auto.
Qed.

Lemma value_list_lemma e values f x : ety_ok e -> Forall (has_type e) values -> Forall (has_type e) (elements x) ->
  (Forall (fun v => In v values) (elements x) /\ value_list_validator e values f x = (f, VOk)) \/
  (exists l v l', elements x = l ++ v :: l' /\ Forall (fun v => In v values) l /\ ~ In v values /\
     value_list_validator e values f x =
       (f, VThrow ("Value " +s+ to_string (Scalar e) v +s+ " is not one of " +s+ to_string (ListOf e) (VList values) +s+ "."))).
Proof.
  intros Hb Hvs Hx. unfold value_list_validator. rewrite as_range_id by exact Hx.
  assert (Hdec : forall v, has_type e v -> In v values \/ ~ In v values).
  { intros v Hv. destruct (existsb (val_eqb v) values) eqn:E.
    - left. apply existsb_exists in E as (w & Hw & Heq). rewrite Forall_forall in Hvs.
      apply (val_eqb_eq e) in Heq; [now subst|exact Hv|auto].
    - right. intros H. assert (existsb (val_eqb v) values = true); [|congruence].
      apply existsb_exists. exists v. split; [exact H|]. apply (val_eqb_eq e); auto. }
  assert (H2 : forall l, Forall (has_type e) l -> Forall (fun a => value_list1 e values a = VOk) l -> Forall (fun v => In v values) l).
  { intros l Hl H. rewrite Forall_forall in *. intros v Hv. destruct (Hdec v (Hl v Hv)) as [Hi|Hi]; [exact Hi|].
    destruct (value_list1_iff e values v Hb) as [_ H3]; [rewrite Forall_forall; auto|auto|].
    specialize (H3 Hi). rewrite (H v Hv) in H3. discriminate. }
  destruct (lift_pure_spec (value_list1 e values) f x (fun _ _ => I)) as [[Ha Hr]|(l & a & l' & He & Hl & Ha & Hr)].
  - left. auto.
  - right. rewrite He in Hx. apply Forall_app in Hx as [Hx1 Hx2]. inversion_clear Hx2 as [|? ? Hxa Hx3].
    exists l, a, l'. split; [exact He|]. split; [auto|].
    assert (Hn : ~ In a values) by (intros H; apply Ha; apply value_list1_iff; auto).
    split; [exact Hn|]. rewrite Hr. f_equal. destruct (value_list1_iff e values a) as [_ H3]; auto.
Qed.

(** a path checked against a list of strings *)
Lemma value_list_path_lemma names f x ps : elements x = map VPath ps ->
  snd (value_list_validator TString (map VStr names) f x) = VOk <-> Forall (fun p => In p names) ps.
Proof.
  intros Hx. unfold value_list_validator. cbn [as_range].
  assert (H1 : forall p, value_list1 TString (map VStr names) (VPath p) = VOk <-> In p names).
  { intros p. unfold value_list1. cbn [conv_to]. destruct (existsb _ _) eqn:E.
    - split; [|reflexivity]. intros _. apply existsb_exists in E as (w & Hw & Heq).
      apply in_map_iff in Hw as (n & <- & Hn). cbn in Heq. apply String.eqb_eq in Heq. now subst.
    - split; [discriminate|]. intros H. assert (existsb (val_eqb (VStr p)) (map VStr names) = true); [|congruence].
      apply existsb_exists. exists (VStr p). split; [now apply in_map|]. cbn. apply String.eqb_refl. }
  destruct (lift_pure_spec (value_list1 TString (map VStr names)) f x (fun _ _ => I)) as [[Ha Hr]|(l & a & l' & He & Hl & Ha & Hr)];
    rewrite Hr; cbn [snd].
  - split; [intros _|reflexivity]. rewrite Hx in Ha. rewrite Forall_forall in *. intros p Hp. apply H1, Ha. now apply in_map.
  - split; [tauto|]. intros H. exfalso. rewrite Hx in He.
    assert (Hin : In a (map VPath ps)) by (rewrite He; apply in_elt). apply in_map_iff in Hin as (p & <- & Hp).
    apply Ha, H1. rewrite Forall_forall in H. auto.
Qed.

(** ** Chains *)

Lemma runs_app_ok x f vs f1 ws f2 r : runs x f vs f1 VOk -> runs x f1 ws f2 r -> runs x f (vs ++ ws) f2 r.
Proof.
  intros H. remember VOk as r0 eqn:E. induction H; intros Hw; subst; cbn; [exact Hw| |congruence].
  eapply runs_next; eauto.
Qed.

Lemma runs_app_stop x f vs f1 ws r : runs x f vs f1 r -> r <> VOk -> runs x f (vs ++ ws) f1 r.
Proof.
  intros H. induction H; intros Hr; cbn; [congruence| |].
  - eapply runs_next; eauto.
  - apply runs_stop; auto.
Qed.

Lemma runs_fun x f vs f1 r1 f2 r2 : runs x f vs f1 r1 -> runs x f vs f2 r2 -> f1 = f2 /\ r1 = r2.
Proof.
  intros H. revert f2 r2. induction H as [f|f v vs f1 f2 r Hv Hr IH|f v vs f1 r Hv Hn]; intros g2 r2 H2;
    inversion H2 as [|? ? ? g1 ? ? Hv2 Hr2|? ? ? g1 ? Hv2 Hn2]; subst; auto; rewrite Hv in Hv2; injection Hv2; intros; subst; auto; congruence.
Qed.

Lemma joined_runs x t : forall f, runs x f (leaves t) (fst (joined t f x)) (snd (joined t f x)).
Proof.
  induction t as [v|l IHl r IHr]; intros f; cbn [leaves joined].
  - destruct (v f x) as [f1 o] eqn:E. cbn. destruct o.
    + eapply runs_next; [exact E|constructor].
    + apply runs_stop; [exact E|discriminate].
    + apply runs_stop; [exact E|discriminate].
    + apply runs_stop; [exact E|discriminate].
  - unfold chain. specialize (IHl f). destruct (joined l f x) as [f1 o] eqn:E. cbn [fst snd] in IHl.
    destruct o.
    + eapply runs_app_ok; [exact IHl|apply IHr].
    + apply runs_app_stop; [exact IHl|discriminate].
    + apply runs_app_stop; [exact IHl|discriminate].
    + apply runs_app_stop; [exact IHl|discriminate].
Qed.

Lemma chain_lemma t f x f' r : joined t f x = (f', r) <-> runs x f (leaves t) f' r.
Proof.
  split; intros H.
  - pose proof (joined_runs x t f) as Hr. now rewrite H in Hr.
  - pose proof (joined_runs x t f) as Hr. destruct (runs_fun _ _ _ _ _ _ _ H Hr) as [-> ->].
    now destruct (joined t f x).
Qed.

Lemma chain_assoc_lemma t u f x : leaves t = leaves u -> joined t f x = joined u f x.
Proof.
  intros H. destruct (joined u f x) as [f' r] eqn:E. apply chain_lemma. rewrite H. now apply chain_lemma.
Qed.

Lemma chain_pure_lemma t f x : Forall pure_on_fs (leaves t) ->
  (snd (joined t f x) = VOk <-> Forall (fun v => snd (v f x) = VOk) (leaves t)) /\
  (forall l v l', leaves t = l ++ v :: l' -> Forall (fun v => snd (v f x) = VOk) l -> snd (v f x) <> VOk ->
     joined t f x = v f x).
Proof.
  intros Hp. pose proof (joined_runs x t f) as Hr.
  assert (Hgen : forall vs g f' r, runs x g vs f' r -> Forall pure_on_fs vs ->
    f' = g /\ (r = VOk <-> Forall (fun v => snd (v g x) = VOk) vs) /\
    (forall l v l', vs = l ++ v :: l' -> Forall (fun v => snd (v g x) = VOk) l -> snd (v g x) <> VOk -> r = snd (v g x))).
  { clear. intros vs g f' r H. induction H as [f|f u vs f1 f2 r Hu Hr IH|f u vs f1 r Hu Hn]; intros Hp.
    - split; [reflexivity|]. split; [split; constructor|]. intros [|v0 l] v l' E; discriminate.
    - inversion_clear Hp as [|? ? Hv Hvs]. pose proof (Hv f x) as Hf. rewrite Hu in Hf. cbn in Hf. subst f1.
      destruct (IH Hvs) as (-> & H1 & H2). split; [reflexivity|]. split.
      + rewrite H1. split; intros Hall.
        * constructor; [now rewrite Hu|exact Hall].
        * now inversion_clear Hall.
      + intros l w l' E Hl Hw. destruct l as [|v0 l]; injection E as -> ->.
        * rewrite Hu in Hw. now cbn in Hw.
        * inversion_clear Hl. eapply H2; eauto.
    - inversion_clear Hp as [|? ? Hv Hvs]. pose proof (Hv f x) as Hf. rewrite Hu in Hf. cbn in Hf. subst f1.
      split; [reflexivity|]. split.
      + split; [tauto|]. intros Hall. inversion_clear Hall as [|? ? H1 _]. now rewrite Hu in H1.
      + intros l w l' E Hl Hw. destruct l as [|v0 l]; injection E as -> ->.
        * now rewrite Hu.
        * inversion_clear Hl as [|? ? H1 _]. now rewrite Hu in H1. }
  destruct (Hgen _ _ _ _ Hr Hp) as (Hf & H1 & H2). split; [exact H1|].
  intros l v l' E Hl Hv. rewrite (surjective_pairing (joined t f x)), Hf, (H2 l v l' E Hl Hv).
  assert (Hpv : pure_on_fs v) by (rewrite Forall_forall in Hp; apply Hp; rewrite E; apply in_elt).
  rewrite (surjective_pairing (v f x)), (Hpv f x). reflexivity.
Qed.
