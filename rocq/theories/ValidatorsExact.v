(** Exact behaviour of the validators where C32, C36 - C38 do not hold in general. *)
From Verif Require Import Base StrLib Fs Values ValuesSpec Validators ValidatorsSpec Invocation ValidatorsProofs ValidatorsFiles ValidatorsFs.
From Coq Require Import ZifyBool ZifyN ZifyNat.

(** ** arithmetic_range_validator on any integers *)

Lemma wrap_int_spec sg bits z : (0 < bits)%N -> in_type sg bits (wrap_int sg bits z) /\ exists k, (z = wrap_int sg bits z + k * 2 ^ Z.of_N bits)%Z.
Proof.
  intros Hb. unfold wrap_int, in_type.
  assert (Hp : (2 ^ Z.of_N bits = 2 * 2 ^ (Z.of_N bits - 1))%Z).
  { rewrite <- Z.pow_succ_r by lia. f_equal. lia. }
  assert (Hq : (0 < 2 ^ (Z.of_N bits - 1))%Z) by (apply Z.pow_pos_nonneg; lia).
  set (q := (2 ^ (Z.of_N bits - 1))%Z) in *. rewrite Hp in *.
  pose proof (Z.mod_pos_bound z (2 * q) ltac:(lia)) as B. pose proof (Z.div_mod z (2 * q) ltac:(lia)) as D.
  set (d := (z / (2 * q))%Z) in *. set (m := (z mod (2 * q))%Z) in *.
  destruct sg; cbn [andb].
  - destruct (Z.leb_spec q m).
    + split; [lia|]. exists (d + 1)%Z. lia.
    + split; [lia|]. exists d. lia.
  - split; [lia|]. exists d. lia.
Qed.

(** the number of the type that differs from [z] by a multiple of 2^bits *)
Lemma wrap_int_iff sg bits z y : (0 < bits)%N -> wrap_int sg bits z = y <-> residue sg bits z y.
Proof.
  intros Hb. split.
  - intros <-. now apply wrap_int_spec.
  - intros [T (k & E)]. destruct (wrap_int_spec sg bits z Hb) as [T2 (k2 & E2)]. set (w := wrap_int sg bits z) in *.
    unfold in_type in *.
    assert (Hp : (2 ^ Z.of_N bits = 2 * 2 ^ (Z.of_N bits - 1))%Z).
    { rewrite <- Z.pow_succ_r by lia. f_equal. lia. }
    assert (Hq : (0 < 2 ^ (Z.of_N bits - 1))%Z) by (apply Z.pow_pos_nonneg; lia).
    set (q := (2 ^ (Z.of_N bits - 1))%Z) in *. rewrite Hp in *.
    assert (k = k2); [|subst; lia]. destruct sg; nia.
Qed.

Lemma arithmetic_exact_lemma sg bits mn mx f x zs : (0 < bits)%N -> elements x = map VInt zs ->
  let fits z := forall y, residue sg bits z y -> within mn mx y in
  (Forall fits zs /\ arithmetic_range_validator sg bits mn mx f x = (f, VOk)) \/
  (exists l z l' y, zs = l ++ z :: l' /\ Forall fits l /\ residue sg bits z y /\ ~ within mn mx y /\
     arithmetic_range_validator sg bits mn mx f x =
       (f, VThrow ("Value " +s+ Z_to_string y +s+ " is not in range [" +s+ Z_to_string mn +s+ "," +s+ Z_to_string mx +s+ "]."))).
Proof.
  intros Hb Hx fits.
  assert (H1 : forall z, arithmetic_range1 sg bits mn mx (VInt z) = VOk <-> fits z).
  { intros z. unfold arithmetic_range1, fits. cbn [promote]. split.
    - intros H y R. apply wrap_int_iff in R; [|exact Hb]. subst y. unfold within.
      destruct (Z.leb_spec (wrap_int sg bits z) mx), (Z.leb_spec mn (wrap_int sg bits z)); cbn in H; try discriminate; lia.
    - intros H. specialize (H _ (wrap_int_spec sg bits z Hb)). unfold within in H.
      destruct (Z.leb_spec (wrap_int sg bits z) mx), (Z.leb_spec mn (wrap_int sg bits z)); cbn; try lia; reflexivity. }
  assert (H2 : forall zs, Forall (fun a => arithmetic_range1 sg bits mn mx a = VOk) (map VInt zs) -> Forall fits zs).
  { clear -H1. induction zs as [|z zs IH]; intros H; [constructor|]. inversion_clear H. constructor; [apply H1; assumption|auto]. }
  unfold arithmetic_range_validator. rewrite (numbers_no_text x zs Hx).
  destruct (lift_pure_spec (arithmetic_range1 sg bits mn mx) f x (fun _ _ => Logic.I)) as [[Ha Hr]|(l & a & l' & He & Hl & Ha & Hr)].
  - left. split; [|exact Hr]. rewrite Hx in Ha. now apply H2.
  - right. rewrite Hx in He. apply map_eq_app in He as (l1 & l2 & -> & <- & He).
    destruct l2 as [|z l3]; [discriminate|]. injection He as <- <-.
    exists l1, z, l3, (wrap_int sg bits z). split; [reflexivity|]. split; [now apply H2|]. split; [now apply wrap_int_spec|].
    assert (Hn : ~ within mn mx (wrap_int sg bits z)).
    { intros W. apply Ha, H1. intros y R. apply wrap_int_iff in R; [|exact Hb]. now subst y. }
    split; [exact Hn|]. rewrite Hr. f_equal. unfold arithmetic_range1, within in *. cbn [promote].
    destruct (Z.leb_spec (wrap_int sg bits z) mx), (Z.leb_spec mn (wrap_int sg bits z)); cbn [andb negb]; try (exfalso; lia);
      unfold range_str; rewrite ?app_assoc_s; reflexivity.
Qed.

(** ** input_file_validator on anything *)

Lemma input_file_exact1 exts f p :
  input_file1 exts f p = VOk <-> (readable_file f p \/ readable_dir f p) /\ validate_filename exts p = VOk.
Proof.
  destruct (lookup f p) as [[c m|m|m]|] eqn:E.
  - rewrite input_file_lemma by (intros m'; congruence). unfold readable_file, readable_dir. rewrite E. split; [tauto|].
    intros [[H|(m' & H & _)] H2]; [tauto|discriminate].
  - unfold input_file1, exists_, validate_readability, is_directory, open_read, readable_file, readable_dir. rewrite E. cbn.
    destruct (f_readable m) eqn:R.
    + split; [|tauto]. intros H. split; [right; eauto|exact H].
    + split; [discriminate|]. intros [[(c & m' & H & _)|(m' & H & G)] _]; [discriminate|]. injection H as <-. congruence.
  - rewrite input_file_lemma by (intros m'; congruence). unfold readable_file, readable_dir. rewrite E. split; [tauto|].
    intros [[H|(m' & H & _)] H2]; [tauto|discriminate].
  - rewrite input_file_lemma by (intros m'; congruence). unfold readable_file, readable_dir. rewrite E. split; [tauto|].
    intros [[H|(m' & H & _)] H2]; [tauto|discriminate].
Qed.

Lemma input_file_exact_lemma exts f x ps : paths_of x ps -> Forall (fun p => exists name, plain_name exts p name) ps ->
  exists r, input_file_validator exts f x = (f, r) /\
    (r = VOk <-> Forall (fun p => (readable_file f p \/ readable_dir f p) /\ forall name, last_component p name -> name_ok exts name) ps).
Proof.
  intros Hx Hps. destruct (reading_lemma (input_file1 exts) f x ps Hx) as (r & H1 & H2).
  exists r. split; [exact H1|]. rewrite H2. rewrite Forall_forall in Hps. rewrite !Forall_forall.
  assert (H : forall p, In p ps -> (input_file1 exts f p = VOk <->
    (readable_file f p \/ readable_dir f p) /\ forall name, last_component p name -> name_ok exts name)).
  { intros p Hp. destruct (Hps p Hp) as (name & Hn).
    rewrite input_file_exact1, (name_ok_iff exts p name Hn). split; intros [G1 G2]; (split; [exact G1|]).
    - intros n' Hn'. apply last_component_filename in Hn'. destruct Hn as [Hl _]. apply last_component_filename in Hl. congruence.
    - apply G2. apply Hn. }
  split; intros G p Hp; apply H; auto.
Qed.

(** ** testing whether something can be written *)

Lemma can_create_dec f p : can_create f p \/ ~ can_create f p.
Proof. destruct (parent_writable f (comps p)) eqn:E; [left|right]; [now apply parent_writable_iff|]. intros H. apply parent_writable_iff in H. congruence. Qed.

Lemma not_below_key f k : tree f -> (forall m, f k <> Some (NDir m)) -> forall k', at_or_below k k' -> k' <> k -> f k' = None.
Proof.
  intros T D k' (l & ->) N. destruct (exists_last (l := l)) as (l' & x & ->); [intros ->; apply N; now rewrite app_nil_r|].
  now apply tree_below.
Qed.

Lemma writeability_exact nd f p f' r : tree f -> p <> "" -> ~ is_dir f p -> validate_writeability nd f p = (f', r) ->
  (forall k, k <> comps p -> f' k = f k) /\ left_after f p (f' (comps p)) /\
  (r = WOk <-> writable_entry f p /\ can_create f p) /\
  (r = WAssert <-> nd = false /\ lookup f p <> None /\ ~ can_create f p).
Proof.
  intros T Hp Hd E. unfold writable_entry, left_after. assert (Hl : lookup f p = f (comps p)) by now apply lookup_nonempty.
  assert (Hk : forall m, f (comps p) <> Some (NDir m)) by (intros m H; apply Hd; exists m; now rewrite Hl).
  unfold validate_writeability, is_directory in E. rewrite Hl in *.
  assert (HR : forall g, (forall k, k <> comps p -> g k = f k) -> g (comps p) <> None -> parent_writable g (comps p) = parent_writable f (comps p) ->
    (can_create f p /\ (forall k, fst (remove_all g p) k = if list_prefixb (comps p) k then None else g k) /\ snd (remove_all g p) = false)
    \/ (~ can_create f p /\ remove_all g p = (g, true))).
  { intros g G1 G2 G3. unfold remove_all. rewrite (lookup_nonempty g p Hp), G3. destruct (g (comps p)); [|congruence].
    destruct (parent_writable f (comps p)) eqn:W.
    - left. split; [now apply parent_writable_iff|]. split; [reflexivity|reflexivity].
    - right. split; [|reflexivity]. intros H. apply parent_writable_iff in H. congruence. }
  assert (HB : forall g k, (forall k, k <> comps p -> g k = f k) -> k <> comps p -> (if list_prefixb (comps p) k then None else g k) = f k).
  { intros g k G K. destruct (list_prefixb (comps p) k) eqn:B; [|now apply G]. apply list_prefixb_iff in B. symmetry. now apply (not_below_key f (comps p) T Hk). }
  destruct (f (comps p)) as [[c m|m|m]|] eqn:Ek.
  - unfold open_write in E. rewrite (proj2 (is_empty_false p) Hp), Ek in E. destruct (f_writable m) eqn:Wm; cbn [negb] in E.
    + set (g := upd f (comps p) (Some (NFile "" m))) in *.
      assert (G1 : forall k, k <> comps p -> g k = f k) by (intros k K; unfold g; apply upd_other; congruence).
      assert (G2 : g (comps p) = Some (NFile "" m)) by (unfold g; apply upd_same).
      assert (G3 : parent_writable g (comps p) = parent_writable f (comps p)) by apply parent_writable_upd.
      unfold remove in E. rewrite (lookup_nonempty g p Hp), G2, G3 in E. destruct (parent_writable f (comps p)) eqn:W.
      * rewrite unwind_missing in E; [|rewrite lookup_nonempty by exact Hp; apply upd_same]. injection E as <- <-.
        apply parent_writable_iff in W. split; [intros k K; rewrite upd_other by congruence; now apply G1|]. rewrite upd_same.
        split; [split; [reflexivity|contradiction]|]. split; [tauto|]. split; [discriminate|tauto].
      * assert (NC : ~ can_create f p) by (intros H; apply parent_writable_iff in H; congruence).
        unfold unwind, guard_destroy, remove_all in E. rewrite (lookup_nonempty g p Hp), G2, G3 in E. cbn [negb orb] in E.
        destruct nd; injection E as <- <-; (split; [exact G1|]); rewrite G2; (split; [split; [contradiction|reflexivity]|]);
          (split; [split; [discriminate|tauto]|]); split; try discriminate; try tauto; try (intros (H & _); discriminate H).
        intros _. repeat split; auto. discriminate.
    + unfold unwind, guard_destroy in E. destruct (HR f) as [(C & R1 & R2)|(C & R)]; [auto|congruence|reflexivity| |].
      * destruct (remove_all f p) as [g e]. cbn [fst snd] in R1, R2. subst e. cbn [negb orb] in E. injection E as <- <-.
        split; [intros k K; rewrite R1; now apply HB|]. rewrite R1, (proj2 (list_prefixb_iff _ _) (at_or_below_refl _)).
        split; [split; [reflexivity|contradiction]|]. split; [split; [discriminate|intros [H _]; discriminate H]|]. split; [discriminate|tauto].
      * rewrite R in E. cbn [negb orb] in E. destruct nd; injection E as <- <-; (split; [auto|]); rewrite Ek; (split; [split; [contradiction|reflexivity]|]);
          (split; [split; [discriminate|tauto]|]); split; try discriminate; try tauto; try (intros (H & _); discriminate H).
        intros _. repeat split; auto. discriminate.
  - exfalso. now apply (Hk m).
  - unfold open_write in E. rewrite (proj2 (is_empty_false p) Hp), Ek in E. destruct (f_writable m) eqn:Wm; cbn [negb] in E.
    + unfold remove in E. rewrite Hl, ?Ek in E. destruct (parent_writable f (comps p)) eqn:W.
      * rewrite unwind_missing in E; [|rewrite lookup_nonempty by exact Hp; apply upd_same]. injection E as <- <-.
        apply parent_writable_iff in W. split; [intros k K; rewrite upd_other by congruence; reflexivity|]. rewrite upd_same.
        split; [split; [reflexivity|contradiction]|]. split; [tauto|]. split; [discriminate|tauto].
      * assert (NC : ~ can_create f p) by (intros H; apply parent_writable_iff in H; congruence).
        unfold unwind, guard_destroy, remove_all in E. rewrite Hl, ?Ek, W in E. cbn [negb orb] in E.
        destruct nd; injection E as <- <-; (split; [auto|]); rewrite Ek; (split; [split; [contradiction|reflexivity]|]);
          (split; [split; [discriminate|tauto]|]); split; try discriminate; try tauto; try (intros (H & _); discriminate H).
        intros _. repeat split; auto. discriminate.
    + unfold unwind, guard_destroy in E. destruct (HR f) as [(C & R1 & R2)|(C & R)]; [auto|congruence|reflexivity| |].
      * destruct (remove_all f p) as [g e]. cbn [fst snd] in R1, R2. subst e. cbn [negb orb] in E. injection E as <- <-.
        split; [intros k K; rewrite R1; now apply HB|]. rewrite R1, (proj2 (list_prefixb_iff _ _) (at_or_below_refl _)).
        split; [split; [reflexivity|contradiction]|]. split; [split; [discriminate|intros [H _]; discriminate H]|]. split; [discriminate|tauto].
      * rewrite R in E. cbn [negb orb] in E. destruct nd; injection E as <- <-; (split; [auto|]); rewrite Ek; (split; [split; [contradiction|reflexivity]|]);
          (split; [split; [discriminate|tauto]|]); split; try discriminate; try tauto; try (intros (H & _); discriminate H).
        intros _. repeat split; auto. discriminate.
  - destruct (writeability_new nd f p) as [(_ & C & g & G & S)|(N & msg & G)]; [rewrite Hl; reflexivity| |];
      unfold validate_writeability, is_directory in G; rewrite Hl, ?Ek in G; rewrite G in E; injection E as <- <-.
    + split; [intros k _; symmetry; apply S|]. rewrite <- (S (comps p)), Ek. split; [split; [reflexivity|contradiction]|]. split; [tauto|]. split; [discriminate|tauto].
    + split; [auto|]. rewrite Ek. split; [split; [reflexivity|reflexivity]|]. split; [split; [discriminate|intros [_ H]; exfalso; apply N; auto]|]. split; [discriminate|tauto].
Qed.

(** ** output_file_validator with open_or_create *)

Lemma validate_filename_noassert exts p : validate_filename exts p <> VAssert.
Proof.
  unfold validate_filename. destruct exts; [discriminate|]. destruct (negb (has_extension p)); [discriminate|].
  destruct (any_ext _ _) as [[|]|]; discriminate.
Qed.

Lemma open_or_create_exact nd exts f p f' r : tree f -> output_file_validator nd OpenOrCreate exts f (VPath p) = (f', r) ->
  (p = "" \/ is_dir f p) /\ f' = f /\ (exists m, r = VThrow m) \/
  p <> "" /\ ~ is_dir f p /\ (forall k, k <> comps p -> f' k = f k) /\ left_after f p (f' (comps p)) /\
  (r = VOk <-> writable_entry f p /\ can_create f p /\ validate_filename exts p = VOk) /\
  (r = VAssert <-> nd = false /\ lookup f p <> None /\ ~ can_create f p).
Proof.
  intros T E. cbn in E. unfold output_file1 in E. destruct (is_directory f p) eqn:D.
  { left. injection E as <- <-. split; [right|split; [reflexivity|eauto]]. unfold is_directory in D. destruct (lookup f p) as [[| |]|] eqn:L; try discriminate. eexists. exact L. }
  assert (Hd : ~ is_dir f p). { intros (m & H). unfold is_directory in D. rewrite H in D. discriminate. }
  destruct (validate_writeability nd f p) as [g w] eqn:W. destruct (is_empty p) eqn:Ep.
  { apply is_empty_iff in Ep. subst p. left. split; [now left|]. cbn in W. destruct nd; injection W as <- <-; injection E as <- <-; (split; [reflexivity|eauto]). }
  apply is_empty_false in Ep. right. split; [exact Ep|]. split; [exact Hd|].
  destruct (writeability_exact nd f p g w T Ep Hd W) as (A & B & C & F).
  assert (f' = g) by (destruct w; now injection E as <- <-). subst g.
  split; [exact A|]. split; [exact B|]. pose proof (validate_filename_noassert exts p) as NA.
  destruct w; injection E as <-.
  - split; [tauto|]. split; [intros H; contradiction|]. intros H. apply F in H. discriminate H.
  - split; [split; [discriminate|]; intros (H1 & H2 & _); enough (WThrow msg = WOk) by discriminate; tauto|]. cbn. split; [discriminate|]. intros H. apply F in H. discriminate H.
  - split; [split; [discriminate|]; intros (H1 & H2 & _); enough (WFsError = WOk) by discriminate; tauto|]. cbn. split; [discriminate|]. intros H. apply F in H. discriminate H.
  - split; [split; [discriminate|]; intros (H1 & H2 & _); enough (WAssert = WOk) by discriminate; tauto|]. cbn. split; [intros _; now apply F|reflexivity].
Qed.

(** ** output_directory_validator on existing directories *)

Lemma output_directory_exact nd f p m f' r : tree f -> lookup f p = Some (NDir m) -> output_directory_validator nd f (VPath p) = (f', r) ->
  let q := path_join p "dummy.txt" in
  comps q = comps p ++ ["dummy.txt"] /\
  (is_dir f q /\ f' = f /\ (exists s, r = VThrow s) \/
   ~ is_dir f q /\ (forall k, k <> comps q -> f' k = f k) /\ left_after f q (f' (comps q)) /\
   (r = VOk <-> writable_entry f q /\ f_writable m = true) /\
   (r = VAssert <-> nd = false /\ lookup f q <> None /\ f_writable m = false)).
Proof.
  intros T L E q. assert (Hp : p <> "") by (intros ->; discriminate L). assert (Hq : q <> "") by apply path_join_nonempty.
  split; [now apply comps_join|]. cbn in E. unfold output_directory1, exists_, create_directory in E.
  rewrite (proj2 (is_empty_false p) Hp) in E. rewrite (lookup_nonempty f p Hp) in L. rewrite (lookup_nonempty f p Hp), L in E. cbn [negb] in E. fold q in E.
  assert (HC : can_create f q <-> f_writable m = true).
  { unfold q. rewrite can_create_dummy by exact Hp. rewrite L. split; [intros (m' & H1 & H2); injection H1 as <-; exact H2|intros H; eauto]. }
  destruct (is_directory f q) eqn:D.
  { left. unfold validate_writeability in E. rewrite D in E. injection E as <- <-. split; [|split; [reflexivity|eexists; reflexivity]].
    unfold is_directory in D. destruct (lookup f q) as [[| |]|] eqn:Q; try discriminate. eexists. exact Q. }
  assert (Hd : ~ is_dir f q). { intros (m' & H). unfold is_directory in D. rewrite H in D. discriminate. }
  right. split; [exact Hd|]. destruct (validate_writeability nd f q) as [g w] eqn:W. injection E as <- <-.
  destruct (writeability_exact nd f q g w T Hq Hd W) as (A & B & C & F). split; [exact A|]. split; [exact B|].
  assert (HN : ~ can_create f q <-> f_writable m = false). { rewrite HC. destruct (f_writable m); split; congruence || tauto. }
  rewrite HC in C. rewrite HN in F. destruct w; cbn [of_wout].
  - split; [rewrite <- C; tauto|]. rewrite <- F. split; discriminate.
  - split; [rewrite <- C; split; discriminate|]. rewrite <- F. split; discriminate.
  - split; [rewrite <- C; split; discriminate|]. rewrite <- F. split; discriminate.
  - split; [rewrite <- C; split; discriminate|]. rewrite <- F. tauto.
Qed.
