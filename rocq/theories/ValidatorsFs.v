(** Proofs about what the file and directory validators do to the file system. *)
From Verif Require Import Base StrLib Fs Values ValuesSpec Validators ValidatorsSpec Invocation ValidatorsProofs ValidatorsFiles.

Lemma list_eqb_eq a b : list_eqb a b = true <-> a = b.
Proof.
  revert b; induction a as [|x a IH]; intros [|y b]; cbn; try (split; congruence).
  rewrite andb_true_iff, String.eqb_eq, IH. split; [intros [-> ->]; reflexivity|intros H; injection H; auto].
Qed.

Lemma list_eqb_refl a : list_eqb a a = true.
Proof. now apply list_eqb_eq. Qed.

Lemma list_prefixb_iff a b : list_prefixb a b = true <-> at_or_below a b.
Proof.
  unfold at_or_below. revert b; induction a as [|x a IH]; intros b; cbn.
  - split; [intros _; now exists b|reflexivity].
  - destruct b as [|y b]; [split; [discriminate|intros (l & H); discriminate]|].
    rewrite andb_true_iff, String.eqb_eq, IH. split.
    + intros [-> (l & ->)]. now exists l.
    + intros (l & H). injection H as -> ->. split; [reflexivity|now exists l].
Qed.

Lemma same_fs_refl f : same_fs f f.
Proof. intros k. reflexivity. Qed.
Lemma same_fs_trans f g h : same_fs f g -> same_fs g h -> same_fs f h.
Proof. intros H1 H2 k. now rewrite H1. Qed.

Lemma upd_same f k n : upd f k n k = n.
Proof. unfold upd. now rewrite list_eqb_refl. Qed.
Lemma upd_other f k n k' : k <> k' -> upd f k n k' = f k'.
Proof. intros H. unfold upd. destruct (list_eqb k k') eqn:E; [|reflexivity]. now apply list_eqb_eq in E. Qed.

(** ** Parents *)

Lemma key_cases (k : key) : k = [] \/ exists d x, k = d ++ [x].
Proof. induction k as [|x d _] using rev_ind; [left; reflexivity|right; eauto]. Qed.

Lemma parent_app d x : parent_key (d ++ [x]) = d.
Proof. apply removelast_last. Qed.

Lemma app_cons_neq {A} (d : list A) x : d ++ [x] <> d.
Proof. intros H. apply (f_equal (@List.length A)) in H. rewrite app_length in H. cbn in H. lia. Qed.

Lemma parent_writable_iff f p : parent_writable f (comps p) = true <-> can_create f p.
Proof.
  unfold can_create. destruct (key_cases (comps p)) as [->|(d & x & ->)].
  - cbn. split; [discriminate|]. intros (d & x & m & H & _). destruct d; discriminate.
  - assert (E : parent_writable f (d ++ [x]) = match f d with Some (NDir m) => f_writable m | _ => false end).
    { unfold parent_writable. destruct (d ++ [x]) eqn:Ed; [destruct d; discriminate|]. rewrite <- Ed, parent_app. reflexivity. }
    rewrite E. split.
    + destruct (f d) as [[| m|]|] eqn:Ef; try discriminate. intros Hw. exists d, x, m. auto.
    + intros (d' & x' & m & H & H1 & H2). apply app_inj_tail in H as [-> ->]. now rewrite H1.
Qed.

(** writing an entry does not change whether its directory is writable *)
Lemma parent_writable_upd f k n : parent_writable (upd f k n) k = parent_writable f k.
Proof.
  destruct (key_cases k) as [->|(d & x & ->)]; [reflexivity|].
  unfold parent_writable. destruct (d ++ [x]) eqn:Ed; [destruct d; discriminate|]. rewrite <- Ed, parent_app.
  rewrite upd_other; [reflexivity|]. apply app_cons_neq.
Qed.

(** ** Joining a file name to a directory *)

Lemma split_slash_app a b : forall acc, split_slash (a +s+ String slash b) acc = split_slash a acc ++ split_slash b "".
Proof.
  induction a as [|c a IH]; intros acc; cbn [String.append split_slash].
  - now rewrite Ascii.eqb_refl.
  - destruct (Ascii.eqb c slash); [cbn; f_equal|]; apply IH.
Qed.

Lemma last_chr_some p c : last_chr p = Some c -> exists q, p = q +s+ str1 c.
Proof.
  induction p as [|d p IH]; cbn [last_chr]; [discriminate|]. destruct p as [|e p].
  - intros H. injection H as ->. now exists "".
  - intros H. destruct (IH H) as (q & Hq). exists (String d q). cbn. now rewrite Hq.
Qed.

Lemma last_chr_none p : last_chr p = None -> p = "".
Proof. induction p as [|d p IH]; [reflexivity|]. cbn [last_chr]. destruct p; [discriminate|]. intros H. specialize (IH H). discriminate. Qed.

Lemma comps_join p : p <> "" -> comps (path_join p "dummy.txt") = comps p ++ ["dummy.txt"].
Proof.
  intros Hp. unfold path_join. destruct (last_chr p) as [c|] eqn:E.
  - destruct (Ascii.eqb_spec c slash) as [->|Hne].
    + apply last_chr_some in E as (q & ->). unfold comps. rewrite app_assoc_s. cbn [str1 String.append].
      unfold str1. rewrite !split_slash_app, !filter_app. cbn. now rewrite app_nil_r.
    + unfold comps. cbn [String.append].
      change ("/"%char) with slash. rewrite split_slash_app, filter_app. reflexivity.
  - apply last_chr_none in E. congruence.
Qed.

Lemma path_join_nonempty p : path_join p "dummy.txt" <> "".
Proof.
  unfold path_join. destruct (last_chr p) as [c|]; [|discriminate].
  destruct (Ascii.eqb c slash); intros H; apply app_eq_nil_s in H as [_ H]; discriminate.
Qed.

(** ** validate_writeability on a path where nothing exists *)

Lemma lookup_none_cases f p : lookup f p = None -> p = "" \/ (p <> "" /\ f (comps p) = None).
Proof. unfold lookup. destruct p; cbn; auto. right. split; [discriminate|exact H]. Qed.

Lemma lookup_nonempty f p : p <> "" -> lookup f p = f (comps p).
Proof. unfold lookup. destruct p; cbn; congruence. Qed.

Lemma unwind_missing nd f p r : lookup f p = None -> unwind nd f p r = (f, r).
Proof. intros H. unfold unwind, guard_destroy, remove_all. rewrite H. cbn. now destruct r. Qed.

Lemma writeability_new nd f p : lookup f p = None ->
  (p <> "" /\ can_create f p /\ exists f', validate_writeability nd f p = (f', WOk) /\ same_fs f f') \/
  (~ (p <> "" /\ can_create f p) /\ exists m, validate_writeability nd f p = (f, WThrow m)).
Proof.
  intros Hl. unfold validate_writeability, is_directory. rewrite Hl.
  destruct (lookup_none_cases f p Hl) as [->|[Hp Hk]].
  - right. split; [tauto|]. cbn. eexists. reflexivity.
  - unfold open_write. rewrite (proj2 (is_empty_false p) Hp), Hk.
    destruct (parent_writable f (comps p)) eqn:Hw; cbn [negb].
    + left. split; [exact Hp|]. split; [now apply parent_writable_iff|].
      set (f1 := upd f (comps p) (Some (NFile "" rw))).
      unfold remove. rewrite (lookup_nonempty f1 p Hp). unfold f1 at 1. rewrite upd_same.
      unfold f1 at 1. rewrite parent_writable_upd, Hw.
      set (f2 := upd f1 (comps p) None). cbn [fst snd].
      rewrite unwind_missing; [|rewrite (lookup_nonempty f2 p Hp); apply upd_same].
      eexists. split; [reflexivity|]. intros k. unfold f2, f1, upd.
      destruct (list_eqb (comps p) k) eqn:E; [|reflexivity]. apply list_eqb_eq in E. now subst.
    + right. split.
      * intros [_ H]. apply parent_writable_iff in H. congruence.
      * rewrite unwind_missing by exact Hl. eexists. reflexivity.
Qed.

(** whatever exists at the path: nothing else is touched *)
Lemma remove_all_local f p f' e : remove_all f p = (f', e) -> forall k, ~ at_or_below (comps p) k -> f' k = f k.
Proof.
  unfold remove_all. intros H k Hk. destruct (lookup f p); [|injection H as <- <-; reflexivity].
  destruct (parent_writable _ _); injection H as <- <-; [|reflexivity].
  destruct (list_prefixb (comps p) k) eqn:E; [|reflexivity]. apply list_prefixb_iff in E. tauto.
Qed.

Lemma unwind_local nd f p r f' r' : unwind nd f p r = (f', r') -> forall k, ~ at_or_below (comps p) k -> f' k = f k.
Proof.
  unfold unwind, guard_destroy. destruct (remove_all f p) as [g e] eqn:E. intros H k Hk.
  pose proof (remove_all_local _ _ _ _ E k Hk) as Hg.
  destruct r; try (injection H as <- <-; reflexivity); destruct (negb e || nd); injection H as <- <-; exact Hg.
Qed.

Lemma at_or_below_refl k : at_or_below k k.
Proof. exists []. now rewrite app_nil_r. Qed.

Lemma writeability_local nd f p f' r : validate_writeability nd f p = (f', r) ->
  forall k, ~ at_or_below (comps p) k -> f' k = f k.
Proof.
  unfold validate_writeability. intros H k Hk.
  assert (Hne : comps p <> k) by (intros <-; apply Hk, at_or_below_refl).
  destruct (is_directory f p); [injection H as <- <-; reflexivity|].
  destruct (open_write f p) as [f1 good] eqn:Eo.
  assert (H1 : f1 k = f k).
  { unfold open_write in Eo. destruct (is_empty p); [injection Eo as <- <-; reflexivity|].
    destruct (f (comps p)) as [[c m|m|m]|].
    - destruct (f_writable m); injection Eo as <- <-; [now apply upd_other|reflexivity].
    - injection Eo as <- <-; reflexivity.
    - injection Eo as <- <-; reflexivity.
    - destruct (parent_writable _ _); injection Eo as <- <-; [now apply upd_other|reflexivity]. }
  destruct good; cbn [negb] in H.
  - destruct (remove f1 p) as [f2 err] eqn:Er.
    assert (H2 : f2 k = f1 k).
    { unfold remove in Er. destruct (lookup f1 p); [|injection Er as <- <-; reflexivity].
      destruct (parent_writable _ _); injection Er as <- <-; [now apply upd_other|reflexivity]. }
    destruct err; rewrite (unwind_local _ _ _ _ _ _ H k Hk); congruence.
  - rewrite (unwind_local _ _ _ _ _ _ H k Hk). exact H1.
Qed.

(** ** output_file_validator *)

Lemma create_new_lemma nd exts f p f' r : output_file1 nd CreateNew exts f p = (f', r) ->
  same_fs f f' /\ (lookup f p <> None -> exists m, r = VThrow m) /\
  (r = VOk <-> lookup f p = None /\ p <> "" /\ can_create f p /\ validate_filename exts p = VOk).
Proof.
  unfold output_file1. intros H. destruct (is_directory f p) eqn:Ed.
  { injection H as <- <-. unfold is_directory in Ed. destruct (lookup f p) eqn:El; [|discriminate].
    split; [apply same_fs_refl|]. split; [eauto|]. split; [discriminate|intuition congruence]. }
  unfold exists_ in H. destruct (lookup f p) as [n|] eqn:El.
  { injection H as <- <-. split; [apply same_fs_refl|]. split; [eauto|]. split; [discriminate|intuition congruence]. }
  destruct (writeability_new nd f p El) as [(Hp & Hc & g & Hg & Hs)|(Hn & m & Hg)]; rewrite Hg in H; injection H as <- <-.
  - split; [exact Hs|]. split; [congruence|]. tauto.
  - split; [apply same_fs_refl|]. split; [congruence|]. cbn. split; [discriminate|tauto].
Qed.

Lemma open_or_create_new_lemma nd mode exts f p f' r : output_file1 nd mode exts f p = (f', r) -> lookup f p = None ->
  same_fs f f' /\ (r = VOk <-> p <> "" /\ can_create f p /\ validate_filename exts p = VOk).
Proof.
  unfold output_file1, is_directory, exists_. intros H El. rewrite El in H.
  replace (match mode with OpenOrCreate => false | CreateNew => false end) with false in H by now destruct mode.
  destruct (writeability_new nd f p El) as [(Hp & Hc & g & Hg & Hs)|(Hn & m & Hg)]; rewrite Hg in H; injection H as <- <-.
  - split; [exact Hs|]. tauto.
  - split; [apply same_fs_refl|]. cbn. split; [discriminate|tauto].
Qed.

Lemma output_file_local nd mode exts f p f' r : output_file1 nd mode exts f p = (f', r) ->
  forall k, ~ at_or_below (comps p) k -> f' k = f k.
Proof.
  unfold output_file1. intros H k Hk. destruct (is_directory f p); [injection H as <- <-; reflexivity|].
  destruct (match mode with OpenOrCreate => false | CreateNew => exists_ f p end); [injection H as <- <-; reflexivity|].
  destruct (validate_writeability nd f p) as [g w] eqn:E. pose proof (writeability_local _ _ _ _ _ E k Hk).
  destruct w; injection H as <- <-; assumption.
Qed.

Lemma output_file_directory nd mode exts f p m : lookup f p = Some (NDir m) ->
  output_file1 nd mode exts f p = (f, VThrow (dq p +s+ " is a directory. Expected a file.")).
Proof. intros H. unfold output_file1, is_directory. now rewrite H. Qed.

(** an existing writable file in a writable directory is always removed, accepted or not *)
Lemma open_or_create_deletes nd exts f p c m : lookup f p = Some (NFile c m) -> f_writable m = true -> can_create f p ->
  fst (output_file1 nd OpenOrCreate exts f p) (comps p) = None /\
  snd (output_file1 nd OpenOrCreate exts f p) = validate_filename exts p.
Proof.
  intros El Hm Hc. assert (Hp : p <> "") by (intros ->; discriminate).
  assert (Ek : f (comps p) = Some (NFile c m)) by now rewrite <- (lookup_nonempty f p Hp).
  assert (E : output_file1 nd OpenOrCreate exts f p =
              (upd (upd f (comps p) (Some (NFile "" m))) (comps p) None, validate_filename exts p)).
  2:{ rewrite E. cbn. split; [apply upd_same|reflexivity]. }
  unfold output_file1, is_directory. rewrite El. unfold validate_writeability, is_directory. rewrite El.
  unfold open_write. rewrite (proj2 (is_empty_false p) Hp), Ek, Hm. cbn [negb].
  set (f1 := upd f (comps p) (Some (NFile "" m))).
  unfold remove. rewrite (lookup_nonempty f1 p Hp). unfold f1 at 1. rewrite upd_same. unfold f1 at 1.
  rewrite parent_writable_upd, (proj2 (parent_writable_iff f p) Hc). set (f2 := upd f1 (comps p) None).
  rewrite unwind_missing; [|rewrite (lookup_nonempty f2 p Hp); apply upd_same].
  reflexivity.
Qed.

(** a list of paths in create_new mode *)
Lemma create_new_list nd exts x : forall f f' r, output_file_validator nd CreateNew exts f x = (f', r) -> same_fs f f'.
Proof.
  assert (H1 : forall f v f' r, on_path (output_file1 nd CreateNew exts) f v = (f', r) -> same_fs f f').
  { intros f v f' r H. unfold on_path in H. destruct v; try (injection H as <- <-; apply same_fs_refl);
      apply create_new_lemma in H; tauto. }
  unfold output_file_validator, lift_range. intros f f' r H. destruct x; try (eapply H1; exact H).
  revert f H; induction l as [|a l IH]; intros f H; cbn [for_each] in H; [injection H as <- <-; apply same_fs_refl|].
  destruct (on_path (output_file1 nd CreateNew exts) f a) as [g o] eqn:E. apply H1 in E.
  destruct o; try (injection H as <- <-; exact E). eapply same_fs_trans; [exact E|]. apply IH, H.
Qed.

(** ** input validators *)

Lemma input_file_lemma exts f p : (forall m, lookup f p <> Some (NDir m)) ->
  input_file1 exts f p = VOk <->
  (exists c m, lookup f p = Some (NFile c m) /\ f_readable m = true) /\ validate_filename exts p = VOk.
Proof.
  intros Hd. unfold input_file1, exists_, validate_readability, is_directory, is_regular_file, open_read.
  destruct (lookup f p) as [[c m|m|m]|]; cbn.
  - destruct (f_readable m) eqn:E.
    + split; [|tauto]. intros H. split; [exists c, m; auto|exact H].
    + split; [discriminate|]. intros [(c' & m' & H1 & H2) _]. injection H1 as <- <-. congruence.
  - exfalso. now apply (Hd m).
  - split; [discriminate|]. intros [(c' & m' & H1 & H2) _]. discriminate.
  - split; [discriminate|]. intros [(c' & m' & H1 & H2) _]. discriminate.
Qed.

Lemma input_directory_lemma f p :
  input_directory1 f p = VOk <-> exists m, lookup f p = Some (NDir m) /\ f_readable m = true.
Proof.
  unfold input_directory1, exists_, validate_readability, is_directory, open_read.
  destruct (lookup f p) as [[c m|m|m]|]; cbn.
  - split; [discriminate|]. intros (m' & H & _). discriminate.
  - destruct (f_readable m) eqn:E.
    + split; [|reflexivity]. intros _. eauto.
    + split; [discriminate|]. intros (m' & H & H2). injection H as <-. congruence.
  - split; [discriminate|]. intros (m' & H & _). discriminate.
  - split; [discriminate|]. intros (m' & H & _). discriminate.
Qed.

(** ** output_directory_validator *)

Lemma tree_below f k : tree f -> (forall m, f k <> Some (NDir m)) -> forall l x, f (k ++ l ++ [x]) = None.
Proof.
  intros Ht Hk l. induction l as [|y l IH] using rev_ind; intros x.
  - cbn [app]. destruct (f (k ++ [x])) eqn:E; [|reflexivity]. destruct (Ht k x) as (m & Hm); [congruence|]. now apply Hk in Hm.
  - destruct (f (k ++ (l ++ [y]) ++ [x])) eqn:E; [|reflexivity].
    destruct (Ht (k ++ l ++ [y]) x) as (m & Hm).
    + rewrite <- app_assoc. congruence.
    + rewrite IH in Hm. discriminate.
Qed.

Lemma tree_below_none f k : tree f -> f k = None -> forall k', at_or_below k k' -> f k' = None.
Proof.
  intros Ht Hk k' (l & ->). destruct (key_cases l) as [->|(d & x & ->)]; [now rewrite app_nil_r|].
  apply tree_below; [exact Ht|]. intros m. congruence.
Qed.

Definition dir_ok (f : fs) (p : string) : Prop :=
  (exists m, lookup f p = Some (NDir m) /\ f_writable m = true) \/ (lookup f p = None /\ p <> "" /\ can_create f p).

Lemma can_create_dummy f p : p <> "" ->
  can_create f (path_join p "dummy.txt") <-> exists m, f (comps p) = Some (NDir m) /\ f_writable m = true.
Proof.
  intros Hp. unfold can_create. rewrite (comps_join p Hp). split.
  - intros (d & x & m & H & H1 & H2). apply app_inj_tail in H as [<- <-]. eauto.
  - intros (m & H1 & H2). exists (comps p), "dummy.txt", m. auto.
Qed.

Lemma output_directory_lemma nd f p : tree f ->
  (forall m, lookup f p = Some (NDir m) -> f (comps p ++ ["dummy.txt"]) = None) ->
  exists f' r, output_directory1 nd f p = (f', r) /\ same_fs f f' /\ (r = VOk <-> dir_ok f p).
Proof.
  intros Ht Hd. unfold output_directory1, exists_, create_directory, dir_ok.
  destruct (is_empty p) eqn:Ep.
  { apply is_empty_iff in Ep. subst p. cbn. eexists _, _. split; [reflexivity|]. split; [apply same_fs_refl|].
    split; [discriminate|]. intros [(m & H & _)|(_ & H & _)]; [discriminate|congruence]. }
  apply is_empty_false in Ep. rewrite (lookup_nonempty f p Ep) in *. set (q := path_join p "dummy.txt").
  assert (Hq : q <> "") by apply path_join_nonempty.
  destruct (f (comps p)) as [[c m|m|m]|] eqn:Ek.
  - eexists _, _. split; [reflexivity|]. split; [apply same_fs_refl|]. split; [discriminate|].
    intros [(m' & H & _)|(H & _)]; discriminate.
  - cbn [negb]. assert (Hl : lookup f q = None).
    { rewrite (lookup_nonempty f q Hq). unfold q. rewrite (comps_join p Ep). now apply (Hd m). }
    destruct (writeability_new nd f q Hl) as [(_ & Hc & g & Hg & Hs)|(Hn & msg & Hg)]; fold q; rewrite Hg;
      eexists _, _; (split; [reflexivity|]).
    + split; [exact Hs|]. split; [|reflexivity]. intros _. left. apply can_create_dummy in Hc; [|exact Ep].
      destruct Hc as (m' & H1 & H2). rewrite Ek in H1. eauto.
    + split; [apply same_fs_refl|]. split; [discriminate|]. intros [(m' & H1 & H2)|(H & _)]; [|discriminate].
      exfalso. apply Hn. split; [exact Hq|]. apply can_create_dummy; [exact Ep|]. rewrite Ek. eauto.
  - eexists _, _. split; [reflexivity|]. split; [apply same_fs_refl|]. split; [discriminate|].
    intros [(m' & H & _)|(H & _)]; discriminate.
  - destruct (parent_writable f (comps p)) eqn:Hw; cbn [negb].
    + set (f1 := upd f (comps p) (Some (NDir rw))).
      assert (Hl : lookup f1 q = None).
      { rewrite (lookup_nonempty f1 q Hq). unfold q. rewrite (comps_join p Ep). unfold f1.
        rewrite upd_other; [|intros H; symmetry in H; now apply app_cons_neq in H].
        apply (tree_below_none f (comps p) Ht Ek). now exists ["dummy.txt"]. }
      destruct (writeability_new nd f1 q Hl) as [(_ & Hc & g & Hg & Hs)|(Hn & msg & Hg)].
      2:{ exfalso. apply Hn. split; [exact Hq|]. apply can_create_dummy; [exact Ep|]. exists rw. unfold f1. now rewrite upd_same. }
      fold q. rewrite Hg. unfold remove_all. rewrite (lookup_nonempty g p Ep), <- (Hs (comps p)). unfold f1 at 1. rewrite upd_same.
      assert (Hpw : parent_writable g (comps p) = true).
      { apply parent_writable_iff. apply parent_writable_iff in Hw. destruct Hw as (d & x & m & H1 & H2 & H3).
        exists d, x, m. split; [exact H1|]. split; [|exact H3]. rewrite <- (Hs d). unfold f1. rewrite upd_other; [exact H2|].
        rewrite H1. apply app_cons_neq. }
      rewrite Hpw. set (f3 := fun k => if list_prefixb (comps p) k then None else g k).
      rewrite unwind_missing.
      2:{ rewrite (lookup_nonempty f3 p Ep). unfold f3. now rewrite (proj2 (list_prefixb_iff _ _) (at_or_below_refl _)). }
      cbn. eexists _, _. split; [reflexivity|]. split.
      * intros k. unfold f3. destruct (list_prefixb (comps p) k) eqn:E.
        -- apply list_prefixb_iff in E. now apply (tree_below_none f (comps p)).
        -- rewrite <- (Hs k). unfold f1. rewrite upd_other; [reflexivity|]. intros <-.
           rewrite (proj2 (list_prefixb_iff _ _) (at_or_below_refl _)) in E. discriminate.
      * split; [|reflexivity]. intros _. right. split; [reflexivity|]. split; [exact Ep|]. now apply parent_writable_iff.
    + eexists _, _. split; [reflexivity|]. split; [apply same_fs_refl|]. split; [discriminate|].
      intros [(m' & H & _)|(_ & _ & H)]; [discriminate|]. apply parent_writable_iff in H. congruence.
Qed.

(** outside the directory's dummy.txt nothing ever changes in an existing directory *)
Lemma output_directory_local nd f p m f' r : lookup f p = Some (NDir m) -> output_directory1 nd f p = (f', r) ->
  forall k, ~ at_or_below (comps p ++ ["dummy.txt"]) k -> f' k = f k.
Proof.
  intros Hl. unfold output_directory1, exists_, create_directory. rewrite Hl.
  assert (Hp : p <> "") by (intros ->; discriminate). rewrite (proj2 (is_empty_false p) Hp).
  rewrite (lookup_nonempty f p Hp) in Hl. rewrite Hl. cbn [negb].
  destruct (validate_writeability nd f (path_join p "dummy.txt")) as [g w] eqn:E. intros H k Hk. injection H as <- <-.
  rewrite <- (comps_join p Hp) in Hk. exact (writeability_local _ _ _ _ _ E k Hk).
Qed.

(** ** Reading validators on single paths and lists of paths *)

Definition on_val (g : string -> vout) (v : val) : vout := match v with VStr s | VPath s => g s | _ => VOk end.

Lemma for_each_reading g f l :
  for_each (on_path (fun f p => (f, g f p))) f l = for_each (pure_validator (on_val (g f))) f l.
Proof.
  induction l as [|a l IH]; [reflexivity|]. cbn [for_each]. unfold on_path, pure_validator in *.
  destruct a; cbn [on_val]; try exact IH; destruct (g f s); auto.
Qed.

Lemma lift_reading g f x :
  lift_range (on_path (fun f p => (f, g f p))) f x = lift_range (pure_validator (on_val (g f))) f x.
Proof. unfold lift_range. destruct x; try reflexivity. apply for_each_reading. Qed.

Lemma reading_lemma g f x ps : paths_of x ps ->
  exists r, lift_range (on_path (fun f p => (f, g f p))) f x = (f, r) /\ (r = VOk <-> Forall (fun p => g f p = VOk) ps).
Proof.
  intros Hx. rewrite lift_reading.
  assert (Hall : Forall (fun a => on_val (g f) a = VOk) (elements x) <-> Forall (fun p => g f p = VOk) ps).
  { destruct Hx as [-> | ->]; rewrite !Forall_forall; split; intros H.
    - intros p Hp. apply (H (VPath p)). now apply in_map.
    - intros v Hv. apply in_map_iff in Hv as (p & <- & Hp). cbn. auto.
    - intros p Hp. apply (H (VStr p)). now apply in_map.
    - intros v Hv. apply in_map_iff in Hv as (p & <- & Hp). cbn. auto. }
  destruct (lift_pure_spec (on_val (g f)) f x (fun _ _ => I)) as [[Ha Hr]|(l & a & l' & He & Hl & Ha & Hr)]; rewrite Hr.
  - exists VOk. split; [reflexivity|]. tauto.
  - exists (on_val (g f) a). split; [reflexivity|]. split; [tauto|]. intros H. apply Hall in H.
    rewrite He in H. apply Forall_app in H as [_ H]. now inversion_clear H.
Qed.

Lemma name_ok_iff exts p name : plain_name exts p name -> validate_filename exts p = VOk <-> name_ok exts name.
Proof.
  intros (Hl & Hd & H7 & He). unfold name_ok. destruct exts as [|e l] eqn:E.
  - cbn. split; auto.
  - rewrite <- E in *. assert (Hne : exts <> []) by now subst.
    destruct (validate_filename_iff _ p name Hl Hd Hne H7 He) as [[H1 H2]|[(m & H1) H2]]; rewrite H1.
    + tauto.
    + split; [discriminate|]. intros [H3|H3]; [congruence|tauto].
Qed.

Definition readable_file (f : fs) (p : string) : Prop := exists c m, lookup f p = Some (NFile c m) /\ f_readable m = true.
Definition readable_dir (f : fs) (p : string) : Prop := exists m, lookup f p = Some (NDir m) /\ f_readable m = true.
Definition is_dir (f : fs) (p : string) : Prop := exists m, lookup f p = Some (NDir m).

Lemma input_file_validator_lemma exts f x ps : paths_of x ps ->
  Forall (fun p => ~ is_dir f p /\ exists name, plain_name exts p name) ps ->
  exists r, input_file_validator exts f x = (f, r) /\
    (r = VOk <-> Forall (fun p => readable_file f p /\ forall name, last_component p name -> name_ok exts name) ps).
Proof.
  intros Hx Hps. destruct (reading_lemma (input_file1 exts) f x ps Hx) as (r & H1 & H2).
  exists r. split; [exact H1|]. rewrite H2. rewrite Forall_forall in Hps. rewrite !Forall_forall.
  assert (H : forall p, In p ps -> (input_file1 exts f p = VOk <->
    readable_file f p /\ forall name, last_component p name -> name_ok exts name)).
  { intros p Hp. destruct (Hps p Hp) as [Hd (name & Hn)].
    rewrite input_file_lemma by (intros m Hm; apply Hd; now exists m). rewrite (name_ok_iff exts p name Hn).
    unfold readable_file. split; intros [G1 G2]; (split; [exact G1|]).
    - intros n' Hn'. apply last_component_filename in Hn'. destruct Hn as [Hl _]. apply last_component_filename in Hl. congruence.
    - apply G2. apply Hn. }
  split; intros G p Hp; apply H; auto.
Qed.

Lemma input_directory_validator_lemma f x ps : paths_of x ps ->
  exists r, input_directory_validator f x = (f, r) /\ (r = VOk <-> Forall (readable_dir f) ps).
Proof.
  intros Hx. destruct (reading_lemma input_directory1 f x ps Hx) as (r & H1 & H2).
  exists r. split; [exact H1|]. rewrite H2, !Forall_forall. split; intros H p Hp; apply input_directory_lemma; apply (H p Hp).
Qed.

(** ** Statements used by PropValidators.v *)

Lemma ext_listed_accepted exts p name : last_component p name -> name <> ".." -> seven_bit name -> Forall seven_bit exts ->
  ext_listed exts name -> validate_filename exts p = VOk.
Proof.
  intros Hl Hd H7 He H. assert (Hne : exts <> []) by (destruct H as (a & b & e & _ & _ & Hin & _); now destruct exts).
  apply ext_listed_suffix in H. destruct (validate_filename_iff exts p name Hl Hd Hne H7 He) as [[H1 _]|[_ H1]]; tauto.
Qed.

Lemma ext_dotted_iff exts p name : last_component p name -> name <> ".." -> exts <> [] -> seven_bit name -> Forall seven_bit exts ->
  Forall (fun e => exists s, e = String "." s) exts -> snth 0 name <> Some "."%char ->
  validate_filename exts p = VOk <-> ext_listed (map (sdrop 1) exts) name.
Proof.
  intros Hl Hd Hne H7 He Hdot Hn. split.
  - intros H. apply ext_suffix_listed; auto.
    destruct (validate_filename_iff exts p name Hl Hd Hne H7 He) as [[_ H1]|[(m & H1) _]]; [exact H1|congruence].
  - intros (a & b & ext & -> & Ha & Hin & Hs). apply in_map_iff in Hin as (e & <- & Hin).
    rewrite Forall_forall in Hdot. destruct (Hdot _ Hin) as (s & ->). cbn [sdrop] in Hs.
    destruct (validate_filename_iff exts p _ Hl Hd Hne H7 He) as [[H1 _]|[_ H1]]; [exact H1|].
    exfalso. apply H1. split; [now exists a, b|]. exists a, (String "." b), (String "." s).
    split; [reflexivity|]. split; [exact Hin|]. split; [|intros ->; exact Hn].
    constructor; [now left|exact Hs].
Qed.

Lemma create_new_accepts nd exts p name f : plain_name exts p name ->
  snd (output_file_validator nd CreateNew exts f (VPath p)) = VOk <->
  lookup f p = None /\ p <> "" /\ can_create f p /\ name_ok exts name.
Proof.
  intros Hn. rewrite <- (name_ok_iff exts p name Hn).
  unfold output_file_validator, lift_range, on_path. destruct (output_file1 nd CreateNew exts f p) as [f' r] eqn:E.
  apply create_new_lemma in E. tauto.
Qed.

Lemma ext_refuted : exists exts p name,
  last_component p name /\ name = "reads.bsam" /\ exts = ["sam"] /\ validate_filename exts p = VOk /\ ~ ext_listed exts name.
Proof.
  exists ["sam"], "reads.bsam", "reads.bsam". split; [split; auto|]. split; [reflexivity|]. split; [reflexivity|].
  split; [reflexivity|]. intros (a & b & ext & E & _ & [<-|[]] & Hs).
  apply same_text_length in Hs. cbn in Hs.
  assert (Ha : String.length a = 6).
  { apply (f_equal String.length) in E. rewrite length_app_s in E. cbn in E. lia. }
  apply (f_equal (String.get (String.length a + 0))) in E. rewrite get_app, Ha in E. discriminate.
Qed.

Lemma ext_case : last_component "dir.x/Reads.FA.gz" "Reads.FA.gz" /\ ext_listed ["bam"; "fa.GZ"] "Reads.FA.gz" /\
  seven_bit "Reads.FA.gz" /\ Forall seven_bit ["bam"; "fa.GZ"] /\
  map (validate_filename ["fa"]) ["x.fa"; "x"; ".fa"; "a/x.fq.gz"] =
  [VOk; VThrow "The given filename x has no extension. Expected one of the following valid extensions:[fa]!";
   VThrow "The given filename .fa has no extension. Expected one of the following valid extensions:[fa]!";
   VThrow "Expected one of the following valid extensions: [fa]! Got fq.gz instead!"].
Proof.
  assert (H7 : forall s, forallb (fun c => N.ltb (code c) 128) (chars s) = true -> seven_bit s).
  { intros s H c Hc. rewrite forallb_forall in H. apply N.ltb_lt, H, Hc. }
  split; [split; [reflexivity|right; now exists "dir.x"]|].
  split; [|split; [now apply H7|split; [constructor; [now apply H7|constructor; [now apply H7|constructor]]|vm_compute; reflexivity]]].
  exists "Reads", "FA.gz", "fa.GZ". split; [reflexivity|]. split; [discriminate|]. split; [cbn; auto|].
  unfold same_text. repeat first [apply Forall2_nil | apply Forall2_cons]; apply same_letter_iff; vm_compute; reflexivity.
Qed.
