(** Proofs about verdict, message and effect of the validators for files and directories (C96). *)
From Verif Require Import Base StrLib Fs Values ValuesSpec Validators ValidatorsSpec ValidatorsProofs ValidatorsFiles ValidatorsFs PromiseSpec PromiseProofs FilesSpec.

(** ** Paths *)

Lemma slashless_iff s : slashless s <-> scontains slash s = false.
Proof. unfold slashless. symmetry. apply no_char. Qed.

Lemma split_slashless n : slashless n -> forall acc, split_slash n acc = [acc +s+ n].
Proof.
  intros H. apply slashless_iff in H. induction n as [|c n IH]; intros acc; cbn in *; [now rewrite app_nil_r_s|].
  apply orb_false_iff in H. destruct H as [H1 H2]. rewrite Ascii.eqb_sym in H1. rewrite H1, (IH H2), app_assoc_s. reflexivity.
Qed.
Lemma comps_on n p : slashless n -> comps (n +s+ "/" +s+ p) = comps n ++ comps p.
Proof.
  intros H. unfold comps. change (n +s+ "/" +s+ p) with (n +s+ String slash p). rewrite split_slash_app, filter_app. reflexivity.
Qed.
Lemma leads_comps p k : leads p k -> comps p = k.
Proof.
  induction 1 as [n [-> | ->]|n N D S|n p k k' S _ IH1 _ IH2]; [reflexivity|reflexivity| |].
  - unfold comps. rewrite (split_slashless n S). cbn [String.append filter].
    rewrite (proj2 (is_empty_false n) N), (proj2 (String.eqb_neq _ _) D). reflexivity.
  - rewrite (comps_on n p S). now rewrite IH1, IH2.
Qed.
Lemma path_cases p : slashless p \/ exists n q, slashless n /\ p = n +s+ "/" +s+ q.
Proof.
  induction p as [|c p IH]; [left; intros []|]. destruct (Ascii.eqb_spec c "/"%char) as [->|N].
  - right. exists "", p. split; [intros []|reflexivity].
  - destruct IH as [S|(n & q & S & ->)].
    + left. intros [E|E]; [congruence|exact (S E)].
    + right. exists (String c n), q. split; [|reflexivity]. intros [E|E]; [congruence|exact (S E)].
Qed.
Lemma leads_slashless n : slashless n -> leads n (comps n).
Proof.
  intros S. destruct (string_dec n "") as [->|N]; [apply leads_stay; now left|]. destruct (string_dec n ".") as [->|D]; [apply leads_stay; now right|].
  pose proof (leads_name n N D S) as L. now rewrite (leads_comps _ _ L).
Qed.
Lemma leads_total p : leads p (comps p).
Proof.
  remember (String.length p) as l eqn:E. revert p E. induction l as [l IH] using (well_founded_induction Wf_nat.lt_wf). intros p ->.
  destruct (path_cases p) as [S|(n & q & S & ->)]; [now apply leads_slashless|].
  rewrite (comps_on n q S). apply leads_on; [exact S|now apply leads_slashless|]. apply (IH (String.length q)); [|reflexivity].
  rewrite !length_app_s. cbn. lia.
Qed.
Lemma leads_iff p k : leads p k <-> comps p = k.
Proof. split; [apply leads_comps|]. intros <-. apply leads_total. Qed.
Lemma there_iff f p n : there f p n <-> lookup f p = n.
Proof.
  unfold there, lookup. destruct (is_empty p); [split; congruence|]. split.
  - intros (k & L & E). now rewrite (leads_comps _ _ L).
  - intros E. exists (comps p). split; [apply leads_total|exact E].
Qed.
Lemma room_iff f p : room f p <-> can_create f p.
Proof.
  unfold room, can_create. split; intros (d & x & m & L & A & B); exists d, x, m; repeat split; try assumption; now apply leads_iff.
Qed.
Lemma room_writable f p : room f p <-> parent_writable f (comps p) = true.
Proof. rewrite room_iff. symmetry. apply parent_writable_iff. Qed.
Lemma no_room_writable f p : ~ room f p <-> parent_writable f (comps p) = false.
Proof. rewrite room_writable. destruct (parent_writable _ _); split; congruence. Qed.

(** ** Names *)

Lemma bracket_text exts a b : a +s+ Values.bracket exts +s+ b = a +s+ "[" +s+ join_comma exts +s+ "]" +s+ b.
Proof. unfold Values.bracket. now rewrite !app_assoc_s. Qed.

Lemma dot_split s : (exists n, sfind "." s = Some n) -> exists a, s = a +s+ "." +s+ after_first_dot s /\ ~ In "."%char (chars a).
Proof.
  unfold after_first_dot. induction s as [|c s IH]; intros [n E]; [vm_compute in E; discriminate|].
  destruct (Ascii.eqb_spec c "."%char) as [->|N].
  - exists "". cbn [sfind]. rewrite Ascii.eqb_refl. split; [reflexivity|intros []].
  - assert (F : sfind "." (String c s) = option_map S (sfind "." s)).
    { cbn [sfind]. destruct (Ascii.eqb_spec "." c) as [X|X]; [congruence|reflexivity]. }
    rewrite F in E |- *. destruct (sfind "." s) as [k|] eqn:G; [|discriminate]. cbn [option_map]. destruct IH as (a & A & B); [eauto|].
    exists (String c a). split; [cbn [String.append sdrop]; f_equal; exact A|]. intros [X|X]; [congruence|exact (B X)].
Qed.

Lemma drop_dot_split name : without_dot name (drop_dot name).
Proof.
  destruct name as [|c s]; cbn [drop_dot]; [right; split; [reflexivity|discriminate]|]. destruct (Ascii.eqb_spec c "."%char) as [->|N]; [now left|].
  right. split; [reflexivity|]. intros t E. injection E as E _. congruence.
Qed.
Lemma inner_dot name : (exists a b, name = a +s+ "." +s+ b /\ a <> "") -> exists n, sfind "." (drop_dot name) = Some n.
Proof.
  intros (a & b & -> & N). destruct a as [|c a]; [congruence|]. cbn [String.append drop_dot].
  assert (H : forall a, exists n, sfind "." (a +s+ String "." b) = Some n).
  { clear. induction a as [|c a [n IH]]; cbn [String.append sfind]; [rewrite Ascii.eqb_refl; eauto|]. destruct (Ascii.eqb "." c); [eauto|]. rewrite IH. cbn. eauto. }
  destruct (Ascii.eqb c "."); [apply H|exact (H (String c a))].
Qed.

Lemma name_verdict_lemma exts p name : plain_name exts p name -> name_verdict exts p name (validate_filename exts p).
Proof.
  intros (L & DD & H7 & E7). destruct exts as [|e0 l]; [now apply nv_any|]. assert (NE : e0 :: l <> []) by discriminate.
  destruct (validate_filename_iff (e0 :: l) p name L DD NE H7 E7) as [[-> S]|[[m M0] S]]; [now apply nv_good|].
  revert M0. unfold validate_filename. destruct (has_extension p) eqn:HE; cbn [negb].
  - pose proof (proj1 (has_extension_iff p name L DD) HE) as D. rewrite (last_component_filename p name L).
    destruct (any_ext (drop_dot name) (e0 :: l)) as [[]|]; try discriminate. intros _. rewrite bracket_text.
    destruct (dot_split _ (inner_dot name D)) as (a & A & B). pose proof (drop_dot_split name) as W. rewrite A in W.
    pose proof (nv_bad (e0 :: l) p name _ _ _ NE S W B (sep_join (e0 :: l))) as X. cbn [String.append] in X |- *. rewrite ?app_assoc_s in X |- *. exact X.
  - intros _. assert (D : ~ exists a b, name = a +s+ "." +s+ b /\ a <> "") by (rewrite <- (has_extension_iff p name L DD); congruence).
    rewrite bracket_text.
    pose proof (nv_none (e0 :: l) p name _ NE D (sep_join (e0 :: l))) as X. cbn [String.append] in X |- *. rewrite ?app_assoc_s in X |- *. exact X.
Qed.

(** ** Reading *)

Lemma reads_lemma f p n : lookup f p = Some n -> reads f p n (validate_readability f p).
Proof.
  intros E. unfold validate_readability, is_directory, is_regular_file, open_read. rewrite E. destruct n as [c m|m|m]; cbn [negb reads]; try reflexivity; destruct (f_readable m); reflexivity.
Qed.
Lemma input_file_says_lemma exts name f p f' r : plain_name exts p name -> input_file_validator exts f (VPath p) = (f', r) ->
  f' = f /\ input_file_says exts name f p r.
Proof.
  intros N E. cbn in E. injection E as <- <-. split; [reflexivity|]. unfold input_file1, exists_, input_file_says. destruct (lookup f p) as [n|] eqn:LK; cbn [negb].
  - right. exists n, (validate_readability f p). split; [now apply there_iff|]. split; [now apply reads_lemma|].
    destruct (validate_readability f p); try reflexivity. now apply name_verdict_lemma.
  - left. split; [now apply there_iff|reflexivity].
Qed.
Lemma input_directory_says_lemma f p f' r : input_directory_validator f (VPath p) = (f', r) -> f' = f /\ input_directory_says f p r.
Proof.
  intros E. cbn in E. injection E as <- <-. split; [reflexivity|]. unfold input_directory1, exists_, is_directory, input_directory_says. destruct (lookup f p) as [n|] eqn:LK; cbn [negb].
  - right. exists n. split; [now apply there_iff|]. destruct n; cbn [negb]; try reflexivity. now apply reads_lemma.
  - left. split; [now apply there_iff|reflexivity].
Qed.

(** ** Writing *)

Definition refusal (r : wout) : option vout := match r with WOk => None | _ => Some (of_wout r) end.

Lemma tries_lemma nd f p f' r : tree f -> validate_writeability nd f p = (f', r) -> tries nd f p f' (refusal r).
Proof.
  intros T E. unfold tries. exists (lookup f p). split; [now apply there_iff|]. unfold validate_writeability, is_directory in E.
  destruct (lookup f p) as [n|] eqn:LK.
  - assert (P : p <> "") by (intros ->; discriminate). assert (K : f (comps p) = Some n) by (rewrite <- lookup_nonempty; assumption).
    assert (PE : is_empty p = false) by (now apply is_empty_false).
    assert (NB : (forall m, n <> NDir m) -> forall k', at_or_below (comps p) k' -> k' <> comps p -> f k' = None).
    { intros ND k' [l ->] NK. destruct l as [|x l] using rev_ind; [rewrite app_nil_r in NK; congruence|]. apply (tree_below f (comps p) T). rewrite K. intros m E'. injection E' as ->. exact (ND m eq_refl). }
    assert (GO : (forall m, n <> NDir m) -> forall g, (forall k, g k = if list_prefixb (comps p) k then None else f k) -> without f p g).
    { intros _ g G. exists (comps p). split; [apply leads_total|]. split; intros k' H; rewrite G.
      - now rewrite (proj2 (list_prefixb_iff _ _) H).
      - destruct (list_prefixb (comps p) k') eqn:X; [|reflexivity]. apply list_prefixb_iff in X. tauto. }
    destruct n as [c m|m|m]; cbn in E.
    + unfold open_write in E. rewrite PE, K in E. destruct (f_writable m) eqn:W; cbn [negb] in E.
      * unfold remove in E. rewrite lookup_nonempty in E by exact P. rewrite upd_same, parent_writable_upd in E. destruct (parent_writable f (comps p)) eqn:PW.
        -- rewrite unwind_missing in E by (rewrite lookup_nonempty by exact P; apply upd_same). injection E as <- <-. left.
           split; [now apply room_writable|]. split; [|reflexivity]. apply GO; [discriminate|]. intros k. unfold upd.
           destruct (list_eqb (comps p) k) eqn:EQ.
           ++ apply list_eqb_eq in EQ. subst k. now rewrite (proj2 (list_prefixb_iff _ _) (at_or_below_refl _)).
           ++ destruct (list_prefixb (comps p) k) eqn:X; [|reflexivity]. apply list_prefixb_iff in X. apply NB; [discriminate|exact X|]. intros ->. rewrite list_eqb_refl in EQ. discriminate.
        -- unfold unwind, guard_destroy, remove_all in E. rewrite lookup_nonempty in E by exact P. rewrite upd_same, parent_writable_upd, PW in E. cbn in E.
           right; right. split; [now apply no_room_writable|]. split; [reflexivity|].
           assert (EM : emptied f p (upd f (comps p) (Some (NFile "" m)))).
           { exists (comps p), c, m. split; [apply leads_total|]. split; [exact K|]. split; [apply upd_same|]. intros k' NK. apply upd_other. congruence. }
           destruct nd; injection E as <- <-; split; try exact EM; reflexivity.
      * unfold unwind, guard_destroy, remove_all in E. rewrite LK in E. destruct (parent_writable f (comps p)) eqn:PW; cbn in E.
        -- injection E as <- <-. left. split; [now apply room_writable|]. split; [|reflexivity]. now apply GO.
        -- right; left. split; [now apply no_room_writable|]. split; [reflexivity|]. destruct nd; injection E as <- <-; split; try apply same_fs_refl; reflexivity.
    + injection E as <- <-. split; [apply same_fs_refl|reflexivity].
    + unfold open_write in E. rewrite PE, K in E. destruct (f_writable m) eqn:W; cbn [negb] in E.
      * unfold remove in E. rewrite LK in E. destruct (parent_writable f (comps p)) eqn:PW.
        -- rewrite unwind_missing in E by (rewrite lookup_nonempty by exact P; apply upd_same). injection E as <- <-. left.
           split; [now apply room_writable|]. split; [|reflexivity]. apply GO; [discriminate|]. intros k. unfold upd.
           destruct (list_eqb (comps p) k) eqn:EQ.
           ++ apply list_eqb_eq in EQ. subst k. now rewrite (proj2 (list_prefixb_iff _ _) (at_or_below_refl _)).
           ++ destruct (list_prefixb (comps p) k) eqn:X; [|reflexivity]. apply list_prefixb_iff in X. apply NB; [discriminate|exact X|]. intros ->. rewrite list_eqb_refl in EQ. discriminate.
        -- unfold unwind, guard_destroy, remove_all in E. rewrite LK, PW in E. cbn in E.
           right; right. split; [now apply no_room_writable|]. split; [reflexivity|].
           destruct nd; injection E as <- <-; split; try apply same_fs_refl; reflexivity.
      * unfold unwind, guard_destroy, remove_all in E. rewrite LK in E. destruct (parent_writable f (comps p)) eqn:PW; cbn in E.
        -- injection E as <- <-. left. split; [now apply room_writable|]. split; [|reflexivity]. now apply GO.
        -- right; left. split; [now apply no_room_writable|]. split; [reflexivity|]. destruct nd; injection E as <- <-; split; try apply same_fs_refl; reflexivity.
  - destruct (lookup_none_cases f p LK) as [->|[P K]].
    + cbn in E. injection E as <- <-. split; [apply same_fs_refl|]. right. split; [|reflexivity]. now apply no_room_writable.
    + unfold open_write in E. rewrite (proj2 (is_empty_false p) P), K in E. destruct (parent_writable f (comps p)) eqn:PW; cbn [negb] in E.
      * unfold remove in E. rewrite lookup_nonempty in E by exact P. rewrite upd_same, parent_writable_upd, PW in E.
        rewrite unwind_missing in E by (rewrite lookup_nonempty by exact P; apply upd_same). injection E as <- <-. split.
        -- intros k. unfold upd. destruct (list_eqb (comps p) k) eqn:EQ; [|reflexivity]. apply list_eqb_eq in EQ. now subst.
        -- left. split; [now apply room_writable|reflexivity].
      * rewrite unwind_missing in E by exact LK. injection E as <- <-. split; [apply same_fs_refl|]. right. split; [now apply no_room_writable|reflexivity].
Qed.

Lemma output_file_says_lemma nd mode exts name f p f' r : tree f -> plain_name exts p name -> output_file_validator nd mode exts f (VPath p) = (f', r) ->
  output_file_says nd mode exts name f p f' r.
Proof.
  intros T N E. cbn in E. unfold output_file1, is_directory, exists_ in E. unfold output_file_says.
  assert (W : forall g q, validate_writeability nd f p = (g, q) -> (match q with WOk => (g, validate_filename exts p) | _ => (g, of_wout q) end) = (f', r) ->
     exists q, tries nd f p f' q /\ match q with None => name_verdict exts p name r | Some e => r = e end).
  { intros g q V E'. pose proof (tries_lemma nd f p g q T V) as X. exists (refusal q). destruct q; injection E' as <- <-; (split; [exact X|]); cbn; try reflexivity. now apply name_verdict_lemma. }
  destruct (lookup f p) as [n|] eqn:LK.
  - assert (D : (exists m, n = NDir m) \/ (forall m, n <> NDir m)) by (destruct n; [right; discriminate|left; eauto|right; discriminate]).
    destruct D as [[m ->]|D]; [left; exists m; injection E as <- <-; split; [now apply there_iff|]; split; [apply same_fs_refl|reflexivity]|].
    assert (D' : forall m, ~ there f p (Some (NDir m))) by (intros m H; apply there_iff in H; rewrite LK in H; injection H as H; exact (D m H)).
    destruct mode.
    + right; right. split; [exact D'|]. split; [discriminate|]. destruct (validate_writeability nd f p) as [g q] eqn:V. apply (W g q eq_refl).
      destruct n as [c m|m|m]; [|destruct (D m eq_refl)|]; destruct q; exact E.
    + right; left. split; [exact D'|]. split; [reflexivity|]. split; [intros H; apply there_iff in H; congruence|].
      destruct n as [c m|m|m]; [|destruct (D m eq_refl)|]; injection E as <- <-; (split; [apply same_fs_refl|reflexivity]).
  - right; right. split; [intros m H; apply there_iff in H; congruence|]. split; [intros _; now apply there_iff|].
    destruct (validate_writeability nd f p) as [g q] eqn:V. apply (W g q eq_refl). destruct mode; destruct q; exact E.
Qed.

Lemma slash_end p c : last_chr p = Some c -> (c = "/"%char <-> exists s, p = s +s+ "/").
Proof.
  intros E. split.
  - intros ->. exact (last_chr_some p _ E).
  - intros [s ->]. assert (H : last_chr (s +s+ "/") = Some "/"%char).
    { clear. induction s as [|d s IH]; [reflexivity|]. cbn [String.append last_chr]. destruct (s +s+ "/") eqn:X; [destruct s; discriminate|exact IH]. }
    congruence.
Qed.

Lemma output_directory_says_lemma nd f p f' r : tree f -> output_directory_validator nd f (VPath p) = (f', r) -> output_directory_says nd f p f' r.
Proof.
  intros T E. change (output_directory1 nd f p = (f', r)) in E. unfold output_directory_says. destruct (lookup f p) as [n|] eqn:LK.
  - assert (P : p <> "") by (intros ->; discriminate). assert (PE : is_empty p = false) by (now apply is_empty_false).
    assert (K : f (comps p) = Some n) by (rewrite <- lookup_nonempty; assumption).
    assert (D : (exists m, n = NDir m) \/ (forall m, n <> NDir m)) by (destruct n; [right; discriminate|left; eauto|right; discriminate]).
    unfold output_directory1, exists_, create_directory in E. rewrite LK, PE, K in E. destruct D as [[m ->]|D].
    + left. cbn [negb] in E. destruct (validate_writeability nd f (path_join p "dummy.txt")) as [g q] eqn:V. injection E as <- <-.
      exists m, (refusal q), (path_join p "dummy.txt"). split; [now apply there_iff|]. split; [|split; [now apply tries_lemma|destruct q; reflexivity]].
      unfold path_join. destruct (last_chr p) as [c|] eqn:LC; [|apply last_chr_none in LC; congruence]. pose proof (slash_end p c LC) as SE.
      destruct (Ascii.eqb_spec c slash) as [->|NS].
      * left. destruct (proj1 SE eq_refl) as [s S]. exists s. split; [exact S|reflexivity].
      * right. split; [|reflexivity]. intros s S. apply NS, SE. now exists s.
    + right; right. split; [intros m H; apply there_iff in H; rewrite LK in H; injection H as H; exact (D m H)|].
      split; [intros [H _]; apply there_iff in H; congruence|]. destruct n as [c m|m|m]; [|destruct (D m eq_refl)|]; injection E as <- <-; (split; [apply same_fs_refl|reflexivity]).
  - destruct (parent_writable f (comps p)) eqn:PW.
    + right; left. split; [now apply there_iff|]. split; [now apply room_writable|].
      destruct (output_directory_lemma nd f p T) as (g & q & E' & S & R); [intros m H; congruence|]. rewrite E in E'. injection E' as <- <-. split; [exact S|]. apply R.
      right. split; [exact LK|]. split; [intros ->; discriminate PW|now apply parent_writable_iff].
    + right; right. split; [intros m H; apply there_iff in H; congruence|]. split; [intros [_ H]; apply room_writable in H; congruence|].
      unfold output_directory1, create_directory in E. destruct (is_empty p) eqn:PE; [injection E as <- <-; split; [apply same_fs_refl|reflexivity]|].
      apply is_empty_false in PE. rewrite (lookup_nonempty f p PE) in LK. rewrite LK, PW in E. injection E as <- <-. split; [apply same_fs_refl|reflexivity].
Qed.

(** ** Lists *)

Lemma in_turn_lemma (g : fs -> string -> fs * vout) f x ps f' r : paths_of x ps -> lift_range (on_path g) f x = (f', r) ->
  in_turn (fun f p f' r => lift_range (on_path g) f (VPath p) = (f', r)) f ps f' r.
Proof.
  intros PX E. destruct x as [z|b|s|s|z|q|s|l]; unfold paths_of in PX; cbn [elements] in PX;
    try (exfalso; destruct PX as [PX|PX]; destruct ps as [|? [|? ?]]; discriminate).
  - assert (ps = [s]) as -> by (destruct PX as [PX|PX]; destruct ps as [|? [|? ?]]; cbn in PX; try discriminate; injection PX as ->; reflexivity).
    cbn in E. destruct r; try (eapply turn_stop; [cbn; exact E|discriminate]). eapply turn_next; [cbn; exact E|constructor].
  - assert (ps = [s]) as -> by (destruct PX as [PX|PX]; destruct ps as [|? [|? ?]]; cbn in PX; try discriminate; injection PX as ->; reflexivity).
    cbn in E. destruct r; try (eapply turn_stop; [cbn; exact E|discriminate]). eapply turn_next; [cbn; exact E|constructor].
  - cbn in E. assert (Q : forall a p, a = VPath p \/ a = VStr p -> forall f, on_path g f a = g f p) by (intros a p [-> | ->] h; reflexivity).
    assert (F : Forall2 (fun a p => a = VPath p \/ a = VStr p) l ps).
    { destruct PX as [-> | ->]; clear; induction ps; cbn; constructor; auto. }
    clear PX. revert f E. induction F as [|a p l ps A _ IH]; intros f E; cbn [for_each] in E; [injection E as <- <-; constructor|].
    rewrite (Q a p A) in E. destruct (g f p) as [f1 r1] eqn:G. destruct r1; try (injection E as <- <-; eapply turn_stop; [cbn; exact G|discriminate]).
    eapply turn_next; [cbn; exact G|]. now apply IH.
Qed.
