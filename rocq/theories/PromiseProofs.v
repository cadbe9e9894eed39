(** Proofs about the help texts of validators (C95). *)
From Verif Require Import Base StrLib Fs FloatNum Values ValuesSpec ValuesProofs Validators ValidatorsHelp Regex PromiseSpec VersionOverlap.

Lemma sep_join l : separated l (join_comma l).
Proof.
  induction l as [|a l IH]; [constructor|]. destruct l as [|b l]; [constructor|].
  change (join_comma (a :: b :: l)) with (a +s+ ", " +s+ join_comma (b :: l)). constructor; [discriminate|exact IH].
Qed.
Lemma sep_eq l s : separated l s -> s = join_comma l.
Proof.
  induction 1 as [|a|a l s N _ IH]; [reflexivity|reflexivity|]. subst. destruct l; [congruence|reflexivity].
Qed.

Lemma element_eq e x s : element_text e x s -> element_text e x (print_stream e x).
Proof.
  intros [sg bits z a N A|a|b]; cbn [print_stream]; [|constructor|constructor].
  rewrite (proj2 (N.eqb_neq _ _) N). constructor; [assumption|]. apply Z_to_string_numeral. now left.
Qed.
Lemma elements_printed e l : Forall (fun x => exists s, element_text e x s) l -> Forall2 (element_text e) l (map (print_stream e) l).
Proof. induction 1 as [|x l [s H] _ IH]; cbn; constructor; [exact (element_eq _ _ _ H)|exact IH]. Qed.

Lemma extensions_said exts : extensions_text exts (spaced (extensions_help exts)).
Proof.
  destruct exts as [|a l]; [constructor|]. unfold extensions_help, Values.bracket, spaced. cbn [is_empty String.append].
  pose proof (ext_some (a :: l) (join_comma (a :: l)) ltac:(discriminate) (sep_join _)) as H.
  match goal with |- extensions_text _ ?x => replace x with (" Valid file extensions are: [" +s+ join_comma (a :: l) +s+ "]."); [exact H|] end.
  cbn [String.append]. repeat (rewrite !app_assoc_s; cbn [String.append]). reflexivity.
Qed.

Lemma promise_kept v : sayable v -> promise v (help_of v).
Proof.
  induction v as [|sg bits mn mx|k mn mx|e vs|k vs|exts|[] exts| | |p rx|a IHa b IHb]; intros S; cbn [help_of]; try (constructor; fail).
  - unfold range_str. replace ("Value must be in range " +s+ _) with ("Value must be in range [" +s+ Z_to_string mn +s+ "," +s+ Z_to_string mx +s+ "].").
    + constructor; apply Z_to_string_numeral; now left.
    + cbn [String.append]. repeat (rewrite !app_assoc_s; cbn [String.append]). reflexivity.
  - unfold float_range_str. replace ("Value must be in range " +s+ _) with ("Value must be in range [" +s+ print_f mn +s+ "," +s+ print_f mx +s+ "].").
    + constructor.
    + cbn [String.append]. repeat (rewrite !app_assoc_s; cbn [String.append]). reflexivity.
  - cbn [to_string elems]. unfold Values.bracket. replace ("Value must be one of " +s+ _) with ("Value must be one of [" +s+ join_comma (map (print_stream e) vs) +s+ "].").
    + apply (pr_values _ _ (map (print_stream e) vs)); [now apply elements_printed|apply sep_join].
    + cbn [String.append]. repeat (rewrite !app_assoc_s; cbn [String.append]). reflexivity.
  - unfold Values.bracket. replace ("Value must be one of " +s+ _) with ("Value must be one of [" +s+ join_comma (map print_g vs) +s+ "].").
    + apply pr_float_values. apply sep_join.
    + cbn [String.append]. repeat (rewrite !app_assoc_s; cbn [String.append]). reflexivity.
  - apply pr_in_file, extensions_said.
  - apply pr_out_file, extensions_said.
  - apply pr_new_file, extensions_said.
  - destruct S. constructor; auto.
Qed.

(** ** Equal texts *)

Lemma numeral_fun s z z' : numeral true s z -> numeral true s z' -> z = z'.
Proof.
  intros [a A|a S A] H; inversion H as [b B E|b S' B E]; subst; try congruence.
  - destruct A as [_ A]. cbn in A. discriminate.
  - destruct B as [_ B]. cbn in B. discriminate.
Qed.
Lemma Z_to_string_inj z z' : Z_to_string z = Z_to_string z' -> z = z'.
Proof.
  intros E. apply (numeral_fun (Z_to_string z)); [|rewrite E]; apply Z_to_string_numeral; now left.
Qed.

Lemma no_char c s : scontains c s = false <-> ~ In c (chars s).
Proof.
  induction s as [|d s IH]; cbn; [tauto|]. rewrite orb_false_iff, IH. split.
  - intros [E N] [X|X]; [subst; rewrite Ascii.eqb_refl in E; discriminate|tauto].
  - intros N. split; [|tauto]. apply Ascii.eqb_neq. intros ->. apply N. now left.
Qed.

Lemma split_at (c : chr) a a' x y : scontains c a = false -> scontains c a' = false -> a +s+ String c x = a' +s+ String c y -> a = a' /\ x = y.
Proof.
  revert a'. induction a as [|d a IH]; intros [|d' a'] A A' E; cbn in *.
  - injection E as E. easy.
  - injection E as E1 E2. subst. rewrite Ascii.eqb_refl in A'. discriminate.
  - injection E as E1 E2. subst. rewrite Ascii.eqb_refl in A. discriminate.
  - injection E as E1 E2. apply orb_false_iff in A, A'. destruct (IH a' (proj2 A) (proj2 A') E2). now subst.
Qed.

Lemma join_cons a b l : join_comma (a :: b :: l) = a +s+ String "," (String " " (join_comma (b :: l))).
Proof. reflexivity. Qed.
Lemma join_inj l l' : told_apart l -> told_apart l' -> join_comma l = join_comma l' -> l = l'.
Proof.
  revert l'. induction l as [|a l IH]; intros l' T T' E.
  - destruct l' as [|b l']; [reflexivity|]. inversion T' as [|? ? [N _] ?]; subst. destruct b; [congruence|]. destruct l'; cbn in E; discriminate.
  - inversion T as [|? ? [N C] T1]; subst. apply no_char in C. destruct l' as [|b l'].
    + destruct a; [congruence|]. destruct l; cbn in E; discriminate.
    + inversion T' as [|? ? [N' C'] T1']; subst. apply no_char in C'. destruct l as [|a2 l], l' as [|b2 l'].
      * cbn in E. now subst.
      * rewrite join_cons in E. cbn [join_comma] in E. rewrite E in C. rewrite scontains_app in C. cbn in C. rewrite orb_true_r in C. discriminate.
      * rewrite join_cons in E. cbn [join_comma] in E. rewrite <- E in C'. rewrite scontains_app in C'. cbn in C'. rewrite orb_true_r in C'. discriminate.
      * rewrite !join_cons in E. apply split_at in E; [|assumption|assumption]. destruct E as [-> E]. injection E as E. f_equal. now apply IH.
Qed.

Lemma element_inj e x y s t : element_text e x s -> element_text e y t -> print_stream e x = print_stream e y -> x = y.
Proof.
  intros A B. destruct A as [sg bits z a N A|a|b]; inversion B; subst; cbn [print_stream].
  - rewrite (proj2 (N.eqb_neq _ _) N). intros E. f_equal. now apply Z_to_string_inj.
  - now intros ->.
  - now destruct b; destruct b0.
Qed.
Lemma element_told e x s : element_text e x s -> s <> "" /\ ~ In ","%char (chars s) -> print_stream e x <> "" /\ ~ In ","%char (chars (print_stream e x)).
Proof.
  intros [sg bits z a N A|a|b] H; cbn [print_stream]; [|exact H|exact H]. rewrite (proj2 (N.eqb_neq _ _) N). split.
  - intros E. pose proof (Z_to_string_numeral true z (or_introl eq_refl)) as X. rewrite E in X. inversion X; subst; match goal with H : digits "" |- _ => destruct H; congruence end.
  - apply no_char. apply Z_string_no; [reflexivity|discriminate].
Qed.
Lemma values_inj e vs ws ts us : Forall2 (element_text e) vs ts -> told_apart ts -> Forall2 (element_text e) ws us -> told_apart us ->
  Values.bracket (map (print_stream e) vs) = Values.bracket (map (print_stream e) ws) -> vs = ws.
Proof.
  intros A T B U E. unfold Values.bracket in E. injection E as E. apply app_inv_tail_s in E.
  assert (P : forall vs ts, Forall2 (element_text e) vs ts -> told_apart ts -> told_apart (map (print_stream e) vs)).
  { clear. induction 1 as [|x t vs ts H _ IH]; intros T; cbn; [constructor|]. inversion T; subst. constructor; [exact (element_told _ _ _ H H2)|now apply IH]. }
  apply join_inj in E; [|now apply (P vs ts)|now apply (P ws us)]. clear T U P. revert ws us B E. induction A as [|x t vs ts H _ IH]; intros [|y ws] us B E; cbn in E; try discriminate; [reflexivity|].
  injection E as E1 E2. inversion B; subst. f_equal; [exact (element_inj _ _ _ _ _ H ltac:(eassumption) E1)|]. eapply IH; eassumption.
Qed.

Lemma ext_inj exts exts' : told_apart exts -> told_apart exts' -> spaced (extensions_help exts) = spaced (extensions_help exts') -> exts = exts'.
Proof.
  intros T T' E. destruct exts as [|a l], exts' as [|b l']; try reflexivity; try (cbn in E; discriminate).
  unfold spaced, extensions_help, Values.bracket in E. cbn [is_empty String.append] in E. repeat (injection E as E). rewrite !app_assoc_s in E.
  apply app_inv_tail_s in E. now apply join_inj.
Qed.

Lemma range_inj mn mx mn' mx' : range_str mn mx = range_str mn' mx' -> mn = mn' /\ mx = mx'.
Proof.
  unfold range_str. intros E. injection E as E. apply split_at in E; [|now apply Z_string_no..].
  destruct E as [E1 E2]. apply app_inv_tail_s in E2. split; now apply Z_to_string_inj.
Qed.

Lemma clear_determined other e v w : clear other v -> clear other w -> checks e v -> checks e w -> help_of v = help_of w -> v = w.
Proof.
  intros V W TV TW E.
  destruct v as [|sg bits mn mx|k mn mx|ev vs|k vs|exts|m exts| | |p rx|a b]; try (destruct V; fail);
  destruct w as [|sg' bits' mn' mx'|k' mn' mx'|ew vs'|k' vs'|exts'|m' exts'| | |p' rx'|a' b']; try (destruct W; fail);
  try (destruct m); try (destruct m'); cbn [help_of] in E; try reflexivity; try (exfalso; revert E; cbn [String.append]; discriminate).
  - cbn in TV, TW. subst. injection TW as -> ->. apply app_inv_head_s, app_inv_tail_s in E. apply range_inj in E. destruct E. now subst.
  - cbn in TV, TW. subst. cbn [to_string elems] in E. apply app_inv_head_s, app_inv_tail_s in E. destruct V as (ts & V1 & V2), W as (us & W1 & W2).
    f_equal. exact (values_inj _ _ _ _ _ V1 V2 W1 W2 E).
  - apply app_inv_head_s in E. f_equal. now apply ext_inj.
  - apply app_inv_head_s in E. f_equal. now apply ext_inj.
  - apply app_inv_head_s in E. f_equal. now apply ext_inj.
  - apply app_inv_head_s, app_inv_tail_s in E. cbn in V, W. now subst.
Qed.
Lemma same_verdicts other e v w : clear other v -> clear other w -> checks e v -> checks e w -> help_of v = help_of w ->
  forall nd f x, check_of nd v f x = check_of nd w f x.
Proof. intros V W TV TW E nd f x. now rewrite (clear_determined other e v w V W TV TW E). Qed.

(** ** Messages *)

Lemma lifted_message (check : val -> vout) f x f' m : lift_range (pure_validator check) f x = (f', VThrow m) -> exists y, check y = VThrow m.
Proof.
  unfold lift_range, pure_validator. destruct x as [| | | | | | |l]; try (intros E; injection E as _ E; eauto; fail).
  revert f. induction l as [|y l IH]; intros f; cbn; [discriminate|]. destruct (check y) eqn:C; try (intros E; injection E as _ E; subst; eauto; fail); try discriminate. apply IH.
Qed.

Lemma cut_message sg bits g x m : cut_first sg bits g x = VThrow m -> exists y, g y = VThrow m.
Proof.
  unfold cut_first. destruct x as [| | | | |q| |]; try (intros E; eexists; exact E). destruct (truncate q); [|discriminate]. destruct (_ && _); [|discriminate]. intros E. eexists. exact E.
Qed.

Lemma message_lemma nd v f x f' m : check_of nd v f x = (f', VThrow m) -> message_fits v m.
Proof.
  destruct v; cbn [check_of message_fits]; try easy; intros E.
  - apply lifted_message in E. destruct E as [y E]. apply cut_message in E. destruct E as [z E]. unfold arithmetic_range1 in E. destruct z; cbn [promote] in E; try discriminate;
    (destruct (negb _); [|discriminate]; injection E as <-; eexists _, _; split; reflexivity).
  - apply lifted_message in E. destruct E as [y E]. unfold float_range1 in E. destruct y; cbn [promote] in E; try discriminate; destruct (negb _); try discriminate; injection E as <-; eexists _, _; split; reflexivity.
  - assert (X : exists y, value_list1 e values y = VThrow m) by (unfold value_list_any in E; destruct e; apply lifted_message in E; try exact E; destruct E as [y E]; exact (cut_message _ _ _ _ _ E)).
    destruct X as [y X]. unfold value_list1 in X. destruct (existsb _ _); [discriminate|]. injection X as <-. eexists _, _. split; reflexivity.
  - apply lifted_message in E. destruct E as [y E]. unfold float_list1 in E. destruct y; cbn [promote] in E; try discriminate; destruct (existsb _ _); try discriminate; injection E as <-; eexists _, _; split; reflexivity.
  - apply lifted_message in E. destruct E as [y E]. unfold regex1 in E. destruct y as [| |s|s| | | |]; try discriminate; (destruct (rx s) as [[]|]; [discriminate| |injection E as <-; now left]); injection E as <-; right; eexists _, _; split; reflexivity.
Qed.

(** ** Chains *)

Lemma spaced_app l l' : l <> [] -> l' <> [] -> spaced_texts (l ++ l') = spaced_texts l +s+ " " +s+ spaced_texts l'.
Proof.
  induction l as [|a l IH]; intros N N'; [congruence|]. destruct l as [|b l].
  - destruct l'; [congruence|reflexivity].
  - change ((a :: b :: l) ++ l') with (a :: (b :: l) ++ l'). change (spaced_texts (a :: (b :: l) ++ l')) with (a +s+ " " +s+ spaced_texts ((b :: l) ++ l')).
    rewrite IH by (discriminate || assumption). change (spaced_texts (a :: b :: l)) with (a +s+ " " +s+ spaced_texts (b :: l)). now rewrite !app_assoc_s.
Qed.
Lemma atoms_some v : atoms v <> [].
Proof. induction v; cbn; try discriminate. destruct (atoms v1); [congruence|discriminate]. Qed.
Lemma mapped_some {A B} (g : A -> B) l : l <> [] -> map g l <> [].
Proof. destruct l; [congruence|discriminate]. Qed.
Lemma help_atoms v : help_of v = spaced_texts (map help_of (atoms v)).
Proof.
  induction v; try reflexivity. cbn [atoms help_of]. rewrite map_app, spaced_app by (apply mapped_some, atoms_some). now rewrite IHv1, IHv2.
Qed.
Lemma chain_text v w : atoms v = atoms w -> help_of v = help_of w.
Proof. intros E. now rewrite (help_atoms v), (help_atoms w), E. Qed.

(** ** Chains check one after the other *)

Lemma one_app_pass nd x l1 l2 f f1 f2 o : one_by_one nd x l1 f f1 VOk -> one_by_one nd x l2 f1 f2 o -> one_by_one nd x (l1 ++ l2) f f2 o.
Proof.
  intros h. remember VOk as k eqn:ek. induction h; cbn; intros h2.
  - exact h2.
  - econstructor 2; eauto.
  - now subst.
Qed.
Lemma one_app_fail nd x l1 l2 f f1 o : one_by_one nd x l1 f f1 o -> o <> VOk -> one_by_one nd x (l1 ++ l2) f f1 o.
Proof. intros h hn. induction h; cbn; [easy|econstructor 2; eauto|now constructor 3]. Qed.
Lemma one_fun nd x l f f1 o1 f2 o2 : one_by_one nd x l f f1 o1 -> one_by_one nd x l f f2 o2 -> f1 = f2 /\ o1 = o2.
Proof.
  intros h. revert f2 o2. induction h; intros g o' h'; inversion h'; subst; auto; try congruence.
  - apply IHh. congruence.
  - split; congruence.
Qed.
Lemma chain_one nd v f x : one_by_one nd x (atoms v) f (fst (check_of nd v f x)) (snd (check_of nd v f x)).
Proof.
  assert (one : forall u g, one_by_one nd x [u] g (fst (check_of nd u g x)) (snd (check_of nd u g x))).
  { intros u g. destruct (check_of nd u g x) as [g' o] eqn:e. cbn. destruct o; [econstructor 2; [exact e|constructor]|constructor 3; [exact e|discriminate]..]. }
  revert f. induction v; intros f; try apply one. cbn [atoms check_of]. unfold chain.
  specialize (IHv1 f). destruct (check_of nd v1 f x) as [f1 [| | |]]; cbn [fst snd] in *;
    [eapply one_app_pass; eauto|apply one_app_fail; [exact IHv1|discriminate]..].
Qed.
Lemma chain_one_iff nd v f x f' o : check_of nd v f x = (f', o) <-> one_by_one nd x (atoms v) f f' o.
Proof.
  pose proof (chain_one nd v f x) as h. split.
  - intros e. now rewrite e in h.
  - intros h'. destruct (one_fun _ _ _ _ _ _ _ _ h h') as [<- <-]. apply surjective_pairing.
Qed.
