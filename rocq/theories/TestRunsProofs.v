(** Lemmas about the test infrastructure (TestRuns.v). *)
From Verif Require Import Base StrLib TestRuns TestRunsSpec.
From Coq Require Import Lia.

Definition whole (l : list stmt) : bool := forallb (fun s => match s with Fine b => b | Exit_test (Leaves c) => Z.eqb c 0 | _ => false end) l.

Definition wholes (l : list test) : bool := forallb (fun t => whole (snd t)) l.

Lemma whole_iff l : whole l = true <-> Forall holds l.
Proof.
  unfold whole. rewrite forallb_forall, Forall_forall. split; intros H s Hs; specialize (H s Hs); unfold holds in *.
  - destruct s as [b| | | |[|c|]]; try discriminate H; [left; now rewrite H|right; apply Z.eqb_eq in H; now rewrite H].
  - destruct H as [->| ->]; reflexivity.
Qed.

Lemma exit_test_on current c : exit_test true current c = (true, match c with Leaves code => Z.eqb code 0 | _ => false end).
Proof. destruct c; reflexivity. Qed.

Lemma run_test_calm current l : Forall calm (reached l) -> forall ok, run_test true current l ok = inl (true, ok && whole l).
Proof.
  induction l as [|s l IH]; intros C ok; [cbn; now rewrite andb_true_r|]. destruct s as [b| |c| |c]; cbn [reached] in C; try (inversion C as [|? ? Cs Cl]; subst; clear C).
  - cbn [run_test]. rewrite IH by exact Cl. cbn. now rewrite andb_assoc.
  - cbn. now rewrite andb_false_r.
  - contradiction Cs.
  - contradiction Cs.
  - cbn [run_test]. rewrite exit_test_on, IH by exact Cl. cbn. now rewrite andb_assoc.
Qed.

Lemma run_tests_calm l : Forall calm_test l -> forall ok, run_tests true l ok = inl (true, ok && wholes l).
Proof.
  induction 1 as [|[cur body] l Ht _ IH]; intros ok; [cbn; now rewrite andb_true_r|]. cbn [run_tests]. rewrite (run_test_calm cur body Ht). cbn [andb].
  rewrite IH. cbn. now rewrite andb_assoc.
Qed.

Lemma complete_lemma nd l : Forall calm_test l -> exists code, run_program nd l = Ended code "" false /\ (code = 0%Z <-> Forall good_test l).
Proof.
  intros H. unfold run_program. rewrite (run_tests_calm l H). cbn [andb negb]. rewrite !andb_false_r. cbn [at_exit negb]. eexists. split; [reflexivity|].
  assert (E : wholes l = true <-> Forall good_test l).
  { unfold wholes. rewrite forallb_forall, Forall_forall. unfold good_test. split; intros K t Ht; apply whole_iff; auto. }
  rewrite <- E. clear E. cbn [andb]. destruct (wholes l); split; intros; (reflexivity || discriminate).
Qed.

Lemma run_test_end current l1 s l2 : Forall calm l1 -> ~ In Abandons l1 -> (forall ok, exists ok', run_test true current (l1 ++ s :: l2) ok = run_test true current (s :: l2) ok').
Proof.
  induction l1 as [|a l1 IH]; intros C N ok; [eexists; reflexivity|]. inversion C as [|? ? Ca Cl]; subst.
  assert (N' : ~ In Abandons l1) by (intros K; apply N; now right). destruct a as [b| |c| |c]; try contradiction Ca.
  - cbn [app run_test]. now apply IH.
  - exfalso. apply N. now left.
  - cbn [app run_test]. rewrite exit_test_on. now apply IH.
Qed.

Lemma early_lemma nd before suite name l1 code l2 after : Forall calm_test before -> Forall calm l1 -> ~ In Abandons l1 ->
  run_program nd (before ++ (suite, name, l1 ++ Quits code :: l2) :: after) =
    Ended 1 (nl +s+ "Not all test cases were run!" +s+ nl +s+ "The following test unexpectedly terminated the execution:" +s+ nl +s+ suite +s+ "." +s+ name +s+ nl) true.
Proof.
  intros B C N. unfold run_program. cbn [andb negb]. rewrite !andb_false_r.
  assert (E : forall ok, run_tests true (before ++ (suite, name, l1 ++ Quits code :: l2) :: after) ok = inr (at_exit true (Some (suite, name)) code)).
  { induction B as [|[cur body] before Hb _ IH]; intros ok.
    - cbn [app run_tests]. destruct (run_test_end (suite, name) l1 (Quits code) l2 C N true) as [ok' ->]. reflexivity.
    - cbn [app run_tests]. rewrite (run_test_calm cur body Hb). apply IH. }
  rewrite E. unfold at_exit. cbn [negb test_text]. now rewrite !app_assoc_s.
Qed.

(** the result "success" is only given if all tests ran and hold *)
Lemma run_test_shape current l : forall ok,
  match run_test true current l ok with
  | inl (a, b) => a = true /\ b = ok && whole l
  | inr (Ended c _ _) => c = 1%Z
  | inr _ => True
  end.
Proof.
  induction l as [|s l IH]; intros ok; [cbn; now rewrite andb_true_r|]. destruct s as [b| |c| |c]; cbn [run_test].
  - specialize (IH (ok && b)). destruct (run_test _ _ _ _) as [[a b']|[]]; auto. destruct IH as [-> ->]. split; [reflexivity|]. cbn. now rewrite andb_assoc.
  - cbn. now rewrite andb_false_r.
  - reflexivity.
  - exact Logic.I.
  - rewrite exit_test_on. specialize (IH (ok && match c with Leaves code => Z.eqb code 0 | _ => false end)).
    destruct (run_test _ _ _ _) as [[a b']|[]]; auto. destruct IH as [-> ->]. split; [reflexivity|]. cbn. now rewrite andb_assoc.
Qed.
Lemma run_tests_shape l : forall ok,
  match run_tests true l ok with
  | inl (a, b) => a = true /\ b = ok && wholes l
  | inr (Ended c _ _) => c = 1%Z
  | inr _ => True
  end.
Proof.
  induction l as [|[cur body] l IH]; intros ok; [cbn; now rewrite andb_true_r|]. cbn [run_tests]. pose proof (run_test_shape cur body true) as T.
  destruct (run_test true cur body true) as [[a b]|[]]; auto. destruct T as [-> ->]. specialize (IH (ok && (true && whole body))).
  destruct (run_tests _ _ _) as [[a' b']|[]]; auto. destruct IH as [-> ->]. split; [reflexivity|]. cbn. now rewrite andb_assoc.
Qed.

Lemma success_lemma nd l told again : run_program nd l = Ended 0 told again -> Forall good_test l /\ told = "" /\ again = false.
Proof.
  unfold run_program. cbn [andb]. rewrite andb_false_r. pose proof (run_tests_shape l true) as T. destruct (run_tests true l true) as [[a b]|e].
  - destruct T as [-> ->]. cbn [andb negb]. rewrite andb_false_r. cbn [at_exit negb]. intros [= E <- <-]. split; [|auto].
    destruct (wholes l) eqn:F; [|discriminate E]. unfold wholes in F. rewrite forallb_forall in F. apply Forall_forall. intros t Ht. apply whole_iff. now apply F.
  - intros ->. discriminate T.
Qed.
Lemma no_assertion nd l : run_program nd l <> Assertion.
Proof.
  unfold run_program. cbn [andb]. rewrite andb_false_r.
  assert (K : forall l ok, run_tests true l ok <> inr Assertion /\ forall a b, run_tests true l ok = inl (a, b) -> a = true).
  { clear l. induction l as [|[cur body] l IH]; intros ok; [split; [discriminate|now intros a b [= <- _]]|]. cbn [run_tests].
    assert (T : forall body ok, run_test true cur body ok <> inr Assertion /\ forall a b, run_test true cur body ok = inl (a, b) -> a = true).
    { clear. induction body as [|s l IH]; intros ok; [split; [discriminate|now intros a b [= <- _]]|]. destruct s as [b| |c| |c]; cbn [run_test]; try (split; [discriminate|now intros ? ? [= <- _]]).
      - apply IH.
      - rewrite exit_test_on. apply IH. }
    destruct (T body true) as [T1 T2]. destruct (run_test true cur body true) as [[a b]|e]; [|split; [congruence|discriminate]]. rewrite (T2 a b eq_refl). apply IH. }
  destruct (K l true) as [K1 K2]. destruct (run_tests true l true) as [[a b]|e]; [|congruence]. rewrite (K2 a b eq_refl). cbn [negb]. rewrite andb_false_r. discriminate.
Qed.

(** ** EXPECT_THROW_MSG *)

Lemma class_eqb_iff a b : class_eqb a b = true <-> a = b.
Proof. split; [destruct a, b; (reflexivity || discriminate)|intros ->; destruct b; reflexivity]. Qed.

Lemma base_heads c c' : base c = Some c' <-> In (c, c') heads.
Proof.
  split.
  - intros H. destruct c; cbn in H; try discriminate H; injection H as <-; cbn; auto 20.
  - cbn. intros H. repeat (destruct H as [H|H]; [injection H as <- <-; reflexivity|]). contradiction H.
Qed.

Definition depth (c : class) : nat := match c with
  | std_exception => 0 | std_runtime_error | std_logic_error => 1 | std_out_of_range | std_invalid_argument | std_filesystem_error | parser_error => 2 | _ => 3 end.
Lemma caught_lemma n h c : depth c <= n -> (caught n h c = true <-> derived h c).
Proof.
  revert c. induction n as [|n IH]; intros c L.
  - cbn [caught]. rewrite orb_false_r, class_eqb_iff. split; [intros <-; constructor|]. intros D. inversion D as [|? ? B]; [reflexivity|]. subst. apply base_heads in B. destruct c; cbn in *; try discriminate B; lia.
  - cbn [caught]. rewrite orb_true_iff, class_eqb_iff. split.
    + intros [<-|H]; [constructor|]. destruct (base c) as [b|] eqn:B; [|discriminate H]. apply (d_base h c b (proj1 (base_heads c b) B)). apply IH; [|exact H]. destruct c; cbn in B; try discriminate B; injection B as <-; cbn in *; lia.
    + intros D. inversion D as [|? b B D']; [now left|]. subst. right. apply base_heads in B. rewrite B. apply IH; [|exact D']. destruct c; cbn in B; try discriminate B; injection B as <-; cbn in *; lia.
Qed.
Lemma caught_iff h c : caught 3 h c = true <-> derived h c.
Proof. apply caught_lemma. destruct c; cbn; lia. Qed.

Lemma c_string_lemma s : (no_nul s -> c_string s = s) /\ (forall a b, no_nul a -> s = a +s+ String zero b -> c_string s = a).
Proof.
  induction s as [|c s [IH1 IH2]]; (split; [|]).
  - reflexivity.
  - intros [|d a] b _ E; discriminate E.
  - intros N. cbn. destruct (Ascii.eqb_spec c zero) as [->|Nc]; [now destruct (N "" s)|]. rewrite IH1; [reflexivity|]. intros a b ->. now apply (N (String c a) b).
  - intros [|d a] b N E; cbn in E; injection E as -> E.
    + reflexivity.
    + cbn. destruct (Ascii.eqb_spec d zero) as [->|Nc]; [now destruct (N "" a)|]. rewrite (IH2 a b); [reflexivity| |exact E]. intros x y ->. now apply (N (String d x) y).
Qed.

Lemma macro_lemma ty cl cmp st h m t : expect_throw_msg ty cl cmp st h m t = [] <-> exists c text, t = Threw c text /\ derived h c /\ c_string text = m.
Proof.
  destruct t as [|c text|]; cbn [expect_throw_msg].
  - split; [discriminate|intros (? & ? & [=] & _)].
  - destruct (caught 3 h c) eqn:E.
    + destruct (String.eqb_spec m (c_string text)) as [->|N].
      * split; [|reflexivity]. intros _. exists c, text. split; [reflexivity|]. split; [now apply caught_iff|reflexivity].
      * split; [discriminate|]. intros (c' & t' & [= <- <-] & _ & Q). congruence.
    + split; [discriminate|]. intros (c' & t' & [= <- <-] & D & _). apply caught_iff in D. congruence.
  - split; [discriminate|intros (? & ? & [=] & _)].
Qed.

Lemma macro_once ty cl cmp st h m t : length (expect_throw_msg ty cl cmp st h m t) <= 1.
Proof. destruct t as [|c text|]; cbn [expect_throw_msg]; [cbn; lia| |cbn; lia]. destruct (caught 3 h c); [destruct (String.eqb _ _)|]; cbn; lia. Qed.

Lemma documented_lemma c : In c documented <-> derived parser_error c.
Proof.
  rewrite <- caught_iff. split.
  - cbn. intros H. repeat (destruct H as [<-|H]; [reflexivity|]). contradiction H.
  - destruct c; intros H; try discriminate H; cbn; auto 12.
Qed.
Lemma kinds_lemma k : caught 3 parser_error (class_of k) = is_parser_error k.
Proof. destruct k; reflexivity. Qed.
Lemma kinds_iff k : derived parser_error (class_of k) <-> is_parser_error k = true.
Proof. now rewrite <- caught_iff, kinds_lemma. Qed.
