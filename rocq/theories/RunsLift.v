(** From argument vectors to whole programs: unused options and flags (C09), interleaving (C55). *)
From Coq Require Import Permutation.
From Verif Require Import Base StrLib Fs Values Validators FormatParse Invocation ValuesSpec ScanSpec ScanProofs ReadingSpec ReadingProofs OrderSpec OrderProofs UnusedProofs ShiftProofs
  Parser ParserSpec ParserProofs ParserPieces ParserReading ParserOutcomes ProgramSpec ProgramProofs InvocationEffects RunsSpec OrderRuns.

Section build.
Variable ndebug : bool.
Variable bk : backend.

Lemma options_known w0 w log : prepared ndebug bk w0 w log -> forall x, In x (options (w_parser w)) <-> In x (option_texts (accepted log)).
Proof. intros P. destruct (prepared_ready ndebug bk w0 w log P) as [R _]. apply (rd_opts _ _ _ _ R). Qed.

Definition returns (w : world) (vs' : store) (f' : fs) : Prop :=
  exists w1, step ndebug bk CParse w = (w1, Ret true) /\ (forall y, w_vars w1 y = vs' y) /\ w_fs w1 = f'.

Lemma returns_pieces w0 w log a args ks vs' f' : prepared ndebug bk w0 w log -> arguments (w_parser w0) = a :: args -> elems_ok (accepted log) ->
  pieces (option_texts (accepted log)) (subcommands (w_parser w)) args ks ->
  returns w vs' f' <-> exists f1, names_ok (w_parser w) /\ first_error (bk_tdl bk) (subcommands (w_parser w)) ks = None /\
    bk_version_check bk (info (w_parser w)) (dev_decision (w_parser w)) (last_some piece_check ks) (w_fs w) = (f1, Ret tt) /\
    chosen ks = FParse /\ understood ndebug (accepted log) (flat_map own_texts ks) (w_vars w) f1 vs' f'.
Proof.
  intros P A E Pc. unfold returns. rewrite (whole_reading _ _ w0 w log a args vs' f' (prepared_assembled _ _ _ _ _ P) A E).
  pose proof (options_known _ _ _ P) as O. unfold run_understood, consulted. split.
  - intros (k & f1 & (N & K & F & Ck) & Ch & Un).
    assert (k = ks) as -> by (eapply pieces_unique; [eapply pieces_same; [exact O|exact K]|exact Pc]). exists f1. auto.
  - intros (f1 & N & F & Ck & Ch & Un). exists ks, f1. split; [|auto]. split; [exact N|]. split; [|auto].
    eapply pieces_same; [|exact Pc]. intros x. now rewrite O.
Qed.

Lemma lift_programs w0 w log w0' w' log' a a' args args' ks ks' vs' f' :
  prepared ndebug bk w0 w log -> prepared ndebug bk w0' w' log' ->
  arguments (w_parser w0) = a :: args -> arguments (w_parser w0') = a' :: args' ->
  elems_ok (accepted log) -> elems_ok (accepted log') ->
  subcommands (w_parser w) = subcommands (w_parser w') -> names_ok (w_parser w) -> names_ok (w_parser w') ->
  (forall user, bk_version_check bk (info (w_parser w)) (dev_decision (w_parser w)) user (w_fs w) =
                bk_version_check bk (info (w_parser w')) (dev_decision (w_parser w')) user (w_fs w')) ->
  pieces (option_texts (accepted log)) (subcommands (w_parser w)) args ks ->
  pieces (option_texts (accepted log')) (subcommands (w_parser w)) args' ks' ->
  (first_error (bk_tdl bk) (subcommands (w_parser w)) ks = None <-> first_error (bk_tdl bk) (subcommands (w_parser w)) ks' = None) ->
  last_some piece_check ks = last_some piece_check ks' -> chosen ks = chosen ks' ->
  (forall f1, understood ndebug (accepted log) (flat_map own_texts ks) (w_vars w) f1 vs' f' <->
              understood ndebug (accepted log') (flat_map own_texts ks') (w_vars w') f1 vs' f') ->
  returns w vs' f' <-> returns w' vs' f'.
Proof.
  intros P P' A A' E E' S N N' Vc Pc Pc' Fe Ck Ch U.
  rewrite (returns_pieces _ _ _ _ _ _ vs' f' P A E Pc). rewrite S in Pc'. rewrite (returns_pieces _ _ _ _ _ _ vs' f' P' A' E' Pc').
  rewrite <- S, <- Ck, <- Ch. split; intros (f1 & H1 & H2 & H3 & H4 & H5); exists f1.
  - rewrite <- Vc. split; [exact N'|]. split; [now apply Fe|]. split; [exact H3|]. split; [exact H4|]. now apply U.
  - rewrite Vc. split; [exact N|]. split; [now apply Fe|]. split; [exact H3|]. split; [exact H4|]. now apply U.
Qed.

(** ** C09 *)

Lemma option_texts_flag d1 x c d2 : option_texts (d1 ++ DFlag x c :: d2) = option_texts (d1 ++ d2).
Proof. unfold option_texts. now rewrite !flat_map_app. Qed.

Lemma flag_programs w0 w log w0' w' log' a a' args d1 x c d2 ks b r v vs' f' :
  prepared ndebug bk w0 w log -> prepared ndebug bk w0' w' log' ->
  arguments (w_parser w0) = a :: args -> arguments (w_parser w0') = a' :: args ->
  accepted log = d1 ++ DFlag x c :: d2 -> accepted log' = d1 ++ d2 ->
  elems_ok (accepted log) -> ~ In x (map bound_addr (d1 ++ d2)) ->
  subcommands (w_parser w) = subcommands (w_parser w') -> names_ok (w_parser w) -> names_ok (w_parser w') ->
  (forall user, bk_version_check bk (info (w_parser w)) (dev_decision (w_parser w)) user (w_fs w) =
                bk_version_check bk (info (w_parser w')) (dev_decision (w_parser w')) user (w_fs w')) ->
  w_vars w = w_vars w' -> w_vars w x = VBool v ->
  pieces (option_texts (accepted log)) (subcommands (w_parser w)) args ks ->
  cut (flat_map own_texts ks) b r -> unused (accepted log) c b r ->
  returns w vs' f' <-> returns w' vs' f'.
Proof.
  intros P P' A A' L L' E X S N N' Vc Vs Vx Pc C U.
  assert (E' : elems_ok (accepted log')).
  { intros t Ht. apply E. revert Ht. rewrite L, L', !flat_map_app. cbn [flat_map]. rewrite !in_app_iff. tauto. }
  eapply (lift_programs _ _ _ _ _ _ _ _ _ _ ks ks); eauto; [rewrite L', <- (option_texts_flag d1 x c d2), <- L; exact Pc|tauto|].
  pose proof (assembled_wf _ _ _ _ _ (prepared_assembled _ _ _ _ _ P)) as W.
  pose proof (assembled_wf _ _ _ _ _ (prepared_assembled _ _ _ _ _ P')) as W'.
  intros f1. rewrite (meaning_lemma ndebug _ _ _ _ _ _ W E), (meaning_lemma ndebug _ _ _ _ _ _ W' E').
  rewrite L, L', <- Vs. rewrite L in W, E, U.
  destruct (unused_lemma ndebug d1 x c d2 (flat_map own_texts ks) b r (w_vars w) f1 v W E X C U Vx) as (H1 & H2 & H3 & _).
  destruct (parse_args ndebug (d1 ++ DFlag x c :: d2) (flat_map own_texts ks) (w_vars w) f1) as [s q],
    (parse_args ndebug (d1 ++ d2) (flat_map own_texts ks) (w_vars w) f1) as [s' q']. cbn [fst snd] in *. split.
  - intros (st & [= <- ->] & Hv & Hf). exists s'. destruct q' as [[]| | | | | ]; try discriminate H3. split; [reflexivity|]. split; [intros y; now rewrite <- H1|congruence].
  - intros (st & [= <- ->] & Hv & Hf). exists s. destruct q as [[]| | | | | ]; try discriminate H3. split; [reflexivity|]. split; [intros y; now rewrite H1|congruence].
Qed.

(** an option whose names are not among the arguments *)
Lemma piece_unmentioned o o' s k : piece_ok o s k -> (forall x, In x (piece_texts k) -> (In x o <-> In x o')) -> piece_ok o' s k.
Proof.
  intros Hk H. destruct k as [y v|y|y f|v []|v|y|y rest|y]; cbn [piece_ok piece_texts] in *.
  - now apply H; [now left|].
  - now apply H; [now left|].
  - now rewrite <- (H y) by now left.
  - rewrite <- (H ("--export-help=" +s+ v)) by now left. split; [intros [=]|now apply Hk].
  - rewrite <- (H "--export-help") by now left. split; [now apply Hk|intros [=]].
  - now rewrite <- (H "--version-check") by now left.
  - now rewrite <- (H y) by now left.
  - now rewrite <- (H y) by now left.
  - now rewrite <- (H y) by now left.
Qed.
Lemma pieces_unmentioned o o' s args ks : pieces o s args ks -> (forall x, In x args -> (In x o <-> In x o')) -> pieces o' s args ks.
Proof.
  intros Pc. induction Pc as [|k Hk L|k args ks Hk L Pc IH]; intros H; [constructor|constructor 2; [|exact L]|constructor 3; [|exact L|]].
  - eapply piece_unmentioned; eauto.
  - eapply piece_unmentioned; [exact Hk|]. intros x Hx. apply H. apply in_or_app. now left.
  - apply IH. intros x Hx. apply H. apply in_or_app. now right.
Qed.

Lemma option_programs w0 w log w0' w' log' a a' args d1 x t c d2 ks b r vs' f' :
  prepared ndebug bk w0 w log -> prepared ndebug bk w0' w' log' ->
  arguments (w_parser w0) = a :: args -> arguments (w_parser w0') = a' :: args ->
  accepted log = d1 ++ DOption x t c :: d2 -> accepted log' = d1 ++ d2 ->
  elems_ok (accepted log) -> c_required c = false ->
  subcommands (w_parser w) = subcommands (w_parser w') -> names_ok (w_parser w) -> names_ok (w_parser w') ->
  (forall user, bk_version_check bk (info (w_parser w)) (dev_decision (w_parser w)) user (w_fs w) =
                bk_version_check bk (info (w_parser w')) (dev_decision (w_parser w')) user (w_fs w')) ->
  w_vars w = w_vars w' ->
  (forall i, In i (config_idents c) -> ~ In (dashed i) args) ->
  pieces (option_texts (accepted log)) (subcommands (w_parser w)) args ks ->
  cut (flat_map own_texts ks) b r -> ~ option_mentioned c b ->
  returns w vs' f' <-> returns w' vs' f'.
Proof.
  intros P P' A A' L L' E X S N N' Vc Vs Un Pc C U.
  assert (E' : elems_ok (accepted log')).
  { intros y Hy. apply E. revert Hy. rewrite L, L', !flat_map_app. cbn [flat_map]. rewrite !in_app_iff. tauto. }
  eapply (lift_programs _ _ _ _ _ _ _ _ _ _ ks ks); eauto; [|tauto|].
  { eapply pieces_unmentioned; [exact Pc|]. intros y Hy. rewrite L, L'. unfold option_texts. rewrite !flat_map_app, !map_app, !in_app_iff. cbn [flat_map].
    rewrite map_app, in_app_iff. split; [|tauto]. intros [H|[H|H]]; [auto| |auto]. exfalso. apply in_map_iff in H as (i & <- & Hi). exact (Un i Hi Hy). }
  pose proof (assembled_wf _ _ _ _ _ (prepared_assembled _ _ _ _ _ P)) as W.
  pose proof (assembled_wf _ _ _ _ _ (prepared_assembled _ _ _ _ _ P')) as W'.
  intros f1. rewrite (meaning_lemma ndebug _ _ _ _ _ _ W E), (meaning_lemma ndebug _ _ _ _ _ _ W' E').
  rewrite L, L', <- Vs, (unmentioned_lemma ndebug d1 x t c d2 _ _ _ _ _ C U X). tauto.
Qed.

(** ** C55 *)

Lemma first_error_all tdl s ks : first_error tdl s ks = None <-> forall k, In k ks -> piece_error tdl s k = None.
Proof.
  induction ks as [|k ks IH]; cbn; [split; [intros _ k []|auto]|]. destruct (piece_error tdl s k) eqn:Ek.
  - split; [discriminate|]. intros H. rewrite (H k (or_introl eq_refl)) in Ek. discriminate.
  - rewrite IH. split; [intros H k' [<-|H']; auto|auto].
Qed.
Lemma last_foreign {B} (g : piece -> option B) ks : (forall k, foreign k = false -> g k = None) -> last_some g ks = last_some g (filter foreign ks).
Proof.
  intros H. induction ks as [|k ks IH]; [reflexivity|]. cbn. destruct (foreign k) eqn:Fk; cbn; rewrite <- IH; [reflexivity|]. rewrite (H k Fk). now destruct (last_some g ks).
Qed.

Lemma shift_programs w0 w log w0' w' log' a a' args args' i p v u q r ks ks' vs' f' :
  prepared ndebug bk w0 w log -> prepared ndebug bk w0' w' log' ->
  arguments (w_parser w0) = a :: args -> arguments (w_parser w0') = a' :: args' ->
  accepted log = accepted log' -> elems_ok (accepted log) ->
  subcommands (w_parser w) = subcommands (w_parser w') -> names_ok (w_parser w) -> names_ok (w_parser w') ->
  (forall user, bk_version_check bk (info (w_parser w)) (dev_decision (w_parser w)) user (w_fs w) =
                bk_version_check bk (info (w_parser w')) (dev_decision (w_parser w')) user (w_fs w')) ->
  w_vars w = w_vars w' ->
  pieces (option_texts (accepted log)) (subcommands (w_parser w)) args ks ->
  pieces (option_texts (accepted log)) (subcommands (w_parser w)) args' ks' ->
  Permutation ks ks' -> filter foreign ks = filter foreign ks' ->
  flat_map own_texts ks = (p ++ v ++ u ++ q) ++ r -> flat_map own_texts ks' = (p ++ u ++ v ++ q) ++ r ->
  In i (flat_map option_idents (accepted log)) -> setting (flat_map option_idents (accepted log)) i v ->
  complete (flat_map option_idents (accepted log)) p -> complete (flat_map option_idents (accepted log)) u -> silent i u ->
  cut ((p ++ v ++ u ++ q) ++ r) (p ++ v ++ u ++ q) r ->
  returns w vs' f' <-> returns w' vs' f'.
Proof.
  intros P P' A A' L E S N N' Vc Vs Pc Pc' Pm Fo O O' Hi Hs Cp Cu Si C.
  assert (E' : elems_ok (accepted log')) by now rewrite <- L.
  eapply (lift_programs _ _ _ _ _ _ _ _ _ _ ks ks'); eauto; [now rewrite <- L| | | |].
  - rewrite !first_error_all. split; intros H k Hk; apply H; [apply (Permutation_in _ (Permutation_sym Pm) Hk)|apply (Permutation_in _ Pm Hk)].
  - rewrite (last_foreign piece_check ks), (last_foreign piece_check ks'), Fo; [reflexivity| |]; intros []; discriminate || reflexivity.
  - assert (O2 : forall k, foreign k = false -> piece_page k = None) by (intros []; discriminate || reflexivity).
    assert (O3 : forall k, foreign k = false -> piece_sub k = None) by (intros []; discriminate || reflexivity).
    unfold chosen. rewrite (last_foreign _ ks O2), (last_foreign _ ks' O2), (last_foreign _ ks O3), (last_foreign _ ks' O3), <- Fo.
    destruct (last_some piece_page _); [reflexivity|]. rewrite O, O'.
    assert (Ne : v <> []) by (destruct Hs; discriminate).
    destruct v as [|v0 v]; [congruence|]. destruct p; [|reflexivity]. destruct u; reflexivity.
  - pose proof (assembled_wf _ _ _ _ _ (prepared_assembled _ _ _ _ _ P)) as W.
    intros f1. rewrite <- L, <- Vs. rewrite !(meaning_lemma ndebug _ _ _ _ _ _ W E), O, O'.
    destruct (shift_lemma ndebug (accepted log) i p v u q r (w_vars w) f1 W E Hi Hs Cp Cu Si C) as [H1 H2].
    destruct (parse_args ndebug (accepted log) ((p ++ v ++ u ++ q) ++ r) (w_vars w) f1) as [s z],
      (parse_args ndebug (accepted log) ((p ++ u ++ v ++ q) ++ r) (w_vars w) f1) as [s' z']. cbn [fst snd] in *. split.
    + intros (st & [= <- ->] & Hv & Hf). destruct (H2 eq_refl) as [K1 K2]. exists s'. split; [f_equal; now apply H1|]. split; [intros y; now rewrite <- K1|congruence].
    + intros (st & [= <- ->] & Hv & Hf). assert (z = Ret tt) as -> by now apply H1. destruct (H2 eq_refl) as [K1 K2]. exists s. split; [reflexivity|]. split; [intros y; now rewrite K1|congruence].
Qed.
End build.
