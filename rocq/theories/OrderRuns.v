(** The order of declarations in whole programs. *)
From Coq Require Import Permutation.
From Verif Require Import Base StrLib Fs Values Validators FormatParse Invocation ValuesSpec ScanSpec ReadingSpec ReadingProofs OrderSpec OrderProofs
  Parser ParserSpec ParserProofs ParserPieces ParserReading ParserOutcomes ProgramSpec ProgramProofs InvocationEffects.

Section build.
Variable ndebug : bool.
Variable bk : backend.

Lemma piece_ok_same o o' s k : (forall x, In x o <-> In x o') -> piece_ok o s k -> piece_ok o' s k.
Proof. intros H. destruct k; cbn; intuition (try (now apply H)); rewrite ?H in *; auto. Qed.
Lemma pieces_same o o' s args ks : (forall x, In x o <-> In x o') -> pieces o s args ks -> pieces o' s args ks.
Proof. intros H. induction 1; constructor; auto; eapply piece_ok_same; eauto. Qed.

Lemma understood_order ds ds' args b r vs vs2 f vs' f' : wf_decls ds = true -> elems_ok ds -> NoDup (map bound_addr ds) -> validators_pure ds ->
  Permutation ds ds' -> filter is_positional ds = filter is_positional ds' -> cut args b r -> apart ds b -> leaves_neat ds b r -> vs2 = vs ->
  understood ndebug ds args vs f vs' f' <-> understood ndebug ds' args vs2 f vs' f'.
Proof.
  intros W E N V P Q C A L ->.
  assert (W' : wf_decls ds' = true) by (eapply wf_decls_perm; eauto).
  assert (E' : elems_ok ds'). { intros t Ht. apply E. eapply Permutation_in; [apply flat_map_perm, Permutation_sym, P|exact Ht]. }
  rewrite (meaning_lemma ndebug ds args vs f vs' f' W E), (meaning_lemma ndebug ds' args vs f vs' f' W' E').
  destruct (any_order_lemma ndebug ds ds' args b r vs f W E N V P Q C A L) as [H1 H2].
  destruct (parse_args ndebug ds args vs f) as [s q], (parse_args ndebug ds' args vs f) as [s' q']. cbn [fst snd] in *. split.
  - intros (st & [= <- ->] & Hv & Hf). destruct (H2 eq_refl) as [K1 K2]. exists s'. split; [f_equal; now apply H1|].
    split; [intros y; now rewrite <- K1|congruence].
  - intros (st & [= <- ->] & Hv & Hf). assert (q = Ret tt) as -> by now apply H1. destruct (H2 eq_refl) as [K1 K2]. exists s. split; [reflexivity|].
    split; [intros y; now rewrite K1|congruence].
Qed.

Lemma order_programs w0 w log w0' w' log' a a' args ks b r vs' f' :
  prepared ndebug bk w0 w log -> prepared ndebug bk w0' w' log' ->
  arguments (w_parser w0) = a :: args -> arguments (w_parser w0') = a' :: args ->
  elems_ok (accepted log) -> NoDup (map bound_addr (accepted log)) -> validators_pure (accepted log) ->
  Permutation (accepted log) (accepted log') -> filter is_positional (accepted log) = filter is_positional (accepted log') ->
  subcommands (w_parser w) = subcommands (w_parser w') -> names_ok (w_parser w) -> names_ok (w_parser w') ->
  (forall user, bk_version_check bk (info (w_parser w)) (dev_decision (w_parser w)) user (w_fs w) =
                bk_version_check bk (info (w_parser w')) (dev_decision (w_parser w')) user (w_fs w')) ->
  w_vars w = w_vars w' ->
  pieces (option_texts (accepted log)) (subcommands (w_parser w)) args ks ->
  cut (flat_map own_texts ks) b r -> apart (accepted log) b -> leaves_neat (accepted log) b r ->
  (exists w1, step ndebug bk CParse w = (w1, Ret true) /\ (forall y, w_vars w1 y = vs' y) /\ w_fs w1 = f') <->
  (exists w1, step ndebug bk CParse w' = (w1, Ret true) /\ (forall y, w_vars w1 y = vs' y) /\ w_fs w1 = f').
Proof.
  intros P P' A A' E N V Pm Q S Nm Nm' Vc Vs Pc C Ap L.
  pose proof (prepared_assembled _ _ _ _ _ P) as B. pose proof (prepared_assembled _ _ _ _ _ P') as B'.
  assert (E' : elems_ok (accepted log')). { intros t Ht. apply E. eapply Permutation_in; [apply flat_map_perm, Permutation_sym, Pm|exact Ht]. }
  assert (O : forall x, In x (options (w_parser w)) <-> In x (option_texts (accepted log))) by (destruct (prepared_ready ndebug bk w0 w log P) as [R _]; apply (rd_opts _ _ _ _ R)).
  assert (O' : forall x, In x (options (w_parser w')) <-> In x (option_texts (accepted log'))) by (destruct (prepared_ready ndebug bk w0' w' log' P') as [R _]; apply (rd_opts _ _ _ _ R)).
  assert (OO : forall x, In x (option_texts (accepted log)) <-> In x (option_texts (accepted log'))).
  { intros x. unfold option_texts. rewrite !in_map_iff. split; intros (i & <- & Hi); exists i; split; auto; eapply Permutation_in; try exact Hi; apply flat_map_perm; [exact Pm|now apply Permutation_sym]. }
  rewrite (whole_reading _ _ w0 w log a args vs' f' B A E), (whole_reading _ _ w0' w' log' a' args vs' f' B' A' E').
  unfold run_understood, consulted. rewrite <- S.
  pose proof (assembled_wf _ _ _ _ _ B) as W.
  assert (U : forall k, pieces (options (w_parser w)) (subcommands (w_parser w)) args k -> k = ks).
  { intros k K. eapply pieces_unique; [eapply pieces_same; [exact O|exact K]|exact Pc]. }
  assert (U' : forall k, pieces (options (w_parser w')) (subcommands (w_parser w)) args k -> k = ks).
  { intros k K. eapply pieces_unique; [eapply pieces_same; [|exact K]|exact Pc]. intros x. now rewrite O', OO. }
  split.
  - intros (k & f1 & (_ & K & F & Ck) & Ch & Un). pose proof (U k K) as ->. exists ks, f1. split; [|split; [exact Ch|]].
    + split; [exact Nm'|]. split; [eapply pieces_same; [|exact Pc]; intros x; now rewrite O', OO|]. split; [exact F|]. now rewrite <- Vc.
    + apply (understood_order (accepted log) (accepted log') (flat_map own_texts ks) b r (w_vars w) (w_vars w') f1 vs' f'); auto.
  - intros (k & f1 & (_ & K & F & Ck) & Ch & Un). pose proof (U' k K) as ->. exists ks, f1. split; [|split; [exact Ch|]].
    + split; [exact Nm|]. split; [eapply pieces_same; [|exact Pc]; intros x; now rewrite O|]. split; [exact F|]. now rewrite Vc.
    + apply (understood_order (accepted log) (accepted log') (flat_map own_texts ks) b r (w_vars w) (w_vars w') f1 vs' f'); auto.
Qed.
End build.
