(** The order of declarations in whole programs (C18). *)
From Coq Require Import Permutation.
From Verif Require Import Base StrLib Fs Values Validators FormatParse Invocation ValuesSpec ScanSpec DiagnosisSpec ReadingSpec OrderSpec Samples Parser ParserSpec ParserProofs
  ProgramSpec ProgramProofs OrderRuns PropProgram.

(** Two programs that declare the same options and flags in another order, the positional options in the same order, parse with the same
    outcome: both or neither return from parse(), with the same values. *)
Theorem C18_programs : forall nd bk w0 w log w0' w' log' a a' args ks b r vs' f',
  prepared nd bk w0 w log -> prepared nd bk w0' w' log' ->
  arguments (w_parser w0) = a :: args -> arguments (w_parser w0') = a' :: args ->
  elems_ok (accepted log) -> NoDup (map bound_addr (accepted log)) -> validators_pure (accepted log) ->
  Permutation (accepted log) (accepted log') -> filter is_positional (accepted log) = filter is_positional (accepted log') ->
  subcommands (w_parser w) = subcommands (w_parser w') -> names_ok (w_parser w) -> names_ok (w_parser w') ->
  (forall user, bk_version_check bk (info (w_parser w)) (dev_decision (w_parser w)) user (w_fs w) =
                bk_version_check bk (info (w_parser w')) (dev_decision (w_parser w')) user (w_fs w')) ->
  w_vars w = w_vars w' ->
  pieces (option_texts (accepted log)) (subcommands (w_parser w)) args ks ->
  cut (flat_map own_texts ks) b r -> apart (accepted log) b -> leaves_neat (accepted log) b r ->
  (exists w1, step nd bk CParse w = (w1, Ret true) /\ (forall y, w_vars w1 y = vs' y) /\ w_fs w1 = f') <->
  (exists w1, step nd bk CParse w' = (w1, Ret true) /\ (forall y, w_vars w1 y = vs' y) /\ w_fs w1 = f').
Proof. exact order_programs. Qed.
Print Assumptions C18_programs.

(** a request for the version check in between, which is not the business of the options *)
Definition one_order : list call :=
  [CAddOption 0 (Scalar TString) (cfg "s" "str"); CAddOption 1 (ListOf TString) (cfg "t" "texts"); CAddFlag 2 (cfg "a" "all"); CAddPositional 4 (Scalar TString) (cfg nul "")].
Definition other_order : list call :=
  [CAddFlag 2 (cfg "a" "all"); CAddPositional 4 (Scalar TString) (cfg nul ""); CAddOption 1 (ListOf TString) (cfg "t" "texts"); CAddOption 0 (Scalar TString) (cfg "s" "str")].
Definition order_line : list string := ["-s"; "x"; "--version-check"; "0"; "-a"; "w"].
Definition order_own : list string := ["-s"; "x"; "-a"; "w"].

Example C18_case_programs : let w p := fst (run false lib p (start order_line)) in let log p := snd (run false lib p (start order_line)) in
  prepared false lib (start order_line) (w one_order) (log one_order) /\ prepared false lib (start order_line) (w other_order) (log other_order) /\
  NoDup (map bound_addr (accepted (log one_order))) /\ validators_pure (accepted (log one_order)) /\
  Permutation (accepted (log one_order)) (accepted (log other_order)) /\
  filter is_positional (accepted (log one_order)) = filter is_positional (accepted (log other_order)) /\
  names_ok (w_parser (w one_order)) /\ names_ok (w_parser (w other_order)) /\
  pieces (option_texts (accepted (log one_order))) (subcommands (w_parser (w one_order))) order_line
    [KValue "-s" "x"; KCheck "0"; KWord "-a"; KWord "w"] /\
  cut order_own order_own [] /\ apart (accepted (log one_order)) order_own /\ leaves_neat (accepted (log one_order)) order_own [] /\
  snd (step false lib CParse (w one_order)) = Ret true /\ snd (step false lib CParse (w other_order)) = Ret true /\
  map (w_vars (fst (step false lib CParse (w other_order)))) [0; 2; 4]%nat = [VStr "x"; VBool true; VStr "w"].
Proof.
  cbn zeta.
  assert (P : forall p, (forall c, In c p -> c <> CParse /\ is_move c = false) -> snd (run false lib p (start order_line)) = map (fun c => (c, Ret true)) p ->
    prepared false lib (start order_line) (fst (run false lib p (start order_line))) (snd (run false lib p (start order_line)))).
  { intros p Hp E. split; [exact (fresh_new 1 "app" _ true [] [])|]. split; [exists p; apply surjective_pairing|].
    rewrite E. intros c r H. apply in_map_iff in H as (c1 & H & H1). injection H as -> <-. destruct (Hp _ H1). split; [assumption|]. split; [assumption|].
    now destruct c. }
  split. { apply P; [|reflexivity]. intros c [<-|[<-|[<-|[<-|[]]]]]; split; discriminate || reflexivity. }
  split. { apply P; [|reflexivity]. intros c [<-|[<-|[<-|[<-|[]]]]]; split; discriminate || reflexivity. }
  clear P.
  set (ds := accepted (snd (run false lib one_order (start order_line)))).
  change (accepted (snd (run false lib other_order (start order_line)))) with
    [DFlag 2 (cfg "a" "all"); DPositional 4 (Scalar TString) (cfg nul ""); DOption 1 (ListOf TString) (cfg "t" "texts"); DOption 0 (Scalar TString) (cfg "s" "str")].
  change ds with [DOption 0 (Scalar TString) (cfg "s" "str"); DOption 1 (ListOf TString) (cfg "t" "texts"); DFlag 2 (cfg "a" "all"); DPositional 4 (Scalar TString) (cfg nul "")].
  clear ds.
  split; [repeat constructor; cbn; intuition discriminate|].
  split. { intros x t c H. destruct H as [H|[H|[H|[H|[]]]]]; try discriminate; injection H as <- <- <-; intros f v; reflexivity. }
  split. { match goal with |- Permutation [?a; ?b; ?c; ?d] _ => transitivity ([c; d] ++ [a; b]) end.
    - exact (Permutation_app_comm [_; _] [_; _]).
    - cbn [app]. do 2 apply perm_skip. apply perm_swap. }
  split; [reflexivity|].
  split; [split; [split; [discriminate|]|intros s []]; intros c H; left; vm_compute in H; destruct H as [<-|[<-|[<-|[]]]]; reflexivity|].
  split; [split; [split; [discriminate|]|intros s []]; intros c H; left; vm_compute in H; destruct H as [<-|[<-|[<-|[]]]]; reflexivity|].
  split. { apply (pieces_cons _ _ (KValue "-s" "x")); [vm_compute; auto|reflexivity|].
    apply (pieces_cons _ _ (KCheck "0")); [vm_compute; intuition discriminate|reflexivity|].
    apply (pieces_cons _ _ (KWord "-a")); [split; [|split; vm_compute; intros H; decompose [or] H; discriminate || contradiction]; intros [[f H]|[H|[[v H]|H]]]; try discriminate; vm_compute in H; decompose [or] H; try discriminate; contradiction|reflexivity|].
    apply (pieces_cons _ _ (KWord "w")); [split; [|split; vm_compute; intros H; decompose [or] H; discriminate || contradiction]; intros [[f H]|[H|[[v H]|H]]]; try discriminate; vm_compute in H; decompose [or] H; try discriminate; contradiction|reflexivity|]. constructor. }
  split. { split; [reflexivity|]. split; [cbn; intuition discriminate|]. now left. }
  split.
  { intros d d' i j p w q Hd Hd' Hn Hi Hj E. unfold order_own in E.
    assert (Q : In (dashed i, w) [("-s", "x"); ("x", "-a"); ("-a", "w")]).
    { do 4 (destruct p as [|? p]; [first [discriminate E|cbn [app] in E; pose proof (f_equal (hd "") E) as A; pose proof (f_equal (fun l => nth 1 l "") E) as B; cbn [hd nth] in A, B;
        rewrite <- A, <- B; cbn [In]; tauto]|apply (f_equal (@List.tl _)) in E; cbn [List.tl app] in E]); destruct p; discriminate. }
    clear E.
    destruct Hd as [<-|[<-|[<-|[<-|[]]]]], Hd' as [<-|[<-|[<-|[<-|[]]]]]; cbn in Hi, Hj, Hn; try contradiction; try congruence;
      destruct Hi as [<-|[<-|[]]], Hj as [<-|[<-|[]]];
      destruct Q as [Q|[Q|[Q|[]]]]; pose proof (f_equal fst Q) as Q1; pose proof (f_equal snd Q) as Q2; cbn [fst snd] in Q1, Q2; subst w; try reflexivity; discriminate Q1. }
  split.
  { intros wss b1 R a Ha. rewrite app_nil_r in Ha. assert (K : a = "" \/ In a order_own).
    { apply OrderProofs.each_thinner in R. clear -R Ha. induction R as [|x y l l' Hxy R IH]; [destruct Ha|]. destruct Ha as [->|Ha]; [|destruct (IH Ha); [now left|right; now right]].
      destruct Hxy as [->| ->]; [right; now left|now left]. }
    destruct K as [->|K]; [intros ? H; discriminate|]. cbn in K.
    repeat (destruct K as [<-|K]; [intros s Hs Hb; try discriminate; injection Hs as <-; cbn; intuition discriminate|]). destruct K. }
  vm_compute. auto.
Qed.
