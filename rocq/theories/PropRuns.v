(** Whole programs: options and flags nobody gives (C09), an option with its value elsewhere (C55). *)
From Coq Require Import Permutation.
From Verif Require Import Base StrLib Fs Values Validators FormatParse Invocation ValuesSpec ScanSpec DiagnosisSpec ReadingSpec OrderSpec Samples Parser ParserSpec ParserProofs
  ProgramSpec ProgramProofs RunsSpec RunsLift PropProgram PropOrderRuns.

(** ** C09 *)

(** A program with a flag that is not given returns from parse() exactly if the program without the flag does, with the same values. *)
Theorem C09_programs_flag : forall nd bk w0 w log w0' w' log' a a' args d1 x c d2 ks b r v vs' f',
  prepared nd bk w0 w log -> prepared nd bk w0' w' log' ->
  arguments (w_parser w0) = a :: args -> arguments (w_parser w0') = a' :: args ->
  accepted log = d1 ++ DFlag x c :: d2 -> accepted log' = d1 ++ d2 ->
  elems_ok (accepted log) -> ~ In x (map bound_addr (d1 ++ d2)) ->
  subcommands (w_parser w) = subcommands (w_parser w') -> names_ok (w_parser w) -> names_ok (w_parser w') ->
  (forall user, bk_version_check bk (info (w_parser w)) (dev_decision (w_parser w)) user (w_fs w) =
                bk_version_check bk (info (w_parser w')) (dev_decision (w_parser w')) user (w_fs w')) ->
  w_vars w = w_vars w' -> w_vars w x = VBool v ->
  pieces (option_texts (accepted log)) (subcommands (w_parser w)) args ks ->
  cut (flat_map own_texts ks) b r -> unused (accepted log) c b r ->
  (exists w1, step nd bk CParse w = (w1, Ret true) /\ (forall y, w_vars w1 y = vs' y) /\ w_fs w1 = f') <->
  (exists w1, step nd bk CParse w' = (w1, Ret true) /\ (forall y, w_vars w1 y = vs' y) /\ w_fs w1 = f').
Proof. exact flag_programs. Qed.
Print Assumptions C09_programs_flag.

(** An option that is not required and not mentioned; its names must not be used as values of the options of the library or behind "--" either, see below. *)
Theorem C09_programs_option : forall nd bk w0 w log w0' w' log' a a' args d1 x t c d2 ks b r vs' f',
  prepared nd bk w0 w log -> prepared nd bk w0' w' log' ->
  arguments (w_parser w0) = a :: args -> arguments (w_parser w0') = a' :: args ->
  accepted log = d1 ++ DOption x t c :: d2 -> accepted log' = d1 ++ d2 ->
  elems_ok (accepted log) -> c_required c = false ->
  subcommands (w_parser w) = subcommands (w_parser w') -> names_ok (w_parser w) -> names_ok (w_parser w') ->
  (forall user, bk_version_check bk (info (w_parser w)) (dev_decision (w_parser w)) user (w_fs w) =
                bk_version_check bk (info (w_parser w')) (dev_decision (w_parser w')) user (w_fs w')) ->
  w_vars w = w_vars w' ->
  (forall i, In i (config_idents c) -> ~ In (dashed i) args) ->
  pieces (option_texts (accepted log)) (subcommands (w_parser w)) args ks ->
  cut (flat_map own_texts ks) b r -> ~ option_mentioned c b ->
  (exists w1, step nd bk CParse w = (w1, Ret true) /\ (forall y, w_vars w1 y = vs' y) /\ w_fs w1 = f') <->
  (exists w1, step nd bk CParse w' = (w1, Ret true) /\ (forall y, w_vars w1 y = vs' y) /\ w_fs w1 = f').
Proof. exact option_programs. Qed.
Print Assumptions C09_programs_option.

(** ** C55 *)

(** The same program with two command lines that differ in the place of an option with its value, [v]: it is written before or behind [u]. *)
Theorem C55_programs : forall nd bk w0 w log w0' w' log' a a' args args' i p v u q r ks ks' vs' f',
  prepared nd bk w0 w log -> prepared nd bk w0' w' log' ->
  arguments (w_parser w0) = a :: args -> arguments (w_parser w0') = a' :: args' ->
  accepted log = accepted log' -> elems_ok (accepted log) ->
  subcommands (w_parser w) = subcommands (w_parser w') -> names_ok (w_parser w) -> names_ok (w_parser w') ->
  (forall user, bk_version_check bk (info (w_parser w)) (dev_decision (w_parser w)) user (w_fs w) =
                bk_version_check bk (info (w_parser w')) (dev_decision (w_parser w')) user (w_fs w')) ->
  w_vars w = w_vars w' ->
  pieces (option_texts (accepted log)) (subcommands (w_parser w)) args ks ->
  pieces (option_texts (accepted log)) (subcommands (w_parser w)) args' ks' ->
  Permutation ks ks' -> filter foreign ks = filter foreign ks' ->
  flat_map own_texts ks = (p ++ v ++ u ++ q) ++ r -> flat_map own_texts ks' = (p ++ u ++ v ++ q) ++ r ->
  In i (flat_map option_idents (accepted log)) -> setting (flat_map option_idents (accepted log)) i v ->
  complete (flat_map option_idents (accepted log)) p -> complete (flat_map option_idents (accepted log)) u -> silent i u ->
  cut ((p ++ v ++ u ++ q) ++ r) (p ++ v ++ u ++ q) r ->
  (exists w1, step nd bk CParse w = (w1, Ret true) /\ (forall y, w_vars w1 y = vs' y) /\ w_fs w1 = f') <->
  (exists w1, step nd bk CParse w' = (w1, Ret true) /\ (forall y, w_vars w1 y = vs' y) /\ w_fs w1 = f').
Proof. exact shift_programs. Qed.
Print Assumptions C55_programs.

(** ** Cases *)

(** Behind "--" the names of options are words to the options, but not to the library: with the option -t declared, "--help" is its value and no page is asked for. *)
Example C09_case_behind : let without := [CAddFlag 2 (cfg "a" "all"); CAddPositional 5 (ListOf TString) (cfg nul "")] in
  let w p := fst (run false lib p (start ["--"; "-t"; "--help"])) in
  ~ option_mentioned (cfg "t" "texts") [] /\
  snd (step false lib CParse (w (CAddOption 1 (ListOf TString) (cfg "t" "texts") :: without))) = Ret true /\
  exists page, snd (step false lib CParse (w without)) = Exit page.
Proof. split; [intros (x & i & [] & _)|]. split; [vm_compute; reflexivity|]. eexists. vm_compute. reflexivity. Qed.

Lemma runs_prepared args p : (forall c, In c p -> c <> CParse /\ is_move c = false) -> snd (run false lib p (start args)) = map (fun c => (c, Ret true)) p ->
  prepared false lib (start args) (fst (run false lib p (start args))) (snd (run false lib p (start args))).
Proof.
  intros Hp E. split; [exact (fresh_new 1 "app" _ true [] [])|]. split; [exists p; apply surjective_pairing|].
  rewrite E. intros c r H. apply in_map_iff in H as (c1 & H & H1). injection H as -> <-. destruct (Hp _ H1). split; [assumption|]. split; [assumption|].
  now destruct c.
Qed.

(** [one_order] without the option -t, and without the flag -a *)
Definition no_texts : list call := [CAddOption 0 (Scalar TString) (cfg "s" "str"); CAddFlag 2 (cfg "a" "all"); CAddPositional 4 (Scalar TString) (cfg nul "")].
Definition no_flag : list call := [CAddOption 0 (Scalar TString) (cfg "s" "str"); CAddOption 1 (ListOf TString) (cfg "t" "texts"); CAddPositional 4 (Scalar TString) (cfg nul "")].
Definition runs_opts : list string := ["-s"; "--str"; "-t"; "--texts"].

Lemma runs_word a : mem a (runs_opts ++ ["-h"; "--help"; "-hh"; "--advanced-help"; "--version"; "--copyright"; "--export-help"; "--version-check"]) = false ->
  starts_with "--export-help=" a = false -> piece_ok runs_opts [] (KWord a).
Proof.
  intros H E. apply ParserProofs.mem_false in H. split; [|split; [|intros []]].
  - intros [[f Hf]|[->|[[v ->]| ->]]].
    + apply H. cbn in Hf. cbn. decompose [or] Hf; try contradiction; match goal with X : (_, _) = (_, _) |- _ => injection X as <- _ end; tauto.
    + apply H. cbn. tauto.
    + destruct v; vm_compute in E; discriminate E.
    + apply H. cbn. tauto.
  - intros Hi. apply H. cbn in *. tauto.
Qed.

Example C09_case_program_option : let w p := fst (run false lib p (start order_line)) in let log p := snd (run false lib p (start order_line)) in
  prepared false lib (start order_line) (w one_order) (log one_order) /\ prepared false lib (start order_line) (w no_texts) (log no_texts) /\
  accepted (log one_order) = [DOption 0 (Scalar TString) (cfg "s" "str")] ++ DOption 1 (ListOf TString) (cfg "t" "texts") :: [DFlag 2 (cfg "a" "all"); DPositional 4 (Scalar TString) (cfg nul "")] /\
  accepted (log no_texts) = [DOption 0 (Scalar TString) (cfg "s" "str")] ++ [DFlag 2 (cfg "a" "all"); DPositional 4 (Scalar TString) (cfg nul "")] /\
  pieces (option_texts (accepted (log one_order))) (subcommands (w_parser (w one_order))) order_line [KValue "-s" "x"; KCheck "0"; KWord "-a"; KWord "w"] /\
  cut order_own order_own [] /\ ~ option_mentioned (cfg "t" "texts") order_own /\
  snd (step false lib CParse (w one_order)) = Ret true /\ snd (step false lib CParse (w no_texts)) = Ret true.
Proof.
  cbn zeta. split; [apply runs_prepared; [|reflexivity]; intros c [<-|[<-|[<-|[<-|[]]]]]; split; discriminate || reflexivity|].
  split; [apply runs_prepared; [|reflexivity]; intros c [<-|[<-|[<-|[]]]]; split; discriminate || reflexivity|].
  split; [reflexivity|]. split; [reflexivity|]. split.
  { change (pieces runs_opts [] order_line [KValue "-s" "x"; KCheck "0"; KWord "-a"; KWord "w"]).
    apply (pieces_cons _ _ (KValue "-s" "x")); [cbn; tauto|reflexivity|].
    apply (pieces_cons _ _ (KCheck "0")); [cbn; intuition discriminate|reflexivity|].
    apply (pieces_cons _ _ (KWord "-a")); [now apply runs_word|reflexivity|].
    apply (pieces_cons _ _ (KWord "w")); [now apply runs_word|reflexivity|]. constructor. }
  split. { split; [reflexivity|]. split; [cbn; intuition discriminate|]. now left. }
  split. { intros (x & i & Hx & Hi & H). destruct Hi as [<-|[<-|[]]]; cbn in Hx; repeat (destruct Hx as [<-|Hx]; [discriminate H|]); destruct Hx. }
  vm_compute. auto.
Qed.

Definition plain_line : list string := ["-s"; "-a"; "--version-check"; "0"; "w"].
Definition plain_own : list string := ["-s"; "-a"; "w"].
(** -a is the value of -s here, so the flag is not given *)
Example C09_case_program_flag : let w p := fst (run false lib p (start plain_line)) in let log p := snd (run false lib p (start plain_line)) in
  prepared false lib (start plain_line) (w one_order) (log one_order) /\ prepared false lib (start plain_line) (w no_flag) (log no_flag) /\
  accepted (log one_order) = [DOption 0 (Scalar TString) (cfg "s" "str"); DOption 1 (ListOf TString) (cfg "t" "texts")] ++ DFlag 2 (cfg "a" "all") :: [DPositional 4 (Scalar TString) (cfg nul "")] /\
  accepted (log no_flag) = [DOption 0 (Scalar TString) (cfg "s" "str"); DOption 1 (ListOf TString) (cfg "t" "texts")] ++ [DPositional 4 (Scalar TString) (cfg nul "")] /\
  pieces (option_texts (accepted (log one_order))) (subcommands (w_parser (w one_order))) plain_line [KValue "-s" "-a"; KCheck "0"; KWord "w"] /\
  cut plain_own plain_own [] /\ unused (accepted (log one_order)) (cfg "a" "all") plain_own [] /\
  snd (step false lib CParse (w one_order)) = Ret true /\ snd (step false lib CParse (w no_flag)) = Ret true /\
  map (w_vars (fst (step false lib CParse (w one_order)))) [0; 2; 4]%nat = [VStr "-a"; VBool false; VStr "w"].
Proof.
  cbn zeta. split; [apply runs_prepared; [|reflexivity]; intros c [<-|[<-|[<-|[<-|[]]]]]; split; discriminate || reflexivity|].
  split; [apply runs_prepared; [|reflexivity]; intros c [<-|[<-|[<-|[]]]]; split; discriminate || reflexivity|].
  split; [reflexivity|]. split; [reflexivity|]. split.
  { change (pieces runs_opts [] plain_line [KValue "-s" "-a"; KCheck "0"; KWord "w"]).
    apply (pieces_cons _ _ (KValue "-s" "-a")); [cbn; tauto|reflexivity|].
    apply (pieces_cons _ _ (KCheck "0")); [cbn; intuition discriminate|reflexivity|].
    apply (pieces_cons _ _ (KWord "w")); [now apply runs_word|reflexivity|]. constructor. }
  split. { split; [reflexivity|]. split; [cbn; intuition discriminate|]. now left. }
  split; [|vm_compute; auto].
  intros wss b1 R. change (flat_map option_idents _) with [IdShort "s"; IdLong "str"; IdShort "t"; IdLong "texts"] in R.
  assert (K : forall a, In a b1 -> a = "" \/ a = "w").
  { inversion R as [|i0 ids0 l0 ws0 l1 wss0 l2 R1 R2]; subst. apply OrderProofs.each_thinner in R2.
    inversion R1 as [|? ? ? ? Hl|w l ws l' Hi Hw Hb Hr E|w l ws l' Hw Hr E|w l ws l' Hr E]; subst; try discriminate; try (exfalso; now apply Hw).
    - apply OrderProofs.reads_thinner in Hr. intros a Ha.
      assert (G : forall l l', OrderProofs.thinner l l' -> In a l' -> a = "" \/ In a l).
      { clear. intros l l' T. induction T as [|x y l l' Hx T IH]; [intros []|]. intros [->|H]; [destruct Hx as [->| ->]; [right; now left|now left]|destruct (IH H); [now left|right; now right]]. }
      destruct (G _ _ R2 Ha) as [H|[H|[H|H]]]; auto. destruct (G _ _ Hr H) as [H0|[H0|[]]]; auto. }
  split.
  - intros a Ha. rewrite app_nil_r in Ha. destruct (K a Ha) as [->| ->]; (split; [intros s Hs; discriminate Hs|reflexivity]).
  - intros H. destruct (K _ H); discriminate.
Qed.

Definition shifted_line : list string := ["--version-check"; "0"; "-a"; "-s"; "x"; "w"].
Example C55_case_program : let w l := fst (run false lib one_order (start l)) in let log l := snd (run false lib one_order (start l)) in
  prepared false lib (start order_line) (w order_line) (log order_line) /\ prepared false lib (start shifted_line) (w shifted_line) (log shifted_line) /\
  accepted (log order_line) = accepted (log shifted_line) /\
  (let ks := [KValue "-s" "x"; KCheck "0"; KWord "-a"; KWord "w"] in let ks' := [KCheck "0"; KWord "-a"; KValue "-s" "x"; KWord "w"] in
   pieces runs_opts [] order_line ks /\ pieces runs_opts [] shifted_line ks' /\ Permutation ks ks' /\ filter foreign ks = filter foreign ks' /\
   flat_map own_texts ks = ([] ++ ["-s"; "x"] ++ ["-a"] ++ ["w"]) ++ [] /\ flat_map own_texts ks' = ([] ++ ["-a"] ++ ["-s"; "x"] ++ ["w"]) ++ []) /\
  (let ids := flat_map option_idents (accepted (log order_line)) in
   In (IdShort "s") ids /\ setting ids (IdShort "s") ["-s"; "x"] /\ complete ids [] /\ complete ids ["-a"] /\ silent (IdShort "s") ["-a"]) /\
  snd (step false lib CParse (w order_line)) = Ret true /\ snd (step false lib CParse (w shifted_line)) = Ret true.
Proof.
  cbn zeta. split; [apply runs_prepared; [|reflexivity]; intros c [<-|[<-|[<-|[<-|[]]]]]; split; discriminate || reflexivity|].
  split; [apply runs_prepared; [|reflexivity]; intros c [<-|[<-|[<-|[<-|[]]]]]; split; discriminate || reflexivity|].
  split; [reflexivity|]. split.
  { split. { apply (pieces_cons _ _ (KValue "-s" "x")); [cbn; tauto|reflexivity|].
      apply (pieces_cons _ _ (KCheck "0")); [cbn; intuition discriminate|reflexivity|].
      apply (pieces_cons _ _ (KWord "-a")); [now apply runs_word|reflexivity|].
      apply (pieces_cons _ _ (KWord "w")); [now apply runs_word|reflexivity|]. constructor. }
    split. { apply (pieces_cons _ _ (KCheck "0")); [cbn; intuition discriminate|reflexivity|].
      apply (pieces_cons _ _ (KWord "-a")); [now apply runs_word|reflexivity|].
      apply (pieces_cons _ _ (KValue "-s" "x")); [cbn; tauto|reflexivity|].
      apply (pieces_cons _ _ (KWord "w")); [now apply runs_word|reflexivity|]. constructor. }
    split; [|repeat split; reflexivity]. eapply perm_trans; [apply perm_swap|]. apply perm_skip. apply perm_swap. }
  split; [|vm_compute; auto].
  change (flat_map option_idents _) with [IdShort "s"; IdLong "str"; IdShort "t"; IdLong "texts"].
  split; [now left|]. split; [apply (setting_separate _ (IdShort "s") "x"); intros k H; cbn in H; repeat (destruct H as [<-|H]; [reflexivity|]); destruct H|].
  split; [intros k H; cbn in H; repeat (destruct H as [<-|H]; [discriminate|]); destruct H|].
  split; [intros k H; cbn in H; repeat (destruct H as [<-|H]; [discriminate|]); destruct H|].
  intros b [<-|[]]. reflexivity.
Qed.
