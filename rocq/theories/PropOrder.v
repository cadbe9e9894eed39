(** The order of declarations for arbitrary argument vectors (C18). *)
From Coq Require Import Permutation.
From Verif Require Import Base StrLib Fs Values Validators FormatParse Invocation ValuesSpec ScanSpec DiagnosisSpec ReadingSpec OrderSpec OrderProofs Samples.

(** ** C18: any argument vector, as long as no option name is followed by something that looks like
    another option, and clusters contain no second dash *)

Theorem C18_any_vector : forall ndebug ds ds' args b r vs f,
  wf_decls ds = true -> elems_ok ds -> NoDup (map bound_addr ds) -> validators_pure ds ->
  Permutation ds ds' -> filter is_positional ds = filter is_positional ds' ->
  cut args b r -> apart ds b -> leaves_neat ds b r ->
  (snd (parse_args ndebug ds args vs f) = Ret tt <-> snd (parse_args ndebug ds' args vs f) = Ret tt) /\
  (snd (parse_args ndebug ds args vs f) = Ret tt ->
   (forall y, vars (fst (parse_args ndebug ds args vs f)) y = vars (fst (parse_args ndebug ds' args vs f)) y) /\
   fsys (fst (parse_args ndebug ds args vs f)) = fsys (fst (parse_args ndebug ds' args vs f))).
Proof. exact any_order_lemma. Qed.
Print Assumptions C18_any_vector.

(** An option name as value of the same option, repeated flags' letters and empty arguments, which the
    command lines of C07 do not contain. *)
Definition order_decls : list decl :=
  [DOption 0 (Scalar TString) (cfg "s" "str"); DOption 1 (ListOf TString) (cfg "t" "texts"); DFlag 2 (cfg "a" "all"); DFlag 3 (cfg "b" "brief");
   DPositional 5 (ListOf TString) (cfg nul "")].
Definition order_before : list string := ["-ba"; "-s"; "-s"; ""; "-t"; "-t"].
Definition order_args : list string := order_before ++ ["--"; "-x"].

Example C18_case_any : let q := [nth 3 order_decls (DFlag 0 (cfg "a" "")); nth 1 order_decls (DFlag 0 (cfg "a" "")); nth 2 order_decls (DFlag 0 (cfg "a" ""));
    nth 0 order_decls (DFlag 0 (cfg "a" "")); nth 4 order_decls (DFlag 0 (cfg "a" ""))] in
  wf_decls order_decls = true /\ NoDup (map bound_addr order_decls) /\ validators_pure order_decls /\ Permutation order_decls q /\
  filter is_positional order_decls = filter is_positional q /\
  cut order_args order_before ["--"; "-x"] /\ apart order_decls order_before /\ leaves_neat order_decls order_before ["--"; "-x"] /\
  snd (parse_args false order_decls order_args vars0 no_fs) = Ret tt /\
  map (vars (fst (parse_args false q order_args vars0 no_fs))) [0; 1; 2; 3; 5]%nat =
    [VStr "-s"; VList [VStr "-t"]; VBool true; VBool true; VList [VStr "-x"]].
Proof.
  cbv zeta. split; [reflexivity|]. split; [repeat constructor; cbn; intuition discriminate|].
  split. { intros x t c H. destruct H as [H|[H|[H|[H|[H|[]]]]]]; try discriminate; injection H as <- <- <-; intros f v; reflexivity. }
  split. { unfold order_decls; cbn [nth].
    match goal with |- Permutation [?a; ?b; ?c; ?d; ?e] _ => transitivity [d; a; b; c; e] end.
    - eapply perm_trans; [|apply perm_swap]. apply perm_skip. eapply perm_trans; [|apply perm_swap]. apply perm_skip. apply perm_swap.
    - apply perm_skip. eapply perm_trans; [apply perm_swap|]. apply perm_skip. apply perm_swap. }
  split; [reflexivity|].
  split. { split; [reflexivity|]. split; [cbn; intuition discriminate|]. right. exists ["-x"]. reflexivity. }
  split.
  { intros d d' i j p w q Hd Hd' Hn Hi Hj E. unfold order_before in E.
    assert (P : In (dashed i, w) [("-ba", "-s"); ("-s", "-s"); ("-s", ""); ("", "-t"); ("-t", "-t")]).
    { do 6 (destruct p as [|? p]; [first [discriminate E|cbn [app] in E; pose proof (f_equal (hd "") E) as A; pose proof (f_equal (fun l => nth 1 l "") E) as B; cbn [hd nth] in A, B;
        rewrite <- A, <- B; cbn [In]; tauto]|apply (f_equal (@List.tl _)) in E; cbn [List.tl app] in E]); destruct p; discriminate. }
    clear E.
    assert (Q : forall k e, In e order_decls -> In k (option_idents e) ->
      (bound_addr e = 0%nat /\ (k = IdShort "s" \/ k = IdLong "str")) \/ (bound_addr e = 1%nat /\ (k = IdShort "t" \/ k = IdLong "texts"))).
    { intros k e [<-|[<-|[<-|[<-|[<-|[]]]]]]; cbn; intros H; [left; split; [reflexivity|]; destruct H as [<-|[<-|[]]]; auto|right; split; [reflexivity|]; destruct H as [<-|[<-|[]]]; auto|destruct H..]. }
    destruct (Q i d Hd Hi) as [[A1 [-> | ->]]|[A1 [-> | ->]]], (Q j d' Hd' Hj) as [[A2 [-> | ->]]|[A2 [-> | ->]]]; try congruence;
      destruct P as [P|[P|[P|[P|[P|[]]]]]]; pose proof (f_equal fst P) as P1; pose proof (f_equal snd P) as P2; cbn [fst snd] in P1, P2; subst w; try reflexivity; discriminate P1. }
  split.
  { intros wss b1 R a Ha. apply in_app_iff in Ha as [Ha|Ha].
    - assert (K : a = "" \/ In a order_before).
      { apply each_thinner in R. clear -R Ha. induction R as [|x y l l' Hxy R IH]; [destruct Ha|]. destruct Ha as [->|Ha]; [|destruct (IH Ha); [now left|right; now right]].
        destruct Hxy as [->| ->]; [right; now left|now left]. }
      destruct K as [->|K]; [intros ? H; discriminate|]. cbn in K.
      repeat (destruct K as [<-|K]; [intros s Hs Hb; try discriminate; injection Hs as <-; cbn; intuition discriminate|]). destruct K.
    - cbn in Ha. repeat (destruct Ha as [<-|Ha]; [intros s Hs Hb; try discriminate; injection Hs as <-; try discriminate; cbn; intuition discriminate|]). destruct Ha. }
  vm_compute. auto.
Qed.

(** A second dash in a cluster: -x-bb with the flag x declared first is --bb, the flag bb; with bb (short b) declared first
    it is -x-b and then --b, which is unknown. *)
Theorem C18_dash_refuted : exists d1 d2 args vs f,
  bound_addr d1 <> bound_addr d2 /\ wf_decls [d1; d2] = true /\ apart [d1; d2] args /\
  forall ndebug, args = ["-x-bb"] /\ snd (parse_args ndebug [d1; d2] args vs f) = Ret tt /\
    okind_of (snd (parse_args ndebug [d2; d1] args vs f)) = OThrow KUnknownOption.
Proof.
  exists (DFlag 2 (cfg "x" "")), (DFlag 3 (cfg "b" "bb")), ["-x-bb"], vars0, no_fs.
  split; [discriminate|]. split; [reflexivity|]. split.
  - intros d d' i j p w q [<-|[<-|[]]] _ _ [].
  - intros []; vm_compute; auto.
Qed.
Print Assumptions C18_dash_refuted.
