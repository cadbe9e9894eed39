(** Flags nobody gives (C09), for arbitrary argument vectors. *)
From Verif Require Import Base StrLib Fs Values Validators FormatParse Invocation ValuesSpec ScanSpec DiagnosisSpec ReadingSpec OrderSpec OrderProofs UnusedProofs Samples.

(** ** C09: with a flag nobody gives the parse has the outcome of the interface without the flag, and its variable is kept *)

Theorem C09_unmentioned_flag : forall ndebug d1 x c d2 args b r vs f v,
  wf_decls (d1 ++ DFlag x c :: d2) = true -> elems_ok (d1 ++ DFlag x c :: d2) -> ~ In x (map bound_addr (d1 ++ d2)) ->
  cut args b r -> unused (d1 ++ DFlag x c :: d2) c b r -> vs x = VBool v ->
  let p := parse_args ndebug (d1 ++ DFlag x c :: d2) args vs f in let q := parse_args ndebug (d1 ++ d2) args vs f in
  (forall y, vars (fst p) y = vars (fst q) y) /\ fsys (fst p) = fsys (fst q) /\ okind_of (snd p) = okind_of (snd q) /\ vars (fst p) x = vs x.
Proof. exact unused_lemma. Qed.
Print Assumptions C09_unmentioned_flag.

(** b is in the value of -s, in a word and in a longer name behind "--", but nobody gives the flag *)
Definition unused_decls (more : list decl) : list decl :=
  [DOption 0 (Scalar TString) (cfg "s" "str"); DFlag 2 (cfg "a" "all")] ++ more ++ [DPositional 5 (ListOf TString) (cfg nul "")].
Definition unused_flag : decl := DFlag 3 (cfg "b" "brief").
Definition unused_vars : store := fun y => if Nat.eqb y 3 then VBool true else vars0 y.

Example C09_case_flag : let c := cfg "b" "brief" in
  wf_decls (unused_decls [unused_flag]) = true /\ cut (["-s-b-"; "-a"; "bb"; ""] ++ ["--"; "--brief"]) ["-s-b-"; "-a"; "bb"; ""] ["--"; "--brief"] /\
  unused (unused_decls [unused_flag]) c ["-s-b-"; "-a"; "bb"; ""] ["--"; "--brief"] /\
  snd (parse_args false (unused_decls [unused_flag]) (["-s-b-"; "-a"; "bb"; ""] ++ ["--"; "--brief"]) unused_vars no_fs) = Ret tt /\
  map (vars (fst (parse_args false (unused_decls [unused_flag]) (["-s-b-"; "-a"; "bb"; ""] ++ ["--"; "--brief"]) unused_vars no_fs))) [0; 2; 3; 5]%nat =
    [VStr "-b-"; VBool true; VBool true; VList [VStr "bb"; VStr "--brief"]].
Proof.
  cbv zeta. split; [reflexivity|]. split. { split; [reflexivity|]. split; [cbn; intuition discriminate|]. right. exists ["--brief"]. reflexivity. }
  split; [|vm_compute; auto].
  intros wss b1 R. change (flat_map option_idents (unused_decls [unused_flag])) with [IdShort "s"; IdLong "str"] in R.
  assert (K : forall a, In a b1 -> a = "" \/ In a ["-a"; "bb"; ""]).
  { inversion R as [|i0 ids0 l0 ws0 l1 wss0 l2 R1 R2]; subst. apply each_thinner in R2.
    inversion R1 as [|? ? ? ? Hl|w l ws l' Hi Hw Hb Hr E|w l ws l' Hw Hr E|w l ws l' Hr E]; subst; [discriminate Hl|].
    apply reads_thinner in Hr. assert (T0 : thinner ("" :: ["-a"; "bb"; ""]) ("" :: l')) by (constructor; [now right|exact Hr]).
    pose proof (thinner_trans _ _ _ T0 R2) as T.
    intros a Ha. clear -T Ha. assert (G : forall l l', thinner l l' -> In a l' -> a = "" \/ In a l).
      { clear. intros l l' T. induction T as [|x y l l' Hx T IH]; [intros []|]. intros [->|H]; [destruct Hx as [->| ->]; [right; now left|now left]|destruct (IH H); [now left|right; now right]]. }
      destruct (G _ _ T Ha) as [H|[H|H]]; [now left|left; congruence|right; exact H]. }
  split.
  - intros a Ha. apply in_app_iff in Ha as [Ha|Ha]; [destruct (K a Ha) as [->|H]; [split; [intros s Hs; discriminate|reflexivity]|]|];
      [cbn in H; repeat (destruct H as [<-|H]; [split; [intros s Hs Hb; try discriminate; injection Hs as <-; cbn; intuition discriminate|reflexivity]|]); destruct H|].
    cbn in Ha. repeat (destruct Ha as [<-|Ha]; [split; [intros s Hs Hb; try discriminate; injection Hs as <-; discriminate Hb|reflexivity]|]). destruct Ha.
  - intros H. destruct (K _ H) as [E|E]; [discriminate|]. cbn in E. intuition discriminate.
Qed.

(** The condition on clusters is needed: -a-brief gives the flag brief, though no argument is its name *)
Example C09_case_dash : forall ndebug,
  snd (parse_args ndebug (unused_decls [DFlag 3 (cfg "z" "brief")]) ["-a-brief"] vars0 no_fs) = snd (parse_args ndebug (unused_decls [DFlag 3 (cfg "z" "brief")]) [] vars0 no_fs) /\
  vars (fst (parse_args ndebug (unused_decls [DFlag 3 (cfg "z" "brief")]) ["-a-brief"] vars0 no_fs)) 3%nat = VBool true /\
  okind_of (snd (parse_args ndebug (unused_decls []) ["-a-brief"] vars0 no_fs)) = OThrow KUnknownOption.
Proof. intros []; vm_compute; auto. Qed.
