(** What becomes of arguments nobody declared (C11), without exceptions. *)
From Verif Require Import Base StrLib Fs Values Validators FormatParse Invocation ValuesSpec ScanSpec ReadingSpec UnknownSpec UnknownProofs Samples.

(** ** C11: every argument in front that no option reads is used up by flags, or is a word, or the vector is refused *)

Theorem C11_consumed : forall ndebug decls args b r vs f l1 a l2, wf_decls decls = true -> elems_ok decls -> cut args b r -> b = l1 ++ a :: l2 ->
  (forall i, In i (flat_map option_idents decls) -> looks_like i a = false) -> ~ may_be_value (flat_map option_idents decls) l1 ->
  snd (parse_args ndebug decls args vs f) = Ret tt -> consumed (flag_configs decls) a.
Proof. exact consumed_lemma. Qed.
Print Assumptions C11_consumed.

(** which arguments a program with flags only accepts, exactly *)
Theorem C11_alone_exact : forall ndebug ds a vs f, wf_decls ds = true -> (forall d, In d ds -> exists x c, d = DFlag x c) -> a <> "--" ->
  snd (parse_args ndebug ds [a] vs f) = Ret tt <-> used_up (flag_configs ds) a.
Proof. exact alone_lemma. Qed.
Print Assumptions C11_alone_exact.

Definition unknown_decls : list decl := [DFlag 2 (cfg "x" ""); DFlag 3 (cfg "f" "foo"); DFlag 4 (cfg "y" "yes")].

(** -yx, -x-yes and --foo are used up, -xz, -xx and --fo are not *)
Example C11_case_alone :
  used_up (flag_configs unknown_decls) "-yx" /\ used_up (flag_configs unknown_decls) "-x-yes" /\ used_up (flag_configs unknown_decls) "--foo" /\
  ~ used_up (flag_configs unknown_decls) "-xz" /\ ~ used_up (flag_configs unknown_decls) "-xx" /\ ~ used_up (flag_configs unknown_decls) "--fo" /\
  map (fun a => okind_of (snd (parse_args true unknown_decls [a] vars0 no_fs))) ["-yx"; "-x-yes"; "--foo"; "-xz"; "-xx"; "--fo"]
  = [ORet; ORet; ORet; OThrow KUnknownOption; OThrow KUnknownOption; OThrow KUnknownOption].
Proof.
  assert (A : forall d, In d unknown_decls -> exists x c, d = DFlag x c) by (intros d [<-|[<-|[<-|[]]]]; eauto).
  assert (W : wf_decls unknown_decls = true) by reflexivity.
  split; [|split; [|split; [|split; [|split; [|split; [|reflexivity]]]]]];
    try (apply (C11_alone_exact true unknown_decls _ vars0 no_fs W A); [discriminate|reflexivity]);
    (intros K; apply (C11_alone_exact true unknown_decls _ vars0 no_fs W A) in K; [vm_compute in K; discriminate K|discriminate]).
Qed.

(** with options and words around it *)
Example C11_case_consumed : let ds := DOption 0 (Scalar int32) (cfg "i" "int") :: unknown_decls ++ [DPositional 5 (Scalar TString) (cfg nul "")] in
  let args := ["-i"; "5"; "-yx"; "w"; "--"] in
  wf_decls ds = true /\ cut args ["-i"; "5"; "-yx"; "w"] ["--"] /\ okind_of (snd (parse_args true ds args vars0 no_fs)) = ORet /\
  (forall i, In i (flat_map option_idents ds) -> looks_like i "-yx" = false) /\ ~ may_be_value (flat_map option_idents ds) ["-i"; "5"] /\
  consumed (flag_configs ds) "-yx".
Proof.
  cbn zeta. split; [reflexivity|]. split; [split; [reflexivity|split; [cbn; intuition discriminate|right; now exists []]]|]. split; [reflexivity|].
  split; [intros i [<-|[<-|[]]]; reflexivity|]. split.
  - intros (l & i & E & Hi). change ["-i"; "5"] with (["-i"] ++ ["5"]) in E. apply app_inj_tail in E as [_ E]. destruct Hi as [<-|[<-|[]]]; discriminate E.
  - change (flag_configs _) with [cfg "x" ""; cfg "f" "foo"; cfg "y" "yes"].
    apply (consumed_letter (cfg "x" "") _ "-y" ""); [reflexivity|cbn; intuition discriminate|]. apply consumed_kept.
    apply (consumed_letter (cfg "y" "yes") _ "-" ""); [reflexivity|cbn; intuition discriminate|]. constructor. now left.
Qed.
