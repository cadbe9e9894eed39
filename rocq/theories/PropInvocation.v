(** Properties of well-formed command lines (C06, C07, C08, C10, C14, C15, C16, C18, C55). *)
From Verif Require Import Base StrLib Fs Values Validators FormatParse Invocation InvocationProofs
  InvocationCorollaries InvocationEffects Samples.
From Coq Require Import Permutation.

(** ** C07: writing an invocation down and parsing it does what the invocation says *)

Theorem C07_render_parse : forall ndebug decls inv vs f,
  wf_decls decls = true -> wf_invocation decls inv = true ->
  agrees (parse_args ndebug decls (render inv) vs f) (eval ndebug decls inv {| s_vars := vs; s_fs := f |}).
Proof. exact parse_args_refines. Qed.
Print Assumptions C07_render_parse.

Example C07_hypotheses : wf_decls sample = true /\ wf_invocation sample sample_inv = true.
Proof. vm_compute. auto. Qed.
Example C07_case :
  render sample_inv = ["-ab"; "-i5"; "word"; "--list"; "1"; "--list=-2"; "--"; "-x"; "y"] /\
  let r := parse_args false sample (render sample_inv) vars0 no_fs in
  snd r = Ret tt /\ map (vars (fst r)) [0; 1; 2; 3; 4; 5; 6] =
    [VInt 5; VList [VInt 1; VInt (-2)]; VBool true; VBool true; VStr "word"; VList [VStr "-x"; VStr "y"]; VOther "unbound"].
Proof. vm_compute. auto. Qed.

(** ** C06: all spellings of an option are equivalent *)

Theorem C06_spellings_equivalent : forall ndebug decls inv inv' vs f,
  wf_decls decls = true -> wf_invocation decls inv = true -> wf_invocation decls inv' = true ->
  one_names decls (items inv) = true -> one_names decls (items inv') = true ->
  Forall2 (respelled decls) (items inv) (items inv') -> tail inv = tail inv' ->
  same_run (parse_args ndebug decls (render inv) vs f) (parse_args ndebug decls (render inv') vs f).
Proof. exact spellings_equivalent_lemma. Qed.
Print Assumptions C06_spellings_equivalent.

Definition spelled (it : item) : invocation :=
  {| items := [IOpt (IdLong "list") Equals "3"; ICluster "b"; it; IWord "x"; IWord "y"]; tail := None |}.
Definition five_spellings : list item :=
  [IOpt (IdShort "i") Separate "5"; IOpt (IdShort "i") Joined "5"; IOpt (IdShort "i") Equals "5";
   IOpt (IdLong "int") Separate "5"; IOpt (IdLong "int") Equals "5"].
Example C06_hypotheses : forallb (fun it => wf_invocation sample (spelled it) && one_names sample (items (spelled it))) five_spellings = true
  /\ Forall (fun it => Forall (fun it' => Forall2 (respelled sample) (items (spelled it)) (items (spelled it'))) five_spellings) five_spellings.
Proof.
  split; [vm_compute; reflexivity|].
  assert (H : forall i j sp sp', In i [IdShort "i"; IdLong "int"] -> In j [IdShort "i"; IdLong "int"] ->
      Forall2 (respelled sample) (items (spelled (IOpt i sp "5"))) (items (spelled (IOpt j sp' "5")))).
  { intros i j sp sp' Hi Hj. repeat (constructor; [try apply resp_same|]); [|constructor].
    apply (resp_value sample 0 (Scalar int32) (cfg "i" "int") i j sp sp' "5"); [now left|exact Hi|exact Hj]. }
  repeat (constructor; [repeat (constructor; [apply H; cbn; auto|]); constructor|]). constructor.
Qed.
Example C06_case : map (fun it => render (spelled it)) five_spellings =
  [["--list=3"; "-b"; "-i"; "5"; "x"; "y"]; ["--list=3"; "-b"; "-i5"; "x"; "y"]; ["--list=3"; "-b"; "-i=5"; "x"; "y"];
   ["--list=3"; "-b"; "--int"; "5"; "x"; "y"]; ["--list=3"; "-b"; "--int=5"; "x"; "y"]].
Proof. reflexivity. Qed.

(** ** C55: what belongs to different declarations may be interleaved freely *)

Theorem C55_interleaving : forall ndebug decls inv inv' vs f,
  wf_decls decls = true -> wf_invocation decls inv = true -> wf_invocation decls inv' = true ->
  one_names decls (items inv) = true -> one_names decls (items inv') = true ->
  (forall x t c, In (DOption x t c) decls -> option_values (items inv) c = option_values (items inv') c) ->
  Permutation (mentions (items inv)) (mentions (items inv')) ->
  words inv = words inv' ->
  same_run (parse_args ndebug decls (render inv) vs f) (parse_args ndebug decls (render inv') vs f).
Proof. exact same_meaning. Qed.
Print Assumptions C55_interleaving.

Definition interleaved : invocation :=
  {| items := [IWord "word"; IWord "-"; IOpt (IdShort "l") Joined "1"; IOpt (IdLong "int") Equals "5"; ICluster "ba";
               IOpt (IdShort "l") Equals "2"]; tail := None |}.
Definition interleaved' : invocation :=
  {| items := [IOpt (IdLong "list") Separate "1"; ILongFlag "all"; IOpt (IdLong "list") Equals "2";
               IWord "word"; ICluster "b"; IOpt (IdShort "i") Joined "5"]; tail := Some ["-"] |}.
Example C55_hypotheses :
  wf_invocation sample interleaved = true /\ one_names sample (items interleaved) = true /\
  option_values (items interleaved) (cfg "l" "list") = [Some "1"; Some "2"] /\
  mentions (items interleaved) = [IdShort "b"; IdShort "a"] /\ words interleaved = ["word"; "-"] /\
  wf_invocation sample interleaved' = true /\ words interleaved' = words interleaved /\
  option_values (items interleaved') (cfg "l" "list") = [Some "1"; Some "2"] /\
  option_values (items interleaved') (cfg "i" "int") = option_values (items interleaved) (cfg "i" "int").
Proof. vm_compute. repeat split; reflexivity. Qed.

(** ** C14: clusters are equivalent to separate flags *)

Theorem C14_clusters : forall ndebug decls inv vs f,
  wf_decls decls = true -> wf_invocation decls inv = true ->
  forallb (fun i => mem_ident i (flat_map flag_idents decls)) (mentions (items inv)) = true ->
  same_run (parse_args ndebug decls (render inv) vs f)
           (parse_args ndebug decls (render {| items := flat_map split_cluster (items inv); tail := tail inv |}) vs f).
Proof. exact clusters_equivalent_lemma. Qed.
Print Assumptions C14_clusters.

Example C14_case :
  wf_invocation sample sample_inv = true /\
  forallb (fun i => mem_ident i (flat_map flag_idents sample)) (mentions (items sample_inv)) = true /\
  render {| items := flat_map split_cluster (items sample_inv); tail := tail sample_inv |} =
    ["-a"; "-b"; "-i5"; "word"; "--list"; "1"; "--list=-2"; "--"; "-x"; "y"].
Proof. vm_compute. auto. Qed.

(** ** C08: a list option collects its values in order *)

(** Full statement: also with both names on one command line (refuted below).  [stored]: all values
    in order, except the out-of-range numbers of C02. *)
Theorem C08_list_collects_partial : forall ndebug decls inv vs f x e c,
  wf_decls decls = true -> wf_invocation decls inv = true -> one_names decls (items inv) = true ->
  NoDup (map bound_addr decls) -> In (DOption x (ListOf e) c) decls ->
  okind_of (snd (parse_args ndebug decls (render inv) vs f)) = ORet ->
  exists texts, option_values (items inv) c = map Some texts /\
    match texts with
    | [] => vars (fst (parse_args ndebug decls (render inv) vs f)) x = vs x
    | _ => exists es, stored ndebug e texts es /\ vars (fst (parse_args ndebug decls (render inv) vs f)) x = VList es
    end.
Proof. exact list_option_lemma. Qed.
Print Assumptions C08_list_collects_partial.

Example C08_case : NoDup (map bound_addr sample) /\
  snd (parse_args false sample (render interleaved) vars0 no_fs) = Ret tt /\
  vars (fst (parse_args false sample (render interleaved) vars0 no_fs)) 1 = VList [VInt 1; VInt 2].
Proof. split; [|vm_compute; auto]. repeat constructor; cbn; intuition discriminate. Qed.

(** -l 1 --list 2: the values given by the short name are lost *)
Theorem C08_mixed_names_refuted : exists decls inv vs f,
  wf_decls decls = true /\ wf_invocation decls inv = true /\
  In (DOption 1 (ListOf int32) (cfg "l" "list")) decls /\
  render inv = ["-l"; "1"; "--list"; "2"] /\
  option_values (items inv) (cfg "l" "list") = [Some "1"; Some "2"] /\
  forall ndebug, snd (parse_args ndebug decls (render inv) vs f) = Ret tt /\
    vars (fst (parse_args ndebug decls (render inv) vs f)) 1 = VList [VInt 2].
Proof.
  exists [DOption 1 (ListOf int32) (cfg "l" "list")],
    {| items := [IOpt (IdShort "l") Separate "1"; IOpt (IdLong "list") Separate "2"]; tail := None |}, vars0, no_fs.
  split; [vm_compute; reflexivity|]. split; [vm_compute; reflexivity|]. split; [now left|].
  split; [reflexivity|]. split; [reflexivity|]. intros []; vm_compute; auto.
Qed.
Print Assumptions C08_mixed_names_refuted.

(** ** C10: required and repeated options *)

Theorem C10_accepted_single_option : forall ndebug decls inv vs f x e c,
  wf_decls decls = true -> wf_invocation decls inv = true ->
  NoDup (map bound_addr decls) -> In (DOption x (Scalar e) c) decls ->
  okind_of (snd (parse_args ndebug decls (render inv) vs f)) = ORet ->
  (option_values (items inv) c = [] /\ c_required c = false /\
   vars (fst (parse_args ndebug decls (render inv) vs f)) x = vs x) \/
  (exists text v, option_values (items inv) c = [Some text] /\ parse_elem e (vs x) text = POk v PSuccess /\
   vars (fst (parse_args ndebug decls (render inv) vs f)) x = v).
Proof. exact single_option_lemma. Qed.
Print Assumptions C10_accepted_single_option.

(** the options declared before are in order ([mapM_ ... d1 ... = (s1, Ret tt)]), so no earlier error is reported *)
Theorem C10_required_missing : forall ndebug d1 x t c d2 inv vs f s1,
  let decls := d1 ++ DOption x t c :: d2 in
  wf_decls decls = true -> wf_invocation decls inv = true ->
  c_required c = true -> option_values (items inv) c = [] ->
  mapM_ (s_option ndebug (items inv)) d1 {| s_vars := vs; s_fs := f |} = (s1, Ret tt) ->
  okind_of (snd (parse_args ndebug decls (render inv) vs f)) = OThrow KRequiredMissing.
Proof. exact required_lemma. Qed.
Print Assumptions C10_required_missing.

Theorem C10_repeated : forall ndebug d1 x e c d2 inv vs f s1 texts,
  let decls := d1 ++ DOption x (Scalar e) c :: d2 in
  wf_decls decls = true -> wf_invocation decls inv = true ->
  option_values (items inv) c = map Some texts -> 2 <= List.length texts ->
  (forall old text, In text texts -> exists v, parse_elem e old text = POk v PSuccess) ->
  mapM_ (s_option ndebug (items inv)) d1 {| s_vars := vs; s_fs := f |} = (s1, Ret tt) ->
  okind_of (snd (parse_args ndebug decls (render inv) vs f)) = OThrow KMultiple.
Proof. exact repeated_lemma. Qed.
Print Assumptions C10_repeated.

Example C10_case :
  let decls := [DOption 1 (ListOf int32) (cfg "l" "list"); DOption 0 (Scalar int32) (required (cfg "i" "int"))] in
  let lists := [IOpt (IdShort "l") Joined "1"; IOpt (IdShort "l") Joined "2"] in
  map (fun more => snd (parse_args false decls (render {| items := lists ++ more; tail := None |}) vars0 no_fs))
    [[]; [IOpt (IdShort "i") Joined "1"]; [IOpt (IdShort "i") Joined "1"; IOpt (IdShort "i") Separate "1"];
     [IOpt (IdShort "i") Joined "1"; IOpt (IdLong "int") Equals "1"]] =
  [Throw (Exn KRequiredMissing "Option -i/--int is required but not set."); Ret tt;
   Throw (Exn KMultiple "Option -i is no list/container but declared multiple times.");
   Throw (Exn KMultiple "Option -i/--int is no list/container but specified multiple times")].
Proof. vm_compute. reflexivity. Qed.

(** ** C15: flags report exactly whether they were given (beyond an initial [true]) *)

Theorem C15_flags : forall ndebug decls inv vs f x c,
  wf_decls decls = true -> wf_invocation decls inv = true ->
  NoDup (map bound_addr decls) -> In (DFlag x c) decls ->
  okind_of (snd (parse_args ndebug decls (render inv) vs f)) = ORet ->
  vars (fst (parse_args ndebug decls (render inv) vs f)) x = VBool (flag_given (items inv) c || was_true (vs x)) /\
  count_in (config_idents c) (mentions (items inv)) <= 1.
Proof. exact flag_lemma. Qed.
Print Assumptions C15_flags.

Example C15_case :
  let p args := parse_args false sample (args ++ ["w"; "v"]) vars0 no_fs in
  map (fun args => (okind_of (snd (p args)), vars (fst (p args)) 2, vars (fst (p args)) 3))
    [["-ab"]; ["--brief"]; []; ["-aa"]; ["-a"; "--all"]; ["-a"; "-a"]] =
  [(ORet, VBool true, VBool true); (ORet, VBool false, VBool true); (ORet, VBool false, VBool false);
   (OThrow KUnknownOption, VBool true, VBool false); (OThrow KUnknownOption, VBool true, VBool false);
   (OThrow KUnknownOption, VBool true, VBool false)].
Proof. vm_compute. reflexivity. Qed.

(** ** C16: positional options are filled in declaration order *)

Theorem C16_positionals : forall ndebug decls inv vs f,
  wf_decls decls = true -> wf_invocation decls inv = true ->
  NoDup (map bound_addr decls) ->
  okind_of (snd (parse_args ndebug decls (render inv) vs f)) = ORet ->
  filled ndebug vs (vars (fst (parse_args ndebug decls (render inv) vs f))) decls (words inv).
Proof. exact positionals_lemma. Qed.
Print Assumptions C16_positionals.

Example C16_case : words sample_inv = ["word"; "-x"; "y"] /\
  okind_of (snd (parse_args false sample (render sample_inv) vars0 no_fs)) = ORet.
Proof. vm_compute. auto. Qed.

(** ** C18: order of declarations *)

(** Full statement: for every argument vector (refuted below).  Proved for the command lines of C07. *)
Theorem C18_declaration_order_partial : forall ndebug ds ds' inv vs f,
  wf_decls ds = true -> wf_invocation ds inv = true ->
  NoDup (map bound_addr ds) -> validators_pure ds ->
  Permutation ds ds' -> filter is_positional ds = filter is_positional ds' ->
  okind_of (snd (parse_args ndebug ds (render inv) vs f)) = ORet ->
  okind_of (snd (parse_args ndebug ds' (render inv) vs f)) = ORet /\
  (forall y, vars (fst (parse_args ndebug ds (render inv) vs f)) y = vars (fst (parse_args ndebug ds' (render inv) vs f)) y) /\
  fsys (fst (parse_args ndebug ds (render inv) vs f)) = fsys (fst (parse_args ndebug ds' (render inv) vs f)).
Proof. exact declaration_order_lemma. Qed.
Print Assumptions C18_declaration_order_partial.

Example C18_case : validators_pure sample /\
  okind_of (snd (parse_args false sample (render sample_inv) vars0 no_fs)) = ORet /\
  okind_of (snd (parse_args false (rev (firstn 4 sample) ++ skipn 4 sample) (render sample_inv) vars0 no_fs)) = ORet.
Proof.
  split; [|vm_compute; auto]. intros x t c H. destruct H as [H|[H|[H|[H|[H|[H|[]]]]]]]; try discriminate;
    injection H as <- <- <-; intros f v; reflexivity.
Qed.

(** -a -b x: if a is declared first, a takes "-b"; if b is declared first, b takes "x" *)
Theorem C18_declaration_order_refuted : exists d1 d2 args vs f,
  bound_addr d1 <> bound_addr d2 /\ wf_decls [d1; d2] = true /\
  forall ndebug,
    let p := parse_args ndebug [d1; d2; DPositional 5 (ListOf TString) (cfg nul "")] args vs f in
    let q := parse_args ndebug [d2; d1; DPositional 5 (ListOf TString) (cfg nul "")] args vs f in
    args = ["-a"; "-b"; "x"; "y"] /\
    snd p = Ret tt /\ snd q = Ret tt /\
    (vars (fst p) 4 = VStr "-b" /\ vars (fst p) 6 = VOther "unbound") /\ (vars (fst q) 4 = VStr "" /\ vars (fst q) 6 = VStr "x").
Proof.
  exists (DOption 4 (Scalar TString) (cfg "a" "")), (DOption 6 (Scalar TString) (cfg "b" "")), ["-a"; "-b"; "x"; "y"], vars0, no_fs.
  split; [discriminate|]. split; [reflexivity|]. intros []; vm_compute; auto 10.
Qed.
Print Assumptions C18_declaration_order_refuted.
