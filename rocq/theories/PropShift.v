(** An option with its value may stand anywhere (C55), for arbitrary argument vectors. *)
From Verif Require Import Base StrLib Fs Values Validators FormatParse Invocation ValuesSpec ScanSpec DiagnosisSpec ReadingSpec OrderSpec ShiftProofs Samples.

(** ** C55: in any argument vector an option with its value may be exchanged with the arguments behind it.

    [p], [u], [q] are arbitrary, except that [p] and [u] do not end with the name of an option and [u] does not
    mention the same name.  [r] is empty or starts with "--". *)

Theorem C55_any_vector : forall ndebug ds i p v u q r vs f,
  wf_decls ds = true -> elems_ok ds -> In i (flat_map option_idents ds) -> setting (flat_map option_idents ds) i v ->
  complete (flat_map option_idents ds) p -> complete (flat_map option_idents ds) u -> silent i u ->
  cut ((p ++ v ++ u ++ q) ++ r) (p ++ v ++ u ++ q) r ->
  (snd (parse_args ndebug ds ((p ++ v ++ u ++ q) ++ r) vs f) = Ret tt <-> snd (parse_args ndebug ds ((p ++ u ++ v ++ q) ++ r) vs f) = Ret tt) /\
  (snd (parse_args ndebug ds ((p ++ v ++ u ++ q) ++ r) vs f) = Ret tt ->
   (forall y, vars (fst (parse_args ndebug ds ((p ++ v ++ u ++ q) ++ r) vs f)) y = vars (fst (parse_args ndebug ds ((p ++ u ++ v ++ q) ++ r) vs f)) y) /\
   fsys (fst (parse_args ndebug ds ((p ++ v ++ u ++ q) ++ r) vs f)) = fsys (fst (parse_args ndebug ds ((p ++ u ++ v ++ q) ++ r) vs f))).
Proof. exact shift_lemma. Qed.
Print Assumptions C55_any_vector.

(** -t 1 behind the other name of the same option, a cluster, an empty argument and a word *)
Definition shift_decls : list decl :=
  [DOption 0 (Scalar TString) (cfg "s" "str"); DOption 1 (ListOf TString) (cfg "t" "texts"); DFlag 2 (cfg "a" "all"); DFlag 3 (cfg "b" "brief");
   DPositional 5 (ListOf TString) (cfg nul "")].
Definition shift_names : list ident := [IdShort "s"; IdLong "str"; IdShort "t"; IdLong "texts"].
Definition shift_over : list string := ["--texts"; "2"; "-ba"; ""; "-s=-b"; "word"].

Example C55_case_any :
  flat_map option_idents shift_decls = shift_names /\ wf_decls shift_decls = true /\ In (IdShort "t") shift_names /\
  setting shift_names (IdShort "t") ["-t"; "1"] /\ complete shift_names ["-t5"] /\ complete shift_names shift_over /\ silent (IdShort "t") shift_over /\
  cut ((["-t5"] ++ ["-t"; "1"] ++ shift_over ++ ["-t=3"]) ++ ["--"; "-t"]) (["-t5"] ++ ["-t"; "1"] ++ shift_over ++ ["-t=3"]) ["--"; "-t"] /\
  (["-t5"] ++ shift_over ++ ["-t"; "1"] ++ ["-t=3"]) ++ ["--"; "-t"] =
    ["-t5"; "--texts"; "2"; "-ba"; ""; "-s=-b"; "word"; "-t"; "1"; "-t=3"; "--"; "-t"] /\
  snd (parse_args false shift_decls ((["-t5"] ++ shift_over ++ ["-t"; "1"] ++ ["-t=3"]) ++ ["--"; "-t"]) vars0 no_fs) = Ret tt /\
  map (vars (fst (parse_args false shift_decls ((["-t5"] ++ ["-t"; "1"] ++ shift_over ++ ["-t=3"]) ++ ["--"; "-t"]) vars0 no_fs))) [0; 1; 2; 3; 5]%nat =
    map (vars (fst (parse_args false shift_decls ((["-t5"] ++ shift_over ++ ["-t"; "1"] ++ ["-t=3"]) ++ ["--"; "-t"]) vars0 no_fs))) [0; 1; 2; 3; 5]%nat /\
  vars (fst (parse_args false shift_decls ((["-t5"] ++ shift_over ++ ["-t"; "1"] ++ ["-t=3"]) ++ ["--"; "-t"]) vars0 no_fs)) 0%nat = VStr "-b".
Proof.
  split; [reflexivity|]. split; [reflexivity|]. split; [cbn; auto|].
  assert (N : forall k, In k shift_names -> k = IdShort "s" \/ k = IdLong "str" \/ k = IdShort "t" \/ k = IdLong "texts") by (intros k [<-|[<-|[<-|[<-|[]]]]]; auto).
  split. { apply (setting_separate shift_names (IdShort "t") "1"). intros k Hk. destruct (N k Hk) as [->|[->|[->| ->]]]; reflexivity. }
  split. { intros k Hk. destruct (N k Hk) as [->|[->|[->| ->]]]; discriminate. }
  split. { intros k Hk. destruct (N k Hk) as [->|[->|[->| ->]]]; discriminate. }
  split. { intros a Ha. cbn in Ha. repeat (destruct Ha as [<-|Ha]; [reflexivity|]). destruct Ha. }
  split. { split; [reflexivity|]. split; [cbn; intuition discriminate|]. right. exists ["-t"]. reflexivity. }
  vm_compute. repeat split; reflexivity.
Qed.

(** The condition on the end of [u] is needed: -t in front of -s x takes -s. *)
Example C55_case_open : forall ndebug, let ds := [DOption 0 (Scalar TString) (cfg "s" "str"); DOption 1 (ListOf TString) (cfg "t" "texts")] in
  snd (parse_args ndebug ds (["-s"; "x"] ++ ["-t"] ++ ["y"]) vars0 no_fs) = Ret tt /\
  is_ret (snd (parse_args ndebug ds (["-t"] ++ ["-s"; "x"] ++ ["y"]) vars0 no_fs)) = false.
Proof. intros []; vm_compute; auto. Qed.
