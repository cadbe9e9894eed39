(** The names in tool descriptions (C60). *)
From Verif Require Import Base StrLib Fs Values Validators FormatParse Parser ParserSpec HelpExport HelpSpec TdlSpec Invocation Samples HelpSamples PropProgram TdlNamesSpec TdlNames.

(** ** C60: the parameters of a description and their names, for every parser *)
Theorem C60_names : forall tags r, exists l, innermost (ti_params (tool_info_of tags r)) (List.tl (pr_executable r)) l /\
  map nd_name l = map position_name (seq 0 (List.length (filter is_positional (pr_ops r)))) ++ flat_map described_name (pr_ops r).
Proof. exact names_lemma. Qed.
Print Assumptions C60_names.

(** when they can be told apart: at most one option or flag has no long identifier, and none is called like a positional option *)
Theorem C60_distinct : forall tags r, exists l, innermost (ti_params (tool_info_of tags r)) (List.tl (pr_executable r)) l /\
  (NoDup (map nd_name l) <->
   NoDup (flat_map described_name (pr_ops r)) /\
   forall i : nat, i < List.length (filter is_positional (pr_ops r)) -> ~ In (position_name i) (flat_map described_name (pr_ops r))).
Proof. exact names_distinct. Qed.
Print Assumptions C60_distinct.

Example C60_names_case :
  map nd_name (ti_params (tool_info_of (fun _ => []) (request (FTdl true) app_meta
    (OpDecl (DPositional 5 (ListOf TString) (cfg nul "")) :: app_ops) vars0))) = ["positional_0"; "positional_1"; "int"; "list"; ""].
Proof. reflexivity. Qed.

(** an option may be called like a positional option *)
Theorem C60_position_refuted : exists cs, map (fun e => okind_of (snd e)) (snd (run false lib cs (start []))) = [ORet; ORet] /\
  map nd_name (ti_params (tool_info_of (fun _ => []) (request (FTdl true) app_meta (accepted_ops (snd (run false lib cs (start [])))) vars0))) =
  ["positional_0"; "positional_0"].
Proof.
  exists [CAddOption 0 (Scalar int32) (cfg nul "positional_0"); CAddPositional 4 (Scalar TString) (cfg nul "")]. split; vm_compute; reflexivity.
Qed.
Print Assumptions C60_position_refuted.
