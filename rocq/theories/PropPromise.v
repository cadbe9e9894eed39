(** Properties of the help texts of validators (C95). *)
From Verif Require Import Base StrLib Fs FloatNum Values ValuesSpec Validators ValidatorsHelp Regex PromiseSpec PromiseProofs Samples.
Open Scope Z_scope.

(** ** C95: the help text says what is checked *)

(** the sentences; the numbers and values in them are those of the validator *)
Theorem C95_text : forall v, sayable v -> promise v (help_of v).
Proof. exact promise_kept. Qed.
Print Assumptions C95_text.

(** Validators for the same type that are described by the same text accept the same values, with the same effects and
    messages.  [clear]: no floating point numbers, listings can be told apart, no chains (refuted below without). *)
Theorem C95_same_partial : forall other e v w, clear other v -> clear other w -> checks e v -> checks e w -> help_of v = help_of w ->
  forall nd f x, check_of nd v f x = check_of nd w f x.
Proof. exact same_verdicts. Qed.
Print Assumptions C95_same_partial.

(** the range, list or pattern in a message is the one of the help text *)
Theorem C95_message : forall nd v f x f' m, check_of nd v f x = (f', VThrow m) -> message_fits v m.
Proof. exact message_lemma. Qed.
Print Assumptions C95_message.

(** what the text of a chain lists is what is checked: all of it, in this order, up to the first that fails *)
Theorem C95_all_checked : forall nd v f x f' o, check_of nd v f x = (f', o) <-> one_by_one nd x (atoms v) f f' o.
Proof. exact chain_one_iff. Qed.
Print Assumptions C95_all_checked.
Example C95_all_checked_case : let v := ValidBoth (ValidRange true 32 0 9) (ValidBoth ValidAny (ValidRange true 32 5 20)) in
  length (atoms v) = 3%nat /\ snd (check_of true v no_fs (VInt 7)) = VOk /\ snd (check_of true v no_fs (VInt 3)) = VThrow "Value 3 is not in range [5,20]."
  /\ snd (check_of true v no_fs (VInt 30)) = VThrow "Value 30 is not in range [0,9].".
Proof. vm_compute. repeat split. Qed.

(** The text of a chain: the texts of its validators, in the order in which they are applied; parentheses do not matter. *)
Theorem C95_chain : forall v, help_of v = spaced_texts (map help_of (atoms v)).
Proof. exact help_atoms. Qed.
Print Assumptions C95_chain.
Theorem C95_parentheses : forall v w, atoms v = atoms w -> help_of v = help_of w.
Proof. exact chain_text. Qed.
Print Assumptions C95_parentheses.

Definition words_of (l : list string) : shipped := ValidValues TString (map VStr l).
Definition ranges : shipped := ValidBoth (ValidRange true 32 (-3) 10) (ValidBoth (ValidValues int32 [VInt 4; VInt (-1)]) ValidAny).
Example C95_case : sayable ranges /\ help_of ranges = "Value must be in range [-3,10]. Value must be one of [4, -1]. "
  /\ promise (ValidRange true 32 (-3) 10) "Value must be in range [-3,10]."
  /\ help_of (ValidBoth (ValidInFile ["fa"; "fasta.gz"]) (ValidRegex "a+" (fun _ => None)))
     = "The input file must exist and read permissions must be granted. Valid file extensions are: [fa, fasta.gz]. Value must match the pattern 'a+'.".
Proof.
  repeat split; try (vm_compute; reflexivity).
  - cbn. repeat constructor; eexists; (constructor; [discriminate|apply (ValuesProofs.Z_to_string_numeral true); now left]).
  - apply (promise_kept (ValidRange true 32 (-3) 10)). exact Logic.I.
Qed.
Example C95_case_message : snd (check_of true (ValidRange true 32 (-3) 10) no_fs (VInt 11)) = VThrow "Value 11 is not in range [-3,10]."
  /\ snd (check_of true (words_of ["a"; "b"]) no_fs (VList [VStr "a"; VStr "c"])) = VThrow "Value c is not one of [a, b].".
Proof. vm_compute. split; reflexivity. Qed.
Example C95_case_clear : forall other, clear other (words_of ["red"; "green"]) /\ checks TString (words_of ["red"; "green"])
  /\ clear other (ValidRegex "r.*" (std_regex other "r.*")) /\ checks TString (ValidRegex "r.*" (std_regex other "r.*")).
Proof.
  intros other. repeat split; try (now left). exists ["red"; "green"]. split; [repeat constructor|]. repeat constructor; try discriminate; cbn; intuition discriminate.
Qed.

(** the same text, different verdicts: values with commas, the empty word *)
Theorem C95_commas_refuted : exists v w x, v = words_of ["a, b"] /\ w = words_of ["a"; "b"] /\ x = VStr "a" /\ help_of v = help_of w
  /\ snd (check_of true w no_fs x) = VOk /\ snd (check_of true v no_fs x) <> VOk.
Proof. eexists _, _, _. repeat split; vm_compute; discriminate. Qed.
Print Assumptions C95_commas_refuted.
Theorem C95_empty_refuted : exists v w x, v = words_of [] /\ w = words_of [""] /\ x = VStr "" /\ help_of v = help_of w
  /\ snd (check_of true w no_fs x) = VOk /\ snd (check_of true v no_fs x) <> VOk.
Proof. eexists _, _, _. repeat split; vm_compute; discriminate. Qed.
Print Assumptions C95_empty_refuted.
(** the same for extensions, on a disk with the file *)
Theorem C95_extensions_refuted : exists v w f x, v = ValidInFile ["fa, fq"] /\ w = ValidInFile ["fa"; "fq"] /\ help_of v = help_of w
  /\ snd (check_of true w f x) = VOk /\ snd (check_of true v f x) <> VOk.
Proof.
  exists (ValidInFile ["fa, fq"]), (ValidInFile ["fa"; "fq"]),
    (fun k => if list_eqb k [] then Some (NDir rw) else if list_eqb k ["x.fa"] then Some (NFile "" rw) else None), (VPath "/x.fa").
  repeat split; vm_compute; discriminate.
Qed.
Print Assumptions C95_extensions_refuted.
(** floating point numbers are cut after six digits *)
Theorem C95_floats_refuted : exists v w x, help_of v = help_of w /\ help_of v = "Value must be in range [0.000000,1.000000]."
  /\ snd (check_of true v no_fs (VFloat x)) = VOk /\ snd (check_of true w no_fs (VFloat x)) <> VOk.
Proof.
  exists (ValidFloats F64 (FZero false) (FFin false 4503599627370497 (-52))), (ValidFloats F64 (FZero false) (FFin false 1 0)), (FFin false 4503599627370497 (-52)).
  vm_compute. repeat split; discriminate.
Qed.
Print Assumptions C95_floats_refuted.
(** a pattern with the words between two patterns *)
Theorem C95_chains_refuted : exists other p v w x, v = ValidRegex p (std_regex other p)
  /\ w = ValidBoth (ValidRegex ".*" (std_regex other ".*")) (ValidRegex ".+" (std_regex other ".+")) /\ help_of v = help_of w
  /\ snd (check_of true w no_fs (VStr x)) = VOk /\ snd (check_of true v no_fs (VStr x)) <> VOk.
Proof.
  exists (fun _ _ => None), ".*'. Value must match the pattern '.+". eexists _, _, "a". repeat split; vm_compute; discriminate.
Qed.
Print Assumptions C95_chains_refuted.
