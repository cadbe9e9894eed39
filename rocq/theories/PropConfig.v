(** The parameters of sharg::config (C99). *)
From Verif Require Import Base StrLib Fs Values Validators FormatParse Parser HelpExport HelpSpec Samples HelpSamples ParserSpec PropProgram
  ConfigSpec ConfigProofs.

(** ** C99: every parameter of sharg::config has its documented effect for every kind, and no other *)

(** Whatever happened before: a parameter the table marks with X is a design error. *)
Theorem C99_rejected : forall nd bk w k p x t c, marked k p = RaisesDesignError -> is_set p c ->
  exists m, snd (step nd bk (declared k x t c) w) = Throw (Exn KDesign m).
Proof. exact rejected_lemma. Qed.
Print Assumptions C99_rejected.

(** The other parameters, except for the identifiers, do not influence whether the declaration is accepted. *)
Theorem C99_accepted : forall nd bk w k x t c c', permitted k c -> permitted k c' -> agree c c' PShort -> agree c c' PLong ->
  snd (step nd bk (declared k x t c) w) = snd (step nd bk (declared k x t c') w).
Proof. exact accepted_lemma. Qed.
Print Assumptions C99_accepted.

(** Which parameters can make a difference when the arguments are read, for any interface around it, ... *)
Theorem C99_parsing : forall k p, changes_parsing k p <-> read_for k p = true.
Proof. exact parsing_effect. Qed.
Print Assumptions C99_parsing.

(** ... and which on a page of any format. *)
Theorem C99_pages : forall k p, changes_pages k p <-> shown_for k p = true.
Proof. exact pages_effect. Qed.
Print Assumptions C99_pages.

(** The table: exactly what is marked with a tick has an effect.  Missing: required, for flags. *)
Theorem C99_table_partial : forall k p, ~ (k = AFlag /\ p = PRequired) ->
  (marked k p = CanBeSet <-> changes_parsing k p \/ changes_pages k p).
Proof.
  intros k p N. rewrite parsing_effect, pages_effect.
  destruct k, p; cbn; intuition congruence.
Qed.
Print Assumptions C99_table_partial.

(** config.hpp 115-116, "If set to true and the user does not provide the respective option on the command line ...": for
    a flag nothing changes anywhere *)
Theorem C99_required_flag_refuted : exists k p, marked k p = CanBeSet /\ ~ changes_parsing k p /\ ~ changes_pages k p /\
  snd (run false lib [CAddFlag 2 (required (cfg "a" "all")); CAddPositional 4 (Scalar TString) (cfg nul ""); CParse] (start ["word"])) =
  [(CAddFlag 2 (required (cfg "a" "all")), Ret true); (CAddPositional 4 (Scalar TString) (cfg nul ""), Ret true); (CParse, Ret true)].
Proof.
  exists AFlag, PRequired. rewrite parsing_effect, pages_effect. split; [reflexivity|]. split; [discriminate|]. split; [discriminate|].
  vm_compute. reflexivity.
Qed.
Print Assumptions C99_required_flag_refuted.

(** config.hpp 118-119: "cannot be set for positional options ... and will trigger a sharg::design_error" *)
Theorem C99_required_positional_refuted : exists w x t c, is_set PRequired c /\ snd (step false lib (CAddPositional x t c) w) = Ret true.
Proof. exists (start []), 4%nat, (Scalar TString), (required (cfg nul "")). split; vm_compute; reflexivity. Qed.
Print Assumptions C99_required_positional_refuted.

(** config.hpp 70-73, the example: "Default: " is prepended, but "." is not appended *)
Definition doc_example : list op := [OpDecl (DOption 0 (Scalar int32) (silent (said_default "Same as -i" (cfg "j" ""))))].
Definition lines_of (r : res string) : list string :=
  match r with Ret s => lines s | _ => [] end.
Theorem C99_full_stop_refuted : exists e r, pr_ops r = doc_example /\
  In "          Default: Same as -i" (lines_of (page e r)) /\ ~ In "          Default: Same as -i." (lines_of (page e r)).
Proof.
  exists (env true false 80), (request (FHelp false) app_meta doc_example vars0). split; [reflexivity|].
  split; [|intros H; vm_compute in H; repeat destruct H as [H|H]; try discriminate H; exact H].
  vm_compute. tauto.
Qed.
Print Assumptions C99_full_stop_refuted.

(** ** Cases *)

Example C99_case : marked APositional PHidden = RaisesDesignError /\ is_set PHidden (hidden (cfg nul "")) /\
  snd (step false lib (CAddPositional 4 (Scalar TString) (hidden (cfg nul ""))) (start [])) =
    Throw (Exn KDesign "Positional options are always required and therefore cannot be advanced nor hidden!") /\
  permitted AnOption (cfg "i" "int") /\ permitted AnOption (advanced (required (cfg "i" "int"))).
Proof.
  repeat split; try (vm_compute; reflexivity); try (intros []; cbn; intros; congruence); intros _; cbn; intros; congruence.
Qed.
