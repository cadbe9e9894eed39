(** The words behind "--": exactly which are left alone, and what else they can change (C13). *)
From Verif Require Import Base StrLib Fs Values Validators FormatParse Invocation ScanSpec TailSpec TailProofs Samples.

(** [letters]: short names of flags, depending on the arguments in front of "--" only.  If no word behind it is a cluster
    with one of these letters, all of them reach the positional options as they are (empty ones do not count), and what is
    in front means the same whatever they are.  Otherwise letters are taken out of them. *)
Theorem C13_exact : forall ndebug decls b vs f, wf_decls decls = true -> ~ In "--" b ->
  let run ws := parse_args ndebug decls (b ++ "--" :: ws) vs f in
  exists letters, (forall c, In c letters -> exists x k, In (DFlag x k) decls /\ c_short k = c) /\
  ((exists vs1 f1 q, q <> Ret tt /\ forall ws, spared letters ws -> vars (fst (run ws)) = vs1 /\ fsys (fst (run ws)) = f1 /\ snd (run ws) = q) \/
   (exists vs1 f1 ws0, forall ws, spared letters ws -> agrees (run ws) (s_positionals ndebug decls (ws0 ++ filter nonempty ws) {| s_vars := vs1; s_fs := f1 |}))) /\
  (forall ws, ~ spared letters ws -> exists ws', robbed ws ws' /\
     ((exists m, snd (run ws) = Throw (Exn KUnknownOption m)) \/
      exists st ws0, agrees (run ws) (s_positionals ndebug decls (ws0 ++ filter nonempty ws') st))).
Proof. exact tail_exact. Qed.
Print Assumptions C13_exact.

Definition sorting : list decl := [DFlag 2 (cfg "s" "sort"); DPositional 4 (Scalar TString) (cfg nul "")].

(** with -s in front, -strange is left alone *)
Example C13_exact_case : wf_decls sorting = true /\
  (let r := parse_args true sorting ["-s"; "--"; "-strange"] vars0 no_fs in
     snd r = Ret tt /\ vars (fst r) 2 = VBool true /\ vars (fst r) 4 = VStr "-strange") /\
  (let r := parse_args true sorting ["--"; "-strange"] vars0 no_fs in
     snd r = Ret tt /\ vars (fst r) 2 = VBool true /\ vars (fst r) 4 = VStr "-trange").
Proof. vm_compute. auto 10. Qed.

(** A word behind "--" can make the arguments in front of it wrong: --sort is accepted in front of "-- x", and
    unknown in front of "-- -strange". *)
Theorem C13_front_refuted : exists decls b vs f, wf_decls decls = true /\ b = ["--sort"] /\ decls = sorting /\
  forall ndebug, snd (parse_args ndebug decls (b ++ ["--"; "x"]) vs f) = Ret tt /\
    exists m, snd (parse_args ndebug decls (b ++ ["--"; "-strange"]) vs f) = Throw (Exn KUnknownOption ("Unknown option --sort" +s+ m)).
Proof.
  exists sorting, ["--sort"], vars0, no_fs. split; [reflexivity|]. split; [reflexivity|]. split; [reflexivity|].
  intros []; (split; [vm_compute; reflexivity|]); eexists; vm_compute; reflexivity.
Qed.
Print Assumptions C13_front_refuted.
