(** Subcommands of subcommands (C81). *)
From Verif Require Import Base StrLib Fs Values Validators FormatParse Invocation ScanSpec ReadingSpec Samples
  Parser ParserSpec ParserProofs ParserPieces ParserReading ParserOutcomes ProgramSpec NestedSpec NestedProofs NestedComplete PropParser.

(** ** C81: every level gets the arguments up to the next subcommand, whatever happens on the way *)

(** the sub-parser at the bottom is the one described, values and files are those the levels above left *)
Theorem C81_inner : forall nd bk css w0 ways wn, descends nd bk css w0 ways wn ->
  forall cs wt logt, run nd bk (nested cs) wn = (wt, logt) ->
  exists w' log log', run nd bk (nested (css ++ cs)) w0 = (w', log) /\
    log = log' ++ map (fun e => (Nat.iter (List.length css) CSub (fst e), snd e)) logt /\ (forall c q, In (c, q) log' -> goes_on q) /\
    inner (List.length css) (w_parser w') = Some (w_parser wt) /\ w_vars w' = w_vars wt /\ w_fs w' = w_fs wt.
Proof. exact nested_run. Qed.
Print Assumptions C81_inner.

(** no argument is lost or seen twice; every parser knows how the program was called up to it *)
Theorem C81_lossless : forall nd bk css w0 ways wn a, descends nd bk css w0 ways wn -> css <> [] ->
  List.hd_error (arguments (w_parser w0)) = Some a ->
  List.length ways = List.length css /\
  arguments (w_parser w0) = a :: flat_map (fun e => fst e ++ [snd e]) ways ++ List.tl (arguments (w_parser wn)) /\
  List.hd_error (arguments (w_parser wn)) = Some (last (map snd ways) a) /\
  executable_name (w_parser wn) = executable_name (w_parser w0) ++ a :: removelast (map snd ways) /\
  dev_decision (w_parser wn) = false.
Proof. exact lossless_lemma. Qed.
Print Assumptions C81_lossless.

(** the name of the innermost parser *)
Theorem C81_name : forall nd bk css w0 ways wn, descends nd bk css w0 ways wn -> keeps_info css ->
  m_app_name (info (w_parser wn)) = full_name (m_app_name (info (w_parser w0))) (map snd ways).
Proof. exact name_lemma. Qed.
Print Assumptions C81_name.

(** parsing at the bottom: exactly what C78 says, for the arguments behind the last subcommand *)
Theorem C81_meaning : forall nd bk css w0 ways wn cs w log a args vs' f', descends nd bk css w0 ways wn ->
  run nd bk cs wn = (w, log) -> unparsed log -> (forall c q, In (c, q) log -> goes_on q) ->
  arguments (w_parser wn) = a :: args -> elems_ok (accepted log) ->
  (exists w' log', run nd bk (nested (css ++ [cs])) w0 = (w', log' ++ [(Nat.iter (List.length css) CSub CParse, Ret true)]) /\
     (forall y, w_vars w' y = vs' y) /\ w_fs w' = f') <->
  run_understood nd bk (w_parser w) (accepted log) (options (w_parser w)) args (w_vars w) (w_fs w) vs' f'.
Proof. exact innermost_lemma. Qed.
Print Assumptions C81_meaning.

(** app -i push -a push -f origin push: "push" is the value of -i, then a subcommand, then a word of "app-push-origin".
    That "push" is no number makes the first parse() throw; the levels below are not affected. *)
Definition levels : list (list call) := [four; [CAddSubcommands ["origin"]; CAddFlag 2 (cfg "f" "force")]].
Definition deep : world := app_with ["-i"; "push"; "-a"; "push"; "-f"; "origin"; "push"] ["pull"; "push"].
Example C81_case : exists wn, descends false bk0 levels deep [(["-i"; "push"; "-a"], "push"); (["-f"], "origin")] wn /\
  arguments (w_parser wn) = ["origin"; "push"] /\ m_app_name (info (w_parser wn)) = "app-push-origin" /\
  executable_name (w_parser wn) = ["./app"; "push"] /\ w_vars wn 2 = VBool true.
Proof.
  eexists. split.
  - unfold levels. eapply (descend false bk0 four) with (a := "./app") (front := ["-i"; "push"; "-a"]) (s := "push") (more := ["-f"; "origin"; "push"])
      (ks := [KValue "-i" "push"; KWord "-a"]).
    + exact (fresh_new 1 "app" _ false ["pull"; "push"] []).
    + apply surjective_pairing.
    + intros c q H. vm_compute in H. repeat (destruct H as [H|H]; [injection H as <- <-; split; [discriminate|reflexivity]|]). destruct H.
    + intros c q H. vm_compute in H. repeat (destruct H as [H|H]; [injection H as <- <-; exact Logic.I|]). destruct H.
    + reflexivity.
    + split; [|intros s H; vm_compute in H; repeat (destruct H as [<-|H]; [|]); [| |destruct H]]; (apply name_matches_iff; reflexivity).
    + apply (pieces_cons _ _ (KValue "-i" "push") ["-a"; "push"; "-f"; "origin"; "push"]); [vm_compute; tauto|reflexivity|].
      apply (pieces_cons _ _ (KWord "-a") ["push"; "-f"; "origin"; "push"]); [|reflexivity|].
      * split; [|split; vm_compute; intros H; decompose [or] H; discriminate || contradiction].
        intros [[f H]|[H|[[v H]|H]]]; try discriminate. vm_compute in H. decompose [or] H; try discriminate; contradiction.
      * apply (pieces_last _ _ (KSub "push" ["-f"; "origin"; "push"])); [|reflexivity]. split; [vm_compute; intros H; decompose [or] H; discriminate || contradiction|vm_compute; tauto].
    + vm_compute. reflexivity.
    + apply surjective_pairing.
    + vm_compute. exact Logic.I.
    + eapply (descend false bk0 [CAddSubcommands ["origin"]; CAddFlag 2 (cfg "f" "force")]) with (a := "push") (front := ["-f"]) (s := "origin") (more := ["push"]) (ks := [KWord "-f"]).
      * apply made_fresh.
      * apply surjective_pairing.
      * intros c q H. vm_compute in H. repeat (destruct H as [H|H]; [injection H as <- <-; split; [discriminate|reflexivity]|]). destruct H.
      * intros c q H. vm_compute in H. repeat (destruct H as [H|H]; [injection H as <- <-; exact Logic.I|]). destruct H.
      * reflexivity.
      * split; [|intros s H; vm_compute in H; repeat (destruct H as [<-|H]; [|]); [|destruct H]]; (apply name_matches_iff; reflexivity).
      * apply (pieces_cons _ _ (KWord "-f") ["origin"; "push"]); [|reflexivity|].
        -- split; [|split; vm_compute; intros H; decompose [or] H; discriminate || contradiction].
           intros [[f H]|[H|[[v H]|H]]]; try discriminate. vm_compute in H. decompose [or] H; try discriminate; contradiction.
        -- apply (pieces_last _ _ (KSub "origin" ["push"])); [|reflexivity]. split; [vm_compute; tauto|vm_compute; tauto].
      * vm_compute. reflexivity.
      * apply surjective_pairing.
      * vm_compute. exact Logic.I.
      * apply arrived, made_fresh.
  - vm_compute. auto.
Qed.

(** and there is no other way to come by a sub-parser: when the calls of such a program leave a parser at the bottom, every
    level has handed over to the next at a subcommand with nothing wrong in front of it *)
Theorem C81_complete : forall nd bk css w0 w' log q, fresh (w_parser w0) -> run nd bk (nested css) w0 = (w', log) ->
  (forall c r, In (c, r) log -> goes_on r) -> (forall cs c, In cs css -> In c cs -> c <> CParse /\ is_move c = false) ->
  inner (List.length css) (w_parser w') = Some q ->
  exists ways wn, descends nd bk css w0 ways wn /\ w_parser wn = q /\ w_vars wn = w_vars w' /\ w_fs wn = w_fs w'.
Proof. exact complete_lemma. Qed.
Print Assumptions C81_complete.

(** the same program meets the hypotheses of C81_complete; with an unknown subcommand there is no parser at the bottom *)
Example C81_complete_case : (forall c r, In (c, r) (snd (run false bk0 (nested levels) deep)) -> goes_on r) /\
  (exists q, inner 2 (w_parser (fst (run false bk0 (nested levels) deep))) = Some q /\ arguments q = ["origin"; "push"]) /\
  inner 1 (w_parser (fst (run false bk0 (nested levels) (app_with ["-i"; "push"; "-a"; "fetch"; "origin"] ["pull"; "push"])))) = None.
Proof.
  split; [|split; [eexists; split; vm_compute; reflexivity|vm_compute; reflexivity]].
  intros c q H. vm_compute in H. repeat (destruct H as [H|H]; [injection H as <- <-; exact Logic.I|]). destruct H.
Qed.

(** Full statement: the name of a parser tells how it was reached.  Refuted: dashes separate the names and may be part of
    them, so two different ways lead to parsers of the same name (and to the same files of the version check). *)
Theorem C81_name_refuted : exists css1 css2 w1 w2 p1 p2,
  inner 1 (w_parser (fst (run false bk0 (nested css1) w1))) = Some p1 /\ inner 2 (w_parser (fst (run false bk0 (nested css2) w2))) = Some p2 /\
  subcommands (w_parser w1) = subcommands (w_parser w2) /\ m_app_name (info p1) = m_app_name (info p2) /\ executable_name p1 <> executable_name p2 /\
  m_app_name (info (w_parser w1)) = m_app_name (info (w_parser w2)).
Proof.
  exists [[]], [[]; [CAddSubcommands ["all"]]], (app_with ["pull-all"] ["pull"; "pull-all"]), (app_with ["pull"; "all"] ["pull"; "pull-all"]). eexists _, _.
  split; [vm_compute; reflexivity|]. split; [vm_compute; reflexivity|]. split; [reflexivity|]. split; [reflexivity|]. split; [discriminate|reflexivity].
Qed.
Print Assumptions C81_name_refuted.
