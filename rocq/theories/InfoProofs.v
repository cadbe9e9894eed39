(** Proofs about parser.info over all sequences of calls. *)
From Verif Require Import Base StrLib Fs Values Validators FormatParse Parser ParserSpec ParserProofs NestedSpec NestedProofs InfoSpec.

Lemma new_says i name args dev subs : says_only name (info (construct i name args dev subs)).
Proof. constructor; cbn; repeat constructor. Qed.

Section build.
Variable ndebug : bool.
Variable bk : backend.
Notation step := (step ndebug bk).
Notation lived := (lived ndebug bk).

Lemma parse_result w w1 r : step CParse w = (w1, r) -> w1 = fst (parse ndebug bk w).
Proof. cbn [Parser.step]. unfold bind. destruct (parse ndebug bk w) as [w2 [a|e|o| | |]]; intros [= <- _]; reflexivity. Qed.

Lemma info_step c w w1 r : step c w = (w1, r) -> info (w_parser w1) = match c with CInfo m => m | _ => info (w_parser w) end.
Proof.
  intros H. destruct (match c with CParse | CMove _ _ | CInfo _ => true | _ => false end) eqn:B.
  - destruct c; try discriminate B.
    + rewrite (parse_result _ _ _ H). apply (kept_info _ _ (proj1 (parse_keeps ndebug bk w))).
    + cbn in H. now injection H as <- <-.
    + cbn in H. now injection H as <- <-.
  - rewrite (step_info ndebug bk c w w1 r H); destruct c; try discriminate B; try discriminate; reflexivity.
Qed.

Lemma lived_info p cs p' : lived p cs p' -> info p' = last_written (info p) cs.
Proof.
  induction 1 as [p|w w' r c cs p' S L IH]; [reflexivity|]. rewrite IH, (info_step _ _ _ _ S). reflexivity.
Qed.

Lemma run_lived cs : forall w w1 log, run ndebug bk cs w = (w1, log) -> lived (w_parser w) (map fst log) (w_parser w1).
Proof.
  induction cs as [|c cs IH]; intros w w1 log H; [cbn in H; injection H as <- <-; constructor|].
  rewrite run_cons in H. destruct (step c w) as [w2 r] eqn:E.
  destruct (match r with Ret _ | Throw _ => true | _ => false end); injection H as <- <-; cbn [map fst]; econstructor; try exact E.
  - apply (IH w2 _ (snd (run ndebug bk cs w2))). apply surjective_pairing.
  - constructor.
Qed.

(** ** The sub-parser *)

(** the sub-parser is the old one or a new one for a subcommand *)
Definition grows (p p' : parser) : Prop :=
  sub_parser p' = sub_parser p \/
  exists p1 s rest, info p1 = info p /\ In s (subcommands p) /\ sub_parser p' = Some (new_sub_parser p1 s rest).

Lemma grows_same p p' : sub_parser p' = sub_parser p -> grows p p'.
Proof. now left. Qed.
Lemma grows_trans p q r : kept p q -> grows p q -> grows q r -> grows p r.
Proof.
  intros K [H|H] [H'|(p1 & s & rest & I & S & E)].
  - left. congruence.
  - right. exists p1, s, rest. rewrite <- (kept_info _ _ K), <- (kept_subs _ _ K). auto.
  - right. destruct H as (p1 & s & rest & I & S & E). exists p1, s, rest. rewrite H'. auto.
  - right. exists p1, s, rest. rewrite <- (kept_info _ _ K), <- (kept_subs _ _ K). auto.
Qed.

Ltac keep := constructor; reflexivity.

Definition sg {A} (m : M parser A) : Prop := forall p, kept p (fst (m p)) /\ grows p (fst (m p)).
Lemma sg_bind {A B} (m : M parser A) (k : A -> M parser B) : sg m -> (forall a, sg (k a)) -> sg (bind m k).
Proof.
  intros H1 H2 p. unfold bind. specialize (H1 p). destruct (m p) as [p1 [a|e|o| | |]]; cbn [fst] in *; auto.
  destruct (H2 a p1) as [K2 G2]. destruct H1 as [K1 G1]. split; [eapply kept_trans; eauto|eapply grows_trans; eauto].
Qed.
Lemma sg_same {A} (m : M parser A) : keeps m -> (forall p, sub_parser (fst (m p)) = sub_parser p) -> sg m.
Proof. intros H1 H2 p. split; [apply H1|left; apply H2]. Qed.

Lemma sg_scan n : forall l, List.length l <= n -> sg (scan_arguments bk l).
Proof.
  induction n as [|n IH]; intros l Hl; [destruct l; [|cbn in Hl; lia]; intros p; split; [apply kept_refl|now left]|].
  destruct l as [|arg l]; [intros p; split; [apply kept_refl|now left]|]. cbn in Hl.
  assert (IH1 : sg (scan_arguments bk l)) by (apply IH; lia).
  assert (IH2 : forall v l'', l = v :: l'' -> sg (scan_arguments bk l'')).
  { intros v l'' ->. apply IH. cbn in Hl. lia. }
  assert (HE : forall v, sg (export_format bk v)).
  { intros v. apply sg_same; [apply keeps_export|]. intros p. unfold export_format, select, modify, throw. repeat (destruct (String.eqb v _); [reflexivity|]). reflexivity. }
  assert (HC : forall v, sg (version_check_value v)).
  { intros v. apply sg_same; [apply keeps_check|]. intros p. unfold version_check_value, modify, throw. destruct (_ || _); [reflexivity|]. destruct (_ || _); reflexivity. }
  assert (HR : forall A (a : A), sg (ret a)) by (intros A a p; split; [apply kept_refl|now left]).
  assert (HF : sg (found_subcommand arg (arg :: l))).
  { intros p. split; [apply keeps_found|]. unfold found_subcommand. destruct (subcommands p) eqn:E; [now left|]. rewrite <- E.
    destruct (mem arg (subcommands p)) eqn:Mm; [|destruct (negb (starts_with "-" arg)); now left].
    right. exists p, arg, (arg :: l). split; [reflexivity|]. split; [|reflexivity].
    unfold mem in Mm. apply existsb_exists in Mm as (x & Hx & Ex). apply String.eqb_eq in Ex. now subst. }
  intros p. cbn [scan_arguments]. revert p.
  assert (HM : forall A (m : M parser A), keeps m -> (forall p, sub_parser (fst (m p)) = sub_parser p) -> sg m) by (intros; now apply sg_same).
  intros p. destruct (mem arg (options p)).
  - revert p. apply sg_bind; [intros q; split; [keep|now left]|]. intros _. destruct l as [|v l'']; [apply HR|].
    apply sg_bind; [intros q; split; [keep|now left]|]. intros _. eapply IH2; reflexivity.
  - revert p. apply sg_bind; [exact HF|]. intros found. destruct found; [apply HR|].
    repeat match goal with
    | |- sg (if ?b then _ else _) => destruct b
    | |- sg (bind (select _) _) => apply sg_bind; [intros q; split; [keep|now left]|intros _]
    | |- sg (bind (push_arg _) _) => apply sg_bind; [intros q; split; [keep|now left]|intros _]
    | |- sg (bind (export_format _ _) _) => apply sg_bind; [apply HE|intros _]
    | |- sg (bind (version_check_value _) _) => apply sg_bind; [apply HC|intros _]
    | |- sg (match l with _ => _ end) => destruct l as [|v l'']
    | |- sg (throw _ _) => intros q; split; [apply kept_refl|now left]
    end; first [exact IH1 | eapply IH2; reflexivity].
Qed.

Lemma sg_determine : sg (determine_format_and_subcommand ndebug bk).
Proof.
  intros p. unfold determine_format_and_subcommand. destruct (arguments p); [split; [apply kept_refl|now left]|].
  revert p. apply sg_bind; [intros q; split; [keep|now left]|]. intros _. apply sg_bind; [eapply sg_scan; reflexivity|]. intros _.
  apply sg_same; [apply keeps_settle|]. intros q. unfold settle_format, modify. cbn [fst]. destruct (fmt q); try reflexivity.
  destruct (format_arguments q); [destruct (sub_parser q) eqn:E; cbn; auto|reflexivity].
Qed.

Lemma sg_names : sg verify_app_and_subcommand_names.
Proof.
  apply sg_same; [apply keeps_names|]. intros p. unfold verify_app_and_subcommand_names. destruct (negb _); [reflexivity|]. destruct (negb _); reflexivity.
Qed.

Definition sgw {A} (m : M world A) : Prop := forall w, kept (w_parser w) (w_parser (fst (m w))) /\ grows (w_parser w) (w_parser (fst (m w))).
Lemma sgw_bind {A B} (m : M world A) (k : A -> M world B) : sgw m -> (forall a, sgw (k a)) -> sgw (bind m k).
Proof.
  intros H1 H2 w. unfold bind. specialize (H1 w). destruct (m w) as [w1 [a|e|o| | |]]; cbn [fst] in *; auto.
  destruct (H2 a w1) as [K2 G2]. destruct H1 as [K1 G1]. split; [eapply kept_trans; eauto|eapply grows_trans; eauto].
Qed.
Lemma sgw_parser {A} (m : M parser A) : sg m -> sgw (on_parser m).
Proof. intros H w. unfold on_parser. specialize (H (w_parser w)). destruct (m (w_parser w)) as [p r]. exact H. Qed.
Lemma sgw_same {A} (m : M world A) : (forall w, w_parser (fst (m w)) = w_parser w) -> sgw m.
Proof. intros H w. rewrite H. split; [apply kept_refl|now left]. Qed.

Lemma sgw_parse : sgw (parse ndebug bk).
Proof.
  intros w. unfold parse. destruct (parse_was_called (w_parser w)) eqn:E; [split; [apply kept_refl|now left]|]. revert w E.
  assert (K : sgw (parse ndebug bk)); [|intros w E; specialize (K w); unfold parse in K; rewrite E in K; exact K].
  intros w. unfold parse. destruct (parse_was_called (w_parser w)); [split; [apply kept_refl|now left]|]. revert w.
  apply sgw_bind; [apply sgw_parser; intros p; split; [keep|now left]|]. intros _.
  apply sgw_bind; [apply sgw_parser, sg_names|]. intros _.
  apply sgw_bind; [apply sgw_parser, sg_determine|]. intros _.
  apply sgw_bind; [apply sgw_same; reflexivity|]. intros l.
  apply sgw_bind; [apply sgw_same; apply version_check_parser|]. intros _.
  apply sgw_same. apply parse_format_parser.
Qed.

Lemma sub_step c w w1 r : step c w = (w1, r) -> c <> CParse -> (forall c', c <> CSub c') -> sub_parser (w_parser w1) = sub_parser (w_parser w).
Proof.
  intros H C1 C2. destruct (section_op c) as [o|] eqn:S.
  { destruct (step_section _ _ _ _ _ _ _ S H) as [(_ & -> & m & ->)|(_ & -> & ->)]; reflexivity. }
  assert (BI : forall p q, but_ids p q -> sub_parser q = sub_parser p) by (unfold but_ids; intros p q ->; reflexivity).
  destruct c; try discriminate S; try congruence.
  - apply step_option in H as (p' & ra & H & -> & Q). apply add_option_spec in H as [D K]. cbn [w_parser with_parser].
    destruct (returned r) eqn:Er.
    + destruct (K (proj1 Q eq_refl)) as (_ & q & B & ->). apply (BI _ _ B).
    + apply (BI _ _ (dc_throw _ _ _ _ _ D (fun E => Bool.diff_false_true (proj2 Q E)))).
  - apply step_flag in H as (p' & ra & H & -> & Q). apply add_flag_spec in H as [D K]. cbn [w_parser with_parser].
    destruct (returned r) eqn:Er.
    + destruct (K (proj1 Q eq_refl)) as (_ & _ & q & B & ->). apply (BI _ _ B).
    + apply (BI _ _ (dc_throw _ _ _ _ _ D (fun E => Bool.diff_false_true (proj2 Q E)))).
  - apply step_positional in H as (p' & ra & H & -> & Q). cbn [w_parser with_parser].
    apply add_positional_spec in H as [[-> [m ->]]|(-> & _ & I & S1 & L & ->)]; reflexivity.
  - cbn in H. injection H as <- <-. reflexivity.
  - cbn [Parser.step] in H. unfold on_parser in H. pose proof (is_option_set_parser i (w_parser w)) as K.
    destruct (is_option_set i (w_parser w)) as [p' r']. injection H as <- <-. cbn in *. now subst.
  - cbn in H. injection H as <- <-. reflexivity.
  - cbn in H. injection H as <- <-. reflexivity.
  - cbn in H. injection H as <- <-. reflexivity.
  - cbn in H. injection H as <- <-. reflexivity.
Qed.

(** from the creation on, the calls on the sub-parser are those made below *)
Lemma lived_below p cs p' : lived p cs p' -> forall q0, sub_parser p = Some q0 -> parse_was_called p = true ->
  exists q, sub_parser p' = Some q /\ lived q0 (below cs) q.
Proof.
  induction 1 as [p|w w' r c cs p' S L IH]; intros q0 Q C; [exists q0; split; [exact Q|constructor]|].
  pose proof (step_called _ _ _ _ _ _ S (or_introl C)) as C'.
  destruct (match c with CSub _ => true | _ => false end) eqn:B.
  - destruct c as [| | | | | | | | | |c| | | |]; try discriminate B. cbn [Parser.step] in S. unfold get_sub_parser in S. rewrite Q in S. cbn in S.
    change (below (CSub c :: cs)) with (c :: below cs).
    destruct (step c _) as [w2 r2] eqn:E. injection S as <- <-.
    destruct (IH (w_parser w2) eq_refl C') as (q & Hq & Lq). exists q. split; [exact Hq|].
    apply (lived_call ndebug bk {| w_parser := q0; w_vars := w_vars w; w_fs := w_fs w |} w2 r2); assumption.
  - assert (Eb : below (c :: cs) = below cs) by (destruct c; try discriminate B; reflexivity). rewrite Eb. apply IH; [|exact C'].
    destruct (match c with CParse => true | _ => false end) eqn:Bp.
    + destruct c; try discriminate Bp. destruct (frozen_step ndebug bk CParse w C (or_intror eq_refl)) as [m E]. rewrite E in S. injection S as <- _. exact Q.
    + rewrite (sub_step _ _ _ _ S); [exact Q| |]; destruct c; discriminate.
Qed.

Lemma lived_sub p cs p' q : lived p cs p' -> sub_parser p = None -> sub_parser p' = Some q ->
  exists cs1 pm cs2 s q0, cs = cs1 ++ CParse :: cs2 /\ lived p cs1 pm /\ In s (subcommands pm)
    /\ says_only (m_app_name (last_written (info p) cs1) +s+ "-" +s+ s) (info q0) /\ sub_parser q0 = None
    /\ lived q0 (below cs2) q.
Proof.
  induction 1 as [p|w w' r c cs p' S L IH]; intros Hn Hq; [congruence|].
  destruct (sub_parser (w_parser w')) as [q0|] eqn:E.
  - assert (c = CParse) as ->.
    { destruct (match c with CParse => true | _ => false end) eqn:Bp; [destruct c; try discriminate Bp; reflexivity|].
      destruct (match c with CSub _ => true | _ => false end) eqn:B.
      - destruct c as [| | | | | | | | | |c| | | |]; try discriminate B. cbn [Parser.step] in S. unfold get_sub_parser in S. rewrite Hn in S.
        unfold design, throw in S. injection S as <- _. congruence.
      - rewrite (sub_step _ _ _ _ S) in E; [congruence| |]; destruct c; discriminate. }
    pose proof (step_called _ _ _ _ _ _ S (or_intror eq_refl)) as C.
    destruct (lived_below _ _ _ L q0 E C) as (q' & Hq' & Lq). rewrite Hq' in Hq. injection Hq as <-.
    exists [], (w_parser w), cs. rewrite (parse_result _ _ _ S) in E.
    destruct (proj2 (sgw_parse w)) as [G|(p1 & s & rest & I & Hs & G)]; [congruence|]. rewrite E in G. injection G as ->.
    exists s, (new_sub_parser p1 s rest). split; [reflexivity|]. split; [constructor|]. split; [exact Hs|].
    split; [cbn [last_written fold_left]; rewrite <- I; constructor; cbn; repeat constructor|]. split; [reflexivity|exact Lq].
  - destruct (IH eq_refl Hq) as (cs1 & pm & cs2 & s & q0 & -> & L1 & Hs & Hm & N & L2).
    exists (c :: cs1), pm, cs2, s, q0. split; [reflexivity|]. split; [econstructor; eassumption|]. split; [exact Hs|].
    split; [|auto]. rewrite (info_step _ _ _ _ S) in Hm. exact Hm.
Qed.
End build.
