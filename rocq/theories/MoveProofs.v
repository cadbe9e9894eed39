(** Proofs about moved parsers. *)
From Verif Require Import Base StrLib Fs Values Validators FormatParse Parser ParserSpec ParserProofs ParserPieces ParserReading ParserOutcomes DeclSpec DeclProofs MoveSpec.

Section moving.
Variable ndebug : bool.
Variable bk : backend.

Record grown (ops : list op) (p q : parser) : Prop := {
  gw_bare : forall p0, bare p0 p -> bare p0 q;
  gw_ops : operations q = operations p ++ map (pair (self p)) ops;
  gw_self : self q = self p;
  gw_gone : gone q = gone p }.

Lemma grown_same p q : operations q = operations p -> self q = self p -> gone q = gone p ->
  (forall p0, bare p0 p -> bare p0 q) -> grown [] p q.
Proof. intros H1 H2 H3 H4. constructor; auto. cbn. now rewrite app_nil_r. Qed.

Lemma grown_but p q : but_ids p q -> grown [] p q.
Proof. intros B. apply grown_same; [rewrite B; reflexivity..|]. intros p0 []. constructor; rewrite B; cbn; assumption. Qed.

Lemma grown_pushed p o q : but_ids p q -> grown [o] p (pushed o q).
Proof.
  intros B. constructor; cbn; try (rewrite B; reflexivity).
  intros p0 []. constructor; cbn; rewrite B; cbn; assumption.
Qed.

Lemma grown_step c w w1 r p0 : bare p0 (w_parser w) -> step ndebug bk c w = (w1, r) -> c <> CParse -> is_move c = false ->
  grown (if returned r then call_op c else []) (w_parser w) (w_parser w1).
Proof.
  intros Ba H C1 C2. destruct (section_op c) as [o|] eqn:S.
  { destruct (step_section _ _ _ _ _ _ _ S H) as [(_ & -> & m & ->)|(_ & -> & ->)]; cbn [returned].
    - apply grown_same; auto.
    - replace (call_op c) with [o] by (destruct c; try discriminate S; injection S as <-; reflexivity). apply grown_pushed. unfold but_ids. destruct (w_parser w); reflexivity. }
  destruct c; try discriminate S; try discriminate C2; try congruence; cbn [call_decl call_op map].
  - apply step_option in H as (p' & ra & H & -> & Q). apply add_option_spec in H as [D K]. cbn [w_parser with_parser].
    destruct (returned r) eqn:Er.
    + destruct (K (proj1 Q eq_refl)) as (_ & q & B & ->). now apply grown_pushed.
    + apply grown_but. apply (dc_throw _ _ _ _ _ D). intros E. apply Q in E. discriminate E.
  - apply step_flag in H as (p' & ra & H & -> & Q). apply add_flag_spec in H as [D K]. cbn [w_parser with_parser].
    destruct (returned r) eqn:Er.
    + destruct (K (proj1 Q eq_refl)) as (_ & _ & q & B & ->). now apply grown_pushed.
    + apply grown_but. apply (dc_throw _ _ _ _ _ D). intros E. apply Q in E. discriminate E.
  - apply step_positional in H as (p' & ra & H & -> & Q). cbn [w_parser with_parser].
    apply add_positional_spec in H as [[-> [m ->]]|(-> & _ & I & S1 & L & ->)].
    + destruct (returned r); [discriminate (proj1 Q eq_refl)|]. apply grown_same; auto.
    + rewrite (proj2 Q eq_refl). constructor; try reflexivity. intros q0 []. constructor; cbn; assumption.
  - cbn in H. injection H as <- <-. cbn [returned]. apply grown_same; try reflexivity. intros q0 []. constructor; cbn; assumption.
  - replace (if returned r then [] else []) with (@nil op) by (destruct (returned r); reflexivity).
    cbn [step] in H. unfold on_parser in H. pose proof (is_option_set_parser i (w_parser w)) as K.
    destruct (is_option_set i (w_parser w)) as [p' r']. injection H as <- <-. cbn in *. subst. apply grown_same; auto.
  - replace (if returned r then [] else []) with (@nil op) by (destruct (returned r); reflexivity).
    cbn [step] in H. unfold get_sub_parser in H. rewrite (br_sub _ _ Ba) in H. unfold design, throw in H. injection H as <- <-. apply grown_same; auto.
  - cbn in H. injection H as <- <-. cbn [returned]. apply grown_same; try reflexivity. intros q0 []. constructor; cbn; assumption.
  - cbn in H. injection H as <- <-. cbn [returned]. apply grown_same; auto.
  - cbn in H. injection H as <- <-. cbn [returned]. apply grown_same; auto.
Qed.

Lemma ruined_cons_other i c r log a : is_move c = false -> ruined i ((c, r) :: log) a <-> ruined i log a.
Proof.
  intros C. assert (A : forall l, abode i ((c, r) :: l) = abode i l) by (intros l; destruct c; try discriminate C; reflexivity).
  split.
  - intros (l1 & j & r' & l2 & E & Ha & Hj & K). destruct l1 as [|e l1]; [injection E as -> _ _; discriminate C|].
    injection E as <- ->. rewrite A in Ha. exists l1, j, r', l2. auto.
  - intros (l1 & j & r' & l2 & -> & Ha & Hj & K). exists ((c, r) :: l1), j, r', l2. rewrite A. auto.
Qed.

Lemma ruined_cons_move i j alive r log a :
  ruined i ((CMove j alive, r) :: log) a <->
  ruined j log a \/ (alive = false /\ i = a /\ j <> a /\ forall k b r', In (CMove k b, r') log -> k <> a).
Proof.
  split.
  - intros (l1 & j' & r' & l2 & E & Ha & Hj & K). destruct l1 as [|e l1].
    + injection E as -> -> -> ->. right. auto.
    + injection E as <- ->. left. exists l1, j', r', l2. auto.
  - intros [(l1 & j' & r' & l2 & -> & Ha & Hj & K)|(-> & <- & Hj & K)].
    + exists ((CMove j alive, r) :: l1), j', r', l2. auto.
    + exists [], j, r, log. auto.
Qed.

Lemma moved_run cs p0 : forall w, bare p0 (w_parser w) -> (forall r, ~ In (CParse, r) (snd (run ndebug bk cs w))) ->
  let log := snd (run ndebug bk cs w) in let p := w_parser (fst (run ndebug bk cs w)) in let i := self (w_parser w) in
  bare p0 p /\ operations p = operations (w_parser w) ++ lodgers i log /\ self p = abode i log /\
  forall a, In a (gone p) <-> ruined i log a \/ (In a (gone (w_parser w)) /\ forall k b r, In (CMove k b, r) log -> k <> a).
Proof.
  induction cs as [|c cs IH]; intros w B P; cbv zeta in *.
  { cbn. rewrite app_nil_r. repeat split; auto; try apply B.
    intros [(l1 & j & r' & l2 & E & _)|[H _]]; [destruct l1; discriminate E|exact H]. }
  rewrite run_cons in *. destruct (step ndebug bk c w) as [w1 r] eqn:E.
  assert (C : c <> CParse).
  { intros ->. destruct r; (eapply P; now left). }
  assert (Hs : forall l, abode (self (w_parser w)) ((c, r) :: l) = abode (abode (self (w_parser w)) [(c, r)]) l) by (intros l; destruct c; reflexivity).
  destruct (is_move c) eqn:Mv.
  { destruct c as [| | | | | | | | | | | |j alive| |]; try discriminate Mv. injection E as <- <-. cbn [fst snd] in *.
    set (w1 := {| w_parser := move_to j alive (w_parser w); w_vars := w_vars w; w_fs := w_fs w |}) in *.
    destruct (IH w1) as (B1 & O1 & S1 & G1).
    - destruct B. constructor; cbn; assumption.
    - intros r H. apply (P r). now right.
    - cbn [lodgers abode returned call_op map app]. split; [exact B1|]. split; [exact O1|]. split; [exact S1|].
      intros a. rewrite G1, ruined_cons_move. cbn [w_parser w1 gone move_to set_self self].
      assert (X : In a (filter (fun k => negb (Nat.eqb j k)) (if alive then gone (w_parser w) else self (w_parser w) :: gone (w_parser w))) <->
                  ((alive = false /\ self (w_parser w) = a) \/ In a (gone (w_parser w))) /\ j <> a).
      { rewrite filter_In, negb_true_iff, Nat.eqb_neq. destruct alive; cbn [In]; intuition congruence. }
      rewrite X. cbn [In]. split.
      + intros [H|[[[(H1 & H2)|H] Hj] K]]; [tauto|left; right; auto|]. right. split; [exact H|].
        intros k b r [[=]|Hk]; [congruence|eauto].
      + intros [[H|(H1 & H2 & Hj & K)]|[H K]]; [tauto|right; auto|]. right. split; [split; [tauto|]|].
        * apply (K j alive (Ret true)). now left.
        * intros k b r Hk. apply (K k b r). now right. }
  pose proof (grown_step _ _ _ _ _ B E C Mv) as G.
  assert (A0 : abode (self (w_parser w)) [(c, r)] = self (w_parser w)) by (destruct c; try discriminate Mv; reflexivity).
  assert (KG : forall log a, (forall k b r', In (CMove k b, r') ((c, r) :: log) -> k <> a) <-> (forall k b r', In (CMove k b, r') log -> k <> a)).
  { intros log a. split; intros H k b r' Hk; apply (H k b r'); [now right|]. destruct Hk as [[= -> _]|Hk]; [discriminate Mv|exact Hk]. }
  destruct (match r with Ret _ | Throw _ => true | _ => false end).
  - cbn [fst snd] in *. destruct (IH w1) as (B1 & O1 & S1 & G1); [apply (gw_bare _ _ _ G), B|intros r' H; apply (P r'); now right|].
    rewrite Hs, A0. cbn [lodgers]. rewrite A0. rewrite (gw_self _ _ _ G) in *. split; [exact B1|]. split; [|split; [exact S1|]].
    + now rewrite O1, (gw_ops _ _ _ G), <- app_assoc.
    + intros a. rewrite G1, (gw_gone _ _ _ G), ruined_cons_other by exact Mv. now rewrite KG.
  - cbn [fst snd lodgers]. rewrite Hs, A0, (gw_ops _ _ _ G), app_nil_r. split; [apply (gw_bare _ _ _ G), B|]. split; [reflexivity|].
    split; [apply (gw_self _ _ _ G)|]. intros a. rewrite (gw_gone _ _ _ G), ruined_cons_other, KG by exact Mv. cbn [In]. split; [right; auto|].
    intros [(l1 & j & r' & l2 & X & _)|[H _]]; [destruct l1; discriminate X|exact H].
Qed.

(** ** The operations that are applied *)

Lemma apply_home i dead l : (forall a o, In (a, o) l -> a <> i -> ~ In a dead) ->
  apply_operations i dead l = Ret (map snd (filter (fun e => Nat.eqb (fst e) i) l)).
Proof.
  induction l as [|[a o] l IH]; intros H; [reflexivity|]. cbn [apply_operations filter fst].
  assert (H' : forall b o', In (b, o') l -> b <> i -> ~ In b dead) by (intros b o' K; apply (H b o'); now right).
  destruct (Nat.eqb_spec a i) as [->|N]; [now rewrite (IH H')|].
  destruct (existsb (Nat.eqb a) dead) eqn:X; [|apply IH, H'].
  exfalso. apply existsb_exists in X as (b & Hb & Eb). apply Nat.eqb_eq in Eb as <-. apply (H a o (or_introl eq_refl) N Hb).
Qed.

Lemma fresh_bare p : fresh p -> bare p p /\ operations p = [] /\ gone p = [].
Proof. intros []. split; [constructor; reflexivity|]. split; reflexivity. Qed.

Lemma moved_parse w0 w log cs opts a args ks : fresh (w_parser w0) -> run ndebug bk cs w0 = (w, log) ->
  (forall r, ~ In (CParse, r) log) -> arguments (w_parser w0) = a :: args ->
  good_name (m_app_name (info (w_parser w))) -> (forall s, In s (subcommands (w_parser w)) -> good_name s) ->
  (forall t, In t opts <-> announced (DeclSpec.history log) t) ->
  pieces opts (subcommands (w_parser w)) args ks ->
  exists w1 r, step ndebug bk CParse w = (w1, r) /\
  match first_error (bk_tdl bk) (subcommands (w_parser w)) ks with
  | Some e => r = Throw e /\ w_vars w1 = w_vars w /\ w_fs w1 = w_fs w
  | None =>
      (haunted (self (w_parser w0)) log -> r = UB /\ w_vars w1 = w_vars w /\ w_fs w1 = w_fs w) /\
      (~ haunted (self (w_parser w0)) log ->
       exists r', r = with_value r' /\
       (w_vars w1, w_fs w1, r') =
       expected ndebug bk (info (w_parser w)) (subcommands (w_parser w)) (dev_decision (w_parser w0))
         (executable_name (w_parser w0) ++ [a]) (at_home (self (w_parser w0)) log) (ops_decls (at_home (self (w_parser w0)) log))
         ks (w_vars w) (w_fs w))
  end.
Proof.
  intros F R P E N1 N2 HO H. destruct (fresh_bare _ F) as (B & O & G).
  pose proof (moved_run cs (w_parser w0) w0 B) as K. rewrite R in K. cbn [fst snd] in K. specialize (K P).
  destruct K as (B1 & O1 & S1 & G1). rewrite O in O1. cbn [app] in O1.
  assert (H' : pieces (options (w_parser w)) (subcommands (w_parser w)) args ks).
  { eapply pieces_ext; [|exact H]. intros t. rewrite HO. symmetry. eapply announced_lemma; eauto. }
  pose proof (parse_bare ndebug bk _ _ a args ks B1 E N1 N2 H') as Q.
  destruct (first_error (bk_tdl bk) (subcommands (w_parser w)) ks) as [e|].
  { destruct Q as (p' & ->). eexists _, _. split; [reflexivity|]. auto. }
  destruct Q as (p' & Q & _). assert (G2 : forall b, In b (gone (w_parser w)) <-> ruined (self (w_parser w0)) log b).
  { intros b. rewrite G1, G. cbn [In]. tauto. }
  rewrite O1, S1 in Q.
  match type of Q with (let '(_, _) := ?e in _) => destruct e as [[vs f] r] eqn:X end.
  rewrite Q. eexists _, _. split; [reflexivity|]. cbn [w_vars w_fs]. split.
  - intros (b & o & L & N & D). rewrite (apply_gone _ _ _ b o L N (proj2 (G2 b) D)) in X.
    injection X as <- <- <-. auto.
  - intros NH. exists r. split; [reflexivity|]. rewrite apply_home in X; [symmetry; exact X|].
    intros b o L N D. apply NH. exists b, o. split; [exact L|]. split; [exact N|]. apply G2, D.
Qed.

End moving.
