(** Every innermost parser arises as [descends] says. *)
From Verif Require Import Base StrLib Fs Values Validators FormatParse Invocation ScanSpec ReadingSpec
  Parser ParserSpec ParserProofs ParserPieces ParserReading ParserOutcomes ProgramSpec ProgramProofs NestedSpec NestedProofs.

Section Nested.
Variable ndebug : bool.
Variable bk : backend.
Notation run := (run ndebug bk).
Notation step := (step ndebug bk).

Lemma effect_sub k p : must_be_last k = false -> sub_parser (effect k p) = sub_parser p.
Proof. destruct k; cbn [effect must_be_last]; intros; try discriminate; auto; try match goal with |- context [lookup ?v ?l] => destruct (lookup v l) end; auto. Qed.

Lemma scan_error_sub opts subs args ks : pieces opts subs args ks -> forall p e, options p = opts -> subcommands p = subs ->
  first_error (bk_tdl bk) subs ks = Some e -> exists p', scan_arguments bk args p = (p', Throw e) /\ sub_parser p' = sub_parser p.
Proof.
  induction 1 as [|k Hk L|k args ks Hk L Hp IH]; intros p e <- <- Fe.
  - discriminate Fe.
  - pose proof (scan_last bk k p Hk L) as H. cbn [first_error] in Fe. destruct (piece_error (bk_tdl bk) (subcommands p) k) eqn:E; [|discriminate Fe].
    injection Fe as <-. rewrite H. eauto.
  - pose proof (scan_piece bk k args p Hk L) as H. cbn [first_error] in Fe. destruct (piece_error (bk_tdl bk) (subcommands p) k) eqn:E.
    + injection Fe as <-. rewrite H. eauto.
    + rewrite H. destruct (effect_same k p) as [E1 E2]. destruct (IH (effect k p) e E1 E2 Fe) as (p' & -> & S). exists p'. split; [reflexivity|].
      rewrite S. now apply effect_sub.
Qed.

(** parse() made a sub-parser: so there was a subcommand, and nothing wrong in front of it *)
Lemma made_sub w0 w log w1 r q : assembled ndebug bk w0 w log -> step CParse w = (w1, r) -> goes_on r -> sub_parser (w_parser w1) = Some q ->
  exists a front s more ks, arguments (w_parser w0) = a :: front ++ s :: more /\ names_ok (w_parser w) /\
    pieces (options (w_parser w)) (subcommands (w_parser w)) (front ++ s :: more) (ks ++ [KSub s more]) /\
    first_error (bk_tdl bk) (subcommands (w_parser w)) (ks ++ [KSub s more]) = None.
Proof.
  intros P S G Sb. destruct (assembled_raw _ _ _ _ _ P) as [R _].
  destruct (names_ok_dec (w_parser w)) as [N|N].
  2:{ destruct (assembled_bad _ _ _ _ _ P N) as [m Hm]. rewrite Hm in S. injection S as <- _. cbn in Sb. rewrite (rw_sub _ _ _ R) in Sb. discriminate Sb. }
  pose proof N as [N1 N2].
  destruct (arguments (w_parser w0)) as [|a args] eqn:A.
  { cbn [Parser.step] in S. rewrite value_step in S. unfold parse in S. rewrite (rw_called _ _ _ R) in S.
    rewrite (bind_ret_step _ _ _ (with_parser (set_called true (w_parser w)) w) tt) in S by reflexivity.
    rewrite (bind_ret_step _ _ _ (with_parser (set_called true (w_parser w)) w) tt) in S.
    2:{ unfold on_parser. cbn [w_parser with_parser]. rewrite names_good; [reflexivity|exact N1|exact N2]. }
    pose proof (rw_args _ _ _ R) as Ar. rewrite A in Ar.
    unfold bind, on_parser, determine_format_and_subcommand in S. cbn in S. rewrite Ar in S. cbn in S.
    injection S as <- <-; destruct ndebug; destruct G. }
  destruct (pieces_exist (options (w_parser w)) (subcommands (w_parser w)) (List.length args) args (le_n _)) as [ks K].
  pose proof (parse_assembled ndebug bk w0 w log a args ks P A N1 N2 K) as H.
  destruct (first_error (bk_tdl bk) (subcommands (w_parser w)) ks) as [e|] eqn:Fe.
  - exfalso. clear H. pose proof (rw_args _ _ _ R) as Ar. rewrite A in Ar.
    destruct (scan_error_sub _ _ _ _ K (set_executable_name (executable_name (w_parser w) ++ [a]) (set_called true (w_parser w))) e eq_refl eq_refl Fe) as (p' & Sc & Sp).
    cbn [Parser.step] in S. rewrite value_step in S. unfold parse in S. rewrite (rw_called _ _ _ R) in S.
    rewrite (bind_ret_step _ _ _ (with_parser (set_called true (w_parser w)) w) tt) in S by reflexivity.
    rewrite (bind_ret_step _ _ _ (with_parser (set_called true (w_parser w)) w) tt) in S.
    2:{ unfold on_parser. cbn [w_parser with_parser]. rewrite names_good; [reflexivity|exact N1|exact N2]. }
    rewrite (bind_throw_step _ _ _ (with_parser p' w) e) in S.
    2:{ unfold on_parser. cbn [w_parser with_parser]. unfold determine_format_and_subcommand. cbn [arguments set_called]. rewrite Ar.
        rewrite (bind_ret_step _ _ _ (set_executable_name (executable_name (w_parser w) ++ [a]) (set_called true (w_parser w))) tt) by reflexivity.
        unfold bind. now rewrite Sc. }
    injection S as <- _. cbn [w_parser with_parser] in Sb. rewrite Sp in Sb. cbn in Sb. rewrite (rw_sub _ _ _ R) in Sb. discriminate Sb.
  - destruct H as (p' & H & Q). destruct (expected _ _ _ _ _ _ _ _ _ _ _) as [[vs f] r']. rewrite H in S. injection S as <- _. cbn [w_parser] in Sb.
    destruct Q as (_ & _ & _ & _ & _ & _ & Sp). rewrite Sp in Sb. destruct (last_some piece_sub ks) as [[s rest]|] eqn:L; [|discriminate Sb].
    destruct (pieces_sub _ _ _ _ _ _ K L) as (_ & (more & ->) & front & -> & ks' & -> & _). cbn [List.tl] in *. exists a, front, s, more, ks'. auto.
Qed.

(** calls for a sub-parser that is not there change nothing *)
Lemma sub_none cs : forall w w1 log, sub_parser (w_parser w) = None -> run (map CSub cs) w = (w1, log) -> w1 = w.
Proof.
  induction cs as [|c cs IH]; intros w w1 log S H.
  { now injection H as <- _. }
  cbn [map] in H. rewrite run_cons in H. cbn [Parser.step] in H. unfold get_sub_parser in H. rewrite S in H. cbn in H.
  destruct (run (map CSub cs) w) as [w2 l] eqn:E. cbn [fst snd] in H. injection H as <- _. eapply IH; eauto.
Qed.

Lemma run_split cs1 cs2 : forall w w2 log, run (cs1 ++ cs2) w = (w2, log) -> (forall c q, In (c, q) log -> goes_on q) ->
  exists w1 l1 l2, run cs1 w = (w1, l1) /\ run cs2 w1 = (w2, l2) /\ log = l1 ++ l2.
Proof.
  induction cs1 as [|c cs1 IH]; intros w w2 log H G.
  { exists w, [], log. auto. }
  cbn [app] in H. rewrite run_cons in H. rewrite run_cons. destruct (step c w) as [w1 r] eqn:E.
  assert (Gr : goes_on r).
  { destruct (match r with Ret _ | Throw _ => true | _ => false end) eqn:B; [now apply goes_on_iff|]. injection H as _ <-. apply (G c r). now left. }
  apply goes_on_iff in Gr. rewrite Gr in *. destruct (run (cs1 ++ cs2) w1) as [w3 l] eqn:E2. cbn [fst snd] in H. injection H as <- <-.
  destruct (IH w1 w3 l E2) as (w4 & l1 & l2 & R1 & R2 & ->); [intros c' q Hq; apply (G c' q); now right|].
  exists w4, ((c, r) :: l1), l2. rewrite R1. auto.
Qed.

Lemma run_calls cs : forall w w1 log c r, run cs w = (w1, log) -> In (c, r) log -> In c cs.
Proof.
  induction cs as [|c0 cs IH]; intros w w1 log c r H Hi.
  { injection H as _ <-. destruct Hi. }
  rewrite run_cons in H. destruct (step c0 w) as [w2 q] eqn:E. destruct (run cs w2) as [w3 l] eqn:E2. cbn [fst snd] in H.
  destruct (match q with Ret _ | Throw _ => true | _ => false end); injection H as _ <-; destruct Hi as [Hi|Hi].
  1, 3: injection Hi as <- _; now left.
  - right. eapply IH; eauto.
  - destruct Hi.
Qed.

Lemma complete_lemma css : forall w0 w' log q, fresh (w_parser w0) -> run (nested css) w0 = (w', log) -> (forall c r, In (c, r) log -> goes_on r) ->
  (forall cs c, In cs css -> In c cs -> c <> CParse /\ is_move c = false) -> inner (List.length css) (w_parser w') = Some q ->
  exists ways wn, descends ndebug bk css w0 ways wn /\ w_parser wn = q /\ w_vars wn = w_vars w' /\ w_fs wn = w_fs w'.
Proof.
  induction css as [|cs css IH]; intros w0 w' log q F Rn G U Iq.
  { cbn in Rn, Iq. injection Rn as <- _. injection Iq as <-. exists [], w0. split; [now constructor|]. auto. }
  cbn [nested] in Rn. destruct (run_split _ _ _ _ _ Rn G) as (w & l1 & l2 & R1 & R2 & El).
  rewrite run_cons in R2. destruct (step CParse w) as [w1 r] eqn:S.
  assert (Gr : goes_on r).
  { apply (G CParse r). rewrite El. apply in_or_app. right. destruct (match r with Ret _ | Throw _ => true | _ => false end); injection R2 as _ <-; now left. }
  pose proof Gr as Gr'. apply goes_on_iff in Gr'. rewrite Gr' in R2. destruct (run (map CSub (nested css)) w1) as [w2 l3] eqn:R3. cbn [fst snd] in R2. injection R2 as <- <-.
  cbn [List.length inner] in Iq.
  assert (Ul : unparsed l1) by (intros c x Hi; apply (U cs c); [now left|eapply run_calls; eauto]).
  assert (Gl : forall c x, In (c, x) l1 -> goes_on x) by (intros c x Hi; apply (G c x); rewrite El; apply in_or_app; now left).
  assert (P : assembled ndebug bk w0 w l1) by (split; [exact F|]; split; [now exists cs|exact Ul]).
  destruct (sub_parser (w_parser w1)) as [q1|] eqn:Sb.
  2:{ apply sub_none in R3; [|exact Sb]. subst w2. rewrite Sb in Iq. discriminate Iq. }
  destruct (made_sub _ _ _ _ _ _ P S Gr Sb) as (a & front & s & more & ks & A & N & K & E).
  pose proof (level_sub _ _ _ _ _ _ _ _ _ _ _ _ _ F R1 Ul A N K E S) as Sb'. rewrite Sb in Sb'. injection Sb' as ->.
  match type of Sb with _ = Some ?m => set (q0 := m) in * end.
  destruct (run (nested css) {| w_parser := q0; w_vars := w_vars w1; w_fs := w_fs w1 |}) as [w4 l4] eqn:R4.
  pose proof (sub_run ndebug bk (nested css) w1 _ w4 l4 Sb R4) as R5. rewrite R3 in R5. injection R5 as -> ->. cbn [w_parser set_sub sub_parser] in Iq.
  destruct (IH {| w_parser := q0; w_vars := w_vars w1; w_fs := w_fs w1 |} w4 l4 q (made_fresh _ _ _ _) R4) as (ways & wn & D & Q & V & Fs).
  { intros c x Hi. apply (G (CSub c) x). rewrite El. apply in_or_app. right. right. apply in_map_iff. exists (c, x). auto. }
  { intros cs' c H1 H2. apply (U cs' c); [now right|exact H2]. }
  { exact Iq. }
  exists ((front, s) :: ways), wn. cbn [w_vars w_fs]. split; [|auto]. eapply descend; eauto.
Qed.
End Nested.
