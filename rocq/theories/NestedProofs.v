(** Proofs about programs with subcommands of subcommands. *)
From Verif Require Import Base StrLib Fs Values Validators FormatParse Invocation ScanSpec Parser ParserSpec ParserProofs ParserPieces ParserReading ParserOutcomes
  ReadingSpec ProgramSpec ProgramProofs NestedSpec.

Section nested.
Variable ndebug : bool.
Variable bk : backend.

Notation run := (run ndebug bk).
Notation step := (step ndebug bk).
Notation descends := (descends ndebug bk).

Lemma goes_on_iff r : goes_on r <-> (match r with Ret _ | Throw _ => true | _ => false end) = true.
Proof. destruct r; cbn; intuition discriminate. Qed.

Lemma run_append cs1 cs2 : forall w w1 log, run cs1 w = (w1, log) -> (forall c q, In (c, q) log -> goes_on q) ->
  run (cs1 ++ cs2) w = (fst (run cs2 w1), log ++ snd (run cs2 w1)).
Proof.
  induction cs1 as [|c cs1 IH]; intros w w1 log H G.
  { cbn in H. injection H as <- <-. cbn. apply surjective_pairing. }
  rewrite run_cons in H. cbn [app]. rewrite run_cons. destruct (step c w) as [w2 r] eqn:E.
  assert (Gr : goes_on r).
  { destruct (match r with Ret _ | Throw _ => true | _ => false end) eqn:B; [now apply goes_on_iff|]. injection H as _ <-. apply (G c r). now left. }
  apply goes_on_iff in Gr. rewrite Gr in *. injection H as <- <-.
  rewrite (IH w2 (fst (run cs1 w2)) (snd (run cs1 w2)) (surjective_pairing _)); [reflexivity|]. intros c' q Hq. apply (G c' q). now right.
Qed.

Lemma last_sub ks s more : last_some piece_sub (ks ++ [KSub s more]) = Some (s, s :: more).
Proof. induction ks as [|k ks IH]; [reflexivity|]. cbn [app last_some]. now rewrite IH. Qed.

Lemma made_fresh p exe s more : fresh (made_for p exe s more).
Proof. apply fresh_new. Qed.

Lemma descends_fresh css w0 ways wn : descends css w0 ways wn -> fresh (w_parser w0) /\ fresh (w_parser wn).
Proof. induction 1 as [w F|cs css w0 w log a front s more ks w1 r ways wn F R U G A N K E S Gr D [IH1 IH2]]; auto. Qed.

(** one level *)
Lemma level_sub cs w0 w log a front s more ks w1 r : fresh (w_parser w0) -> run cs w0 = (w, log) -> unparsed log ->
  arguments (w_parser w0) = a :: front ++ s :: more -> names_ok (w_parser w) ->
  pieces (options (w_parser w)) (subcommands (w_parser w)) (front ++ s :: more) (ks ++ [KSub s more]) ->
  first_error (bk_tdl bk) (subcommands (w_parser w)) (ks ++ [KSub s more]) = None -> step CParse w = (w1, r) ->
  sub_parser (w_parser w1) = Some (made_for (w_parser w) (executable_name (w_parser w0) ++ [a]) s more).
Proof.
  intros F R U A [N1 N2] K E S.
  assert (P : assembled ndebug bk w0 w log) by (split; [exact F|]; split; [now exists cs|exact U]).
  pose proof (parse_assembled ndebug bk w0 w log a _ _ P A N1 N2 K) as H. rewrite E in H. destruct H as (p' & H & Q).
  destruct (expected _ _ _ _ _ _ _ _ _ _ _) as [[vs f] q]. rewrite H in S. injection S as <- _. cbn [w_parser].
  destruct Q as (_ & _ & _ & _ & _ & _ & Sb). rewrite Sb, last_sub. unfold new_sub_parser, made_for. cbn. rewrite app_nil_r.
  destruct (assembled_raw _ _ _ _ _ P) as [Rw _]. now rewrite (rw_exe _ _ _ Rw).
Qed.

Lemma nested_app css : forall css', nested (css ++ css') = nested css ++ Nat.iter (List.length css) (map CSub) (nested css').
Proof.
  induction css as [|cs css IH]; intros css'; [reflexivity|]. cbn [nested app List.length Nat.iter nat_rect]. rewrite IH, map_app. rewrite <- app_assoc. cbn [app].
  do 2 f_equal.
Qed.

(** what is done on the way down, and what is done at the bottom *)
Lemma nested_run css w0 ways wn : descends css w0 ways wn ->
  forall tail wt logt, run (nested tail) wn = (wt, logt) ->
  exists w' log log', run (nested (css ++ tail)) w0 = (w', log) /\ log = log' ++ map (fun e => (Nat.iter (List.length css) CSub (fst e), snd e)) logt /\
    (forall c q, In (c, q) log' -> goes_on q) /\
    inner (List.length css) (w_parser w') = Some (w_parser wt) /\ w_vars w' = w_vars wt /\ w_fs w' = w_fs wt.
Proof.
  induction 1 as [w F|cs css w0 w log a front s more ks w1 r ways wn F R U G A N K E S Gr D IH]; intros tail wt logt Ht.
  { exists wt, logt, []. split; [exact Ht|]. split; [|cbn; intuition]. cbn. induction logt as [|[c q] l IHl]; [reflexivity|]. cbn. f_equal. clear -l. induction l as [|[c q] l IHl]; [reflexivity|]. cbn. now f_equal. }
  pose proof (level_sub _ _ _ _ _ _ _ _ _ _ _ F R U A N K E S) as Sb.
  destruct (IH tail wt logt Ht) as (w2 & l2 & l2' & R2 & El & G2 & In2 & V2 & F2).
  pose proof (sub_run ndebug bk (nested (css ++ tail)) w1 _ w2 l2 Sb R2) as R3.
  cbn [nested app]. rewrite (run_append cs _ w0 w log R G), run_cons, S. apply goes_on_iff in Gr. rewrite Gr, R3. cbn [fst snd].
  eexists _, _, (log ++ (CParse, r) :: map (fun e => (CSub (fst e), snd e)) l2'). split; [reflexivity|]. split.
  { rewrite El, map_app, map_map, <- app_assoc. reflexivity. }
  split.
  { intros c q Hq. apply in_app_or in Hq as [Hq|[Hq|Hq]]; [now apply (G c q)|injection Hq as <- <-; now apply goes_on_iff|].
    apply in_map_iff in Hq as ((c' & q') & Hq & Hi). injection Hq as <- <-. now apply (G2 c' q'). }
  cbn [List.length inner w_parser w_vars w_fs]. cbn. auto.
Qed.

(** ** What the levels get *)

Lemma lossless_lemma css w0 ways wn a : descends css w0 ways wn -> css <> [] -> List.hd_error (arguments (w_parser w0)) = Some a ->
  List.length ways = List.length css /\
  arguments (w_parser w0) = a :: flat_map (fun e => fst e ++ [snd e]) ways ++ List.tl (arguments (w_parser wn)) /\
  List.hd_error (arguments (w_parser wn)) = Some (last (map snd ways) a) /\
  executable_name (w_parser wn) = executable_name (w_parser w0) ++ a :: removelast (map snd ways) /\
  dev_decision (w_parser wn) = false.
Proof.
  intros D. revert a. induction D as [w F|cs css w0 w log b front s more ks w1 r ways wn F R U G A N K E S Gr D IH]; intros a Hn Ha; [congruence|].
  rewrite A in Ha. injection Ha as ->. destruct css as [|cs' css].
  - inversion D; subst. cbn. rewrite A. rewrite <- !app_assoc. auto.
  - destruct (IH s) as (L & A2 & H2 & X2 & V2); [discriminate|reflexivity|]. cbn [w_parser] in A2, X2.
    split; [cbn; now rewrite L|]. split.
    { rewrite A. cbn [flat_map fst snd]. change (arguments (made_for (w_parser w) (executable_name (w_parser w0) ++ [a]) s more)) with (s :: more) in A2.
      injection A2 as ->. now rewrite <- !app_assoc. }
    destruct ways as [|[fr2 s2] ways]; [discriminate L|]. cbn [map snd]. split.
    { rewrite H2. cbn [map snd]. destruct (map snd ways); [reflexivity|]. cbn [last]. f_equal. clear. revert s0. induction l; intros s0; [reflexivity|apply IHl]. }
    split; [|exact V2]. rewrite X2. unfold made_for. cbn [executable_name set_executable_name]. cbn. rewrite <- app_assoc. reflexivity.
Qed.

Lemma bi_info p q : but_ids p q -> info q = info p.
Proof. unfold but_ids. intros ->. reflexivity. Qed.

Lemma step_info c w w1 r : step c w = (w1, r) -> c <> CParse -> is_move c = false -> (forall m, c <> CInfo m) -> info (w_parser w1) = info (w_parser w).
Proof.
  intros H C1 C2 C3. destruct (section_op c) as [o|] eqn:S.
  { destruct (step_section _ _ _ _ _ _ _ S H) as [(_ & -> & m & ->)|(_ & -> & ->)]; reflexivity. }
  destruct c; try discriminate S; try discriminate C2; try congruence.
  - apply step_option in H as (p' & ra & H & -> & Q). apply add_option_spec in H as [D K]. cbn [w_parser with_parser].
    destruct (returned r) eqn:Er.
    + destruct (K (proj1 Q eq_refl)) as (_ & q & B & ->). apply (bi_info _ _ B).
    + apply (bi_info _ _ (dc_throw _ _ _ _ _ D (fun E => Bool.diff_false_true (proj2 Q E)))).
  - apply step_flag in H as (p' & ra & H & -> & Q). apply add_flag_spec in H as [D K]. cbn [w_parser with_parser].
    destruct (returned r) eqn:Er.
    + destruct (K (proj1 Q eq_refl)) as (_ & _ & q & B & ->). apply (bi_info _ _ B).
    + apply (bi_info _ _ (dc_throw _ _ _ _ _ D (fun E => Bool.diff_false_true (proj2 Q E)))).
  - apply step_positional in H as (p' & ra & H & -> & Q). cbn [w_parser with_parser].
    apply add_positional_spec in H as [[-> [m ->]]|(-> & _ & I & S1 & L & ->)]; reflexivity.
  - cbn in H. injection H as <- <-. reflexivity.
  - cbn [Parser.step] in H. unfold on_parser in H. pose proof (is_option_set_parser i (w_parser w)) as K.
    destruct (is_option_set i (w_parser w)) as [p' r']. injection H as <- <-. cbn in *. now subst.
  - cbn [Parser.step] in H. unfold get_sub_parser in H. destruct (sub_parser (w_parser w)).
    + destruct (step c _) as [w' q]. injection H as <- <-. reflexivity.
    + unfold design, throw in H. injection H as <- <-. reflexivity.
  - cbn in H. injection H as <- <-. reflexivity.
  - cbn in H. injection H as <- <-. reflexivity.
Qed.

Lemma run_info cs : forall w w1 log, run cs w = (w1, log) -> unparsed log -> (forall c m, In c cs -> c <> CInfo m) -> info (w_parser w1) = info (w_parser w).
Proof.
  induction cs as [|c cs IH]; intros w w1 log H U C; [cbn in H; now injection H as <- <-|].
  rewrite run_cons in H. destruct (step c w) as [w2 r] eqn:E.
  assert (K : info (w_parser w2) = info (w_parser w)).
  { assert (Hc : c <> CParse /\ is_move c = false) by (apply (U c r); destruct r; injection H as <- <-; now left).
    apply (step_info _ _ _ _ E); try apply Hc. intros m. apply C. now left. }
  destruct (match r with Ret _ | Throw _ => true | _ => false end); injection H as <- <-; [|exact K].
  rewrite <- K. apply (IH w2 _ (snd (run cs w2))); [apply surjective_pairing|intros c' r' Hi; apply (U c' r'); now right|intros c' m Hi; apply C; now right].
Qed.

Lemma concat_join s a l : String.concat "-" ((a +s+ "-" +s+ s) :: l) = String.concat "-" (a :: s :: l).
Proof. destruct l as [|b l]; [reflexivity|]. cbn [String.concat]. now rewrite !app_assoc_s. Qed.

Lemma name_lemma css w0 ways wn : descends css w0 ways wn -> keeps_info css ->
  m_app_name (info (w_parser wn)) = full_name (m_app_name (info (w_parser w0))) (map snd ways).
Proof.
  induction 1 as [w F|cs css w0 w log b front s more ks w1 r ways wn F R U G A N K E S Gr D IH]; intros C; [reflexivity|].
  rewrite IH by (intros cs' c m H1 H2; apply (C cs' c m); [now right|exact H2]). unfold full_name. cbn [map snd w_parser].
  rewrite <- (run_info cs w0 w log R U) by (intros c m Hi; apply (C cs c m); [now left|exact Hi]).
  rewrite <- concat_join. reflexivity.
Qed.

(** ** The bottom *)

Lemma innermost_lemma css w0 ways wn cs w log a args vs' f' : descends css w0 ways wn -> run cs wn = (w, log) -> unparsed log -> (forall c q, In (c, q) log -> goes_on q) ->
  arguments (w_parser wn) = a :: args -> elems_ok (accepted log) ->
  (exists w' log', run (nested (css ++ [cs])) w0 = (w', log' ++ [(Nat.iter (List.length css) CSub CParse, Ret true)]) /\
     (forall y, w_vars w' y = vs' y) /\ w_fs w' = f') <->
  run_understood ndebug bk (w_parser w) (accepted log) (options (w_parser w)) args (w_vars w) (w_fs w) vs' f'.
Proof.
  intros D R U G A Ok. destruct (descends_fresh _ _ _ _ D) as [_ F].
  assert (P : assembled ndebug bk wn w log) by (split; [exact F|]; split; [now exists cs|exact U]).
  rewrite <- (whole_reading ndebug bk wn w log a args vs' f' P A Ok).
  destruct (step CParse w) as [w1 r] eqn:S.
  assert (Rt : run (nested [cs]) wn = (w1, log ++ [(CParse, r)])).
  { cbn [nested map]. rewrite (run_append cs _ wn w log R G), run_cons, S. cbn. destruct r; reflexivity. }
  destruct (nested_run _ _ _ _ D [cs] _ _ Rt) as (w2 & l2 & l2' & R2 & El & _ & _ & V2 & F2). rewrite map_app, app_assoc in El. cbn [map fst snd] in El. split.
  - intros (w' & log' & Rw & V & Fs). rewrite Rw in R2. injection R2 as <- E. rewrite El in E. apply app_inj_tail in E as [_ E]. injection E as <-.
    exists w1. rewrite <- V2, <- F2. auto.
  - intros (w1' & Hs & V & Fs). injection Hs as <- ->. exists w2. eexists. rewrite R2, El. split; [reflexivity|]. rewrite V2, F2. auto.
Qed.
End nested.
