(** A flag nobody gives might as well not be declared. *)
From Verif Require Import Base StrLib Fs Values Validators FormatParse Invocation InvocationProofs InvocationEffects ValuesSpec ValuesProofs
  ScanSpec ScanProofs ScanFlags DiagnosisSpec DiagnosisProofs ReadingSpec ReadingProofs OrderSpec OrderProofs.

Definition idle (c : config) (st : pst) : Prop :=
  all_neat (pre st) /\ all_neat (post st) /\ pres (c_short c) (pre st) = false /\ pres (c_short c) (post st) = false /\ has (long_of c) (pre st) = false.

Lemma pres_less c d l : d <> "-"%char -> all_neat l -> pres c l = false -> pres c (tkl d l) = false.
Proof.
  intros Hd Hn H. destruct (Ascii.ascii_dec d c) as [->|N]; [now rewrite tkl_none|]. rewrite tkl_pres; auto.
Qed.
Lemma has_less w u l : w <> "" -> has w l = false -> has w (bll u l) = false.
Proof.
  intros Hw. unfold has. induction l as [|a l IH]; cbn [bll existsb]; [auto|]. intros H. apply orb_false_iff in H as [A B].
  destruct (String.eqb u a); cbn [existsb]; [rewrite B, (proj2 (String.eqb_neq w "") Hw); reflexivity|rewrite A; now apply IH].
Qed.

Lemma idle_flag c x d st : c_short d <> "-"%char -> idle c st -> idle c (fst (get_flag x d st)).
Proof.
  intros Hd (N1 & N2 & P1 & P2 & Q). destruct (flag_exists d (pre st) (post st) Hd) as (b & r & g & R). rewrite (get_flag_read x d st b r g Hd R).
  apply flag_read_fun in R. unfold flag_fun in R. unfold idle. cbn [fst pre post set_vars set_args].
  destruct (pres (c_short d) (pre st)); [|destruct (pres (c_short d) (post st))]; injection R as <- <- <-.
  - split; [now apply tkl_neat|]. split; [exact N2|]. split; [now apply pres_less|]. split; [exact P2|]. unfold long_of in *. now rewrite tkl_has.
  - split; [exact N1|]. split; [now apply tkl_neat|]. split; [exact P1|]. split; [now apply pres_less|exact Q].
  - split; [now apply bll_neat|]. split; [exact N2|]. split; [unfold long_of; now rewrite bll_pres|]. split; [exact P2|]. apply has_less; [discriminate|exact Q].
Qed.
Lemma idle_flags c ds : flags_ok ds -> forall st, idle c st -> idle c (fst (mapM_ flag_call ds st)).
Proof.
  induction ds as [|d ds IH]; intros Hok st H; [exact H|]. cbn [mapM_]. unfold bind.
  assert (H1 : idle c (fst (flag_call d st))) by (destruct d as [x t e|x e|x t e]; cbn [flag_call]; [exact H|apply idle_flag; [apply (Hok x); now left|exact H]|exact H]).
  assert (E : snd (flag_call d st) = Ret tt) by (destruct d as [x t e|x e|x t e]; cbn [flag_call]; [reflexivity|apply get_flag_ret|reflexivity]).
  destruct (flag_call d st) as [s q]. cbn [fst snd] in *. subst q. apply IH; [|exact H1]. intros y e K. apply (Hok y). now right.
Qed.

(** states that differ in the representation of the variables only *)
Definition alike (s s' : pst) : Prop :=
  pre s = pre s' /\ post s = post s' /\ count s = count s' /\ fsys s = fsys s' /\ forall y, vars s y = vars s' y.

Lemma alike_flag x c s s' : c_short c <> "-"%char -> alike s s' -> alike (fst (get_flag x c s)) (fst (get_flag x c s')).
Proof.
  intros Hc (A & B & C & D & E). destruct (flag_exists c (pre s) (post s) Hc) as (b & r & g & R). rewrite (get_flag_read x c s b r g Hc R).
  rewrite A, B in R. rewrite (get_flag_read x c s' b r g Hc R). split; [reflexivity|]. split; [reflexivity|]. split; [exact C|]. split; [exact D|].
  intros y. cbn. unfold set_var. destruct (Nat.eqb _ _); [now rewrite E|apply E].
Qed.
Lemma alike_flags ds : flags_ok ds -> forall s s', alike s s' -> alike (fst (mapM_ flag_call ds s)) (fst (mapM_ flag_call ds s')).
Proof.
  induction ds as [|d ds IH]; intros Hok s s' H; [exact H|]. cbn [mapM_]. unfold bind.
  assert (H1 : alike (fst (flag_call d s)) (fst (flag_call d s'))) by (destruct d as [x t e|x e|x t e]; cbn [flag_call]; [exact H|apply alike_flag; [apply (Hok x); now left|exact H]|exact H]).
  assert (E : forall s, snd (flag_call d s) = Ret tt) by (intros z; destruct d as [x t e|x e|x t e]; cbn [flag_call]; [reflexivity|apply get_flag_ret|reflexivity]).
  pose proof (E s) as E1. pose proof (E s') as E2. destruct (flag_call d s) as [t q], (flag_call d s') as [t' q']. cbn [fst snd] in *. subst q q'. apply IH; [intros y e K; apply (Hok y); now right|exact H1].
Qed.

Section build.
Context (ndebug : bool).

Lemma positionals_skip d1 x c d2 : forall ws s, s_positionals ndebug (d1 ++ DFlag x c :: d2) ws s = s_positionals ndebug (d1 ++ d2) ws s.
Proof.
  induction d1 as [|d d1 IH]; intros ws s; [reflexivity|]. destruct d as [y t e|y e|y t e]; cbn [app s_positionals]; [apply IH|apply IH|].
  destruct ws as [|w ws]; [reflexivity|]. destruct (is_container t); unfold bind;
    repeat (match goal with |- context [match ?m with pair _ _ => _ end] => destruct m as [? []] end; try reflexivity); apply IH.
Qed.

Lemma front_unused d1 x c d2 b r vs f v : flags_ok (d1 ++ DFlag x c :: d2) -> elems_ok (d1 ++ DFlag x c :: d2) -> ~ In x (map bound_addr (d1 ++ d2)) ->
  unused (d1 ++ DFlag x c :: d2) c b r -> vs x = VBool v ->
  let st := {| pre := b; post := r; vars := vs; count := 0; fsys := f |} in
  alike (fst (front ndebug (d1 ++ DFlag x c :: d2) st)) (fst (front ndebug (d1 ++ d2) st)) /\
  snd (front ndebug (d1 ++ DFlag x c :: d2) st) = snd (front ndebug (d1 ++ d2) st).
Proof.
  intros Hok Hel Hx Hu Hv st. unfold front. unfold bind at 1 3 5 7. rewrite (mapM_same_calls (option_call ndebug) d1 (DFlag x c) d2 st) by reflexivity.
  destruct (mapM_ (option_call ndebug) (d1 ++ d2) st) as [st1 q] eqn:E1.
  assert (Same : forall s : pst, alike s s) by (intros s; repeat split).
  destruct q as [[]|e|o| | |]; try (split; [apply Same|reflexivity]).
  pose proof E1 as E1'. rewrite <- (mapM_same_calls (option_call ndebug) d1 (DFlag x c) d2 st) in E1' by reflexivity.
  apply options_ret in E1' as (O1 & O2 & O3); [|exact Hel]. cbn [pre post vars fsys st] in O1, O2.
  apply options_each in O1 as [wss O1]. destruct (Hu wss _ O1) as [U1 U2].
  assert (Hid : idle c st1).
  { split; [intros a Ha; apply U1, in_app_iff; now left|]. split; [intros a Ha; apply U1, in_app_iff; right; now rewrite <- O2|].
    split; [apply pres_no; intros a Ha; apply U1, in_app_iff; now left|]. split; [apply pres_no; intros a Ha; apply U1, in_app_iff; right; now rewrite <- O2|]. now apply has_in. }
  assert (Hv1 : vars st1 x = VBool v).
  { pose proof (option_calls_rel ndebug (d1 ++ d2) st) as (_ & _ & _ & K). rewrite E1 in K. cbn [fst] in K. rewrite K by exact Hx. exact Hv. }
  assert (Hc : c_short c <> "-"%char) by (apply (Hok x); apply in_app_iff; right; now left).
  assert (Hal : alike (fst (mapM_ flag_call (d1 ++ DFlag x c :: d2) st1)) (fst (mapM_ flag_call (d1 ++ d2) st1))).
  { rewrite !mapM_app. unfold bind. pose proof (flag_calls_ret d1 st1) as R1.
    assert (Hid2 : idle c (fst (mapM_ flag_call d1 st1))) by (apply idle_flags; [intros y e K; apply (Hok y), in_app_iff; now left|exact Hid]).
    assert (Hv2 : vars (fst (mapM_ flag_call d1 st1)) x = VBool v).
    { rewrite <- Hv1. apply (frame_mapM (map bound_addr d1) flag_call d1); [apply incl_refl| |intros K; apply Hx; rewrite map_app; apply in_app_iff; now left].
      intros [y t e|y e|y t e] Hy; cbn [flag_call]; [now apply frame_same|now apply get_flag_frame|now apply frame_same]. }
    destruct (mapM_ flag_call d1 st1) as [st2 q2]. cbn [fst snd] in *. subst q2. cbn [mapM_ flag_call]. unfold bind.
    destruct Hid2 as (_ & _ & P1 & P2 & Q). apply pres_no in P1. apply pres_no in P2. apply has_in in Q.
    rewrite (get_flag_read x c st2 (pre st2) (post st2) false Hc) by now apply flag_absent.
    apply alike_flags; [intros y e K; apply (Hok y), in_app_iff; right; now right|]. destruct st2 as [p s w n g]. unfold alike. cbn in *. repeat split. intros y. unfold set_var. destruct (Nat.eqb_spec x y) as [<-|]; [|destruct (Nat.eqb_spec y x) as [->|]; [|reflexivity]]; rewrite ?Hv2; destruct v; rewrite ?Nat.eqb_refl; auto. }
  pose proof (flag_calls_ret (d1 ++ DFlag x c :: d2) st1) as R1. pose proof (flag_calls_ret (d1 ++ d2) st1) as R2. unfold bind.
  destruct (mapM_ flag_call (d1 ++ DFlag x c :: d2) st1) as [s1 q1], (mapM_ flag_call (d1 ++ d2) st1) as [s2 q2]. cbn [fst snd] in *. subst q1 q2.
  unfold check_for_unknown_ids. cbn [fst snd]. split; [exact Hal|]. now rewrite (proj1 Hal).
Qed.

Lemma unused_lemma d1 x c d2 args b r vs f v : wf_decls (d1 ++ DFlag x c :: d2) = true -> elems_ok (d1 ++ DFlag x c :: d2) -> ~ In x (map bound_addr (d1 ++ d2)) ->
  cut args b r -> unused (d1 ++ DFlag x c :: d2) c b r -> vs x = VBool v ->
  let p := parse_args ndebug (d1 ++ DFlag x c :: d2) args vs f in let q := parse_args ndebug (d1 ++ d2) args vs f in
  (forall y, vars (fst p) y = vars (fst q) y) /\ fsys (fst p) = fsys (fst q) /\ okind_of (snd p) = okind_of (snd q) /\ vars (fst p) x = vs x.
Proof.
  intros Hwf Hel Hx Hc Hu Hv p q.
  assert (Hl : list_last (pos_types (d1 ++ DFlag x c :: d2)) = true) by (unfold wf_decls in Hwf; now apply andb_true_iff in Hwf as [_ Hwf]).
  assert (Hl' : list_last (pos_types (d1 ++ d2)) = true). { unfold pos_types in *. rewrite flat_map_app in *. cbn [flat_map app] in Hl. exact Hl. }
  pose proof (front_unused d1 x c d2 b r vs f v (wf_flags_ok _ Hwf) Hel Hx Hu Hv) as [A E]. cbv zeta in A, E.
  assert (G : (forall y, vars (fst p) y = vars (fst q) y) /\ fsys (fst p) = fsys (fst q) /\ okind_of (snd p) = okind_of (snd q)).
  { unfold p, q.
    destruct (parse_split ndebug _ args b r vs f Hl Hc) as [(s1 & q1 & F1 & N1 & ->)|(s1 & F1 & V1 & V2 & V3)];
    destruct (parse_split ndebug _ args b r vs f Hl' Hc) as [(s2 & q2 & F2 & N2 & ->)|(s2 & F2 & W1 & W2 & W3)]; rewrite F1, F2 in A, E; cbn [fst snd] in *; try congruence.
    - subst q2. destruct A as (_ & _ & _ & A2 & A3). auto.
    - destruct A as (A0 & A1 & _ & A2 & A3). rewrite V1, V2, V3, W1, W2, W3, A0, A1, positionals_skip.
      destruct (positionals_same ndebug (d1 ++ d2) (filter nonempty (pre s2 ++ List.tl (post s2))) (abs s1) (abs s2)) as [[P1 P2] P3]; [split; [exact A3|exact A2]|].
      split; [exact P1|]. split; [exact P2|]. now rewrite P3. }
  destruct G as (G1 & G2 & G3). repeat split; auto. rewrite G1. now apply parse_frame.
Qed.
End build.
