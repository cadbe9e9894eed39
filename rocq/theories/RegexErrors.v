(** Malformed patterns. *)
From Verif Require Import Base StrLib Values ValuesSpec ValuesProofs Regex RegexSpec RegexProofs RegexReading.
Open Scope N_scope.

Definition dead (ts : list token) (a : compiler) : Prop :=
  match compiler_run ts a with
  | Fine a' => match a_mode a', a_outer a' with MNormal _, [] => False | _, _ => True end
  | Malformed => True
  | Unknown => False
  end.
Lemma dead_compile p ts st t f a : scan (String.length p) SNormal p = option_map (app ts) (scan f st t) -> compiler_run ts compiler0 = Fine a ->
  (forall ts', scan f st t = Some ts' -> dead ts' a) -> compile p = Malformed.
Proof.
  intros E R D. unfold compile. rewrite E. destruct (scan f st t) as [ts'|]; [|reflexivity]. specialize (D ts' eq_refl). cbn [option_map]. rewrite run_app, R.
  unfold dead in D. destruct (compiler_run ts' a) as [a'| |]; [|reflexivity|destruct D]. destruct (a_mode a'); try reflexivity. destruct (a_outer a'); [destruct D|reflexivity].
Qed.
Lemma dead_match p : compile p = Malformed -> forall s, regex_match p s = Malformed.
Proof. intros H s. unfold regex_match. rewrite H. reflexivity. Qed.

(** after an expression *)
Lemma after_pattern p r : fits r = true -> load r <= load_limit -> exists a, compiler_run (tokens p r) compiler0 = Fine a /\ as_place p r (slack p (load r)) compiler0 a /\ normal a /\ a_outer a = [] /\ a_used a + 900 <= state_limit.
Proof.
  intros F L. pose proof (load_pos r) as LP. assert (IL : load_limit + 1000 = state_limit) by reflexivity. assert (SL : slack p (load r) <= load r) by (destruct p; cbn [slack]; lia).
  destruct (re_gets r F p ltac:(lia) compiler0) as (a & R & (Q & O & U) & H); [exists false; reflexivity|change (a_used compiler0) with 10; lia|].
  change (a_used compiler0) with 10 in U. exists a. split; [exact R|]. split; [exact H|]. split; [exact Q|]. split; [exact O|lia].
Qed.
Lemma prefix_scan s ts st t : scans SNormal s ts st -> exists f, (String.length t <= f)%nat /\ scan (String.length (s +s+ t)) SNormal (s +s+ t) = option_map (app ts) (scan f st t).
Proof. intros H. apply H. lia. Qed.

Lemma first_token st c t f tk st' r ts' : step st c t = Some (tk, st', r) -> (String.length (String c t) <= f)%nat ->
  scan f st (String c t) = Some ts' -> exists ts'' f', ts' = tk :: ts'' /\ scan f' st' r = Some ts'' /\ f = S f'.
Proof.
  intros H L E. cbn in L. destruct f as [|f]; [lia|]. cbn [scan] in E. destruct st; cbn [step] in H; rewrite H in E;
  (destruct (scan f st' r) as [ts''|] eqn:X; [|discriminate]); injection E as <-; exists ts'', f; auto.
Qed.
Lemma dead_step t ts a : compiler_step t a = Malformed -> dead (t :: ts) a.
Proof. intros H. unfold dead. cbn [compiler_run]. rewrite H. exact Logic.I. Qed.
Lemma dead_next t ts a a' : compiler_step t a = Fine a' -> dead ts a' -> dead (t :: ts) a.
Proof. intros H D. unfold dead. rewrite (run_step _ _ _ _ H). exact D. Qed.

(** a quantifier that finds no atom *)
Lemma often_first q : exists c s tk, write_often q = String c s /\ In tk [TStar; TPlus; TOpt; TBrace] /\ forall t, exists st' r, step SNormal c (s +s+ t) = Some (tk, st', r).
Proof.
  destruct q; cbn [write_often append]; eexists _, _.
  - exists TStar. split; [reflexivity|]. split; [cbn; auto|]. intros t. eexists _, _. reflexivity.
  - exists TPlus. split; [reflexivity|]. split; [cbn; auto|]. intros t. eexists _, _. reflexivity.
  - exists TOpt. split; [reflexivity|]. split; [cbn; auto|]. intros t. eexists _, _. reflexivity.
  - exists TBrace. split; [reflexivity|]. split; [cbn; auto|]. intros t. eexists _, _. reflexivity.
  - exists TBrace. split; [reflexivity|]. split; [cbn; auto|]. intros t. eexists _, _. reflexivity.
  - exists TBrace. split; [reflexivity|]. split; [cbn; auto|]. intros t. eexists _, _. reflexivity.
Qed.
Lemma no_atom_step tk a : In tk [TStar; TPlus; TOpt; TBrace] -> a_mode a = MNormal false -> l_last (a_level a) = None -> compiler_step tk a = Malformed.
Proof. intros [<-|[<-|[<-|[<-|[]]]]] Q N; unfold compiler_step; rewrite Q, N; reflexivity. Qed.
Lemma dead_often q t f a ts' : a_mode a = MNormal false -> l_last (a_level a) = None -> (String.length (write_often q +s+ t) <= f)%nat ->
  scan f SNormal (write_often q +s+ t) = Some ts' -> dead ts' a.
Proof.
  intros Q N L E. destruct (often_first q) as (c & s & tk & W & I & H). rewrite W in *. cbn [append] in *. destruct (H t) as (st' & r & S). 
  destruct (first_token _ _ _ _ _ _ _ _ S L E) as (ts'' & f' & -> & _). apply dead_step. now apply no_atom_step.
Qed.

(** an open bracket *)
Definition not_caret (s : string) : Prop := forall d q, s = String d q -> Ascii.eqb d "^" = false.
Lemma open_scan (neg : bool) l rest f : forallb entry_fits l = true -> not_caret rest ->
  (String.length ("[" +s+ (if neg then "^" else "") +s+ sconcat (map write_entry l) +s+ rest) <= f)%nat ->
  exists f', (String.length rest <= f')%nat /\ scan f SNormal ("[" +s+ (if neg then "^" else "") +s+ sconcat (map write_entry l) +s+ rest)
    = option_map (app (TBracket neg :: flat_map entry_tokens l)) (scan f' SBracket rest).
Proof.
  intros F R L. cbn [append] in *.
  assert (S : step SNormal "[" ((if neg then "^" else "") +s+ sconcat (map write_entry l) +s+ rest) = Some (TBracket neg, SBracket, sconcat (map write_entry l) +s+ rest)).
  { destruct neg; [reflexivity|]. cbn [append]. destruct (sconcat (map write_entry l) +s+ rest) as [|d q] eqn:E; [reflexivity|]. rewrite <- E. apply open_bracket_step.
    - intros d' q' E'. eapply entries_first; [exact F|exact R|exact E'].
    - rewrite E. discriminate. }
  cbn [String.length] in L. destruct f as [|f]; [lia|]. cbn [scan]. cbn [step] in S. rewrite S.
  destruct (scans_entries l F rest f) as (f' & L' & E); [rewrite !length_app_s in *; lia|]. exists f'. split; [exact L'|]. rewrite E. destruct (scan f' SBracket rest); reflexivity.
Qed.
Lemma open_run (neg : bool) l a : forallb entry_fits l = true -> normal a -> a_used a + 900 <= state_limit ->
  exists a' b last, compiler_run (TBracket neg :: flat_map entry_tokens l) a = Fine a' /\ in_bracket a' b last.
Proof.
  intros F [q Q] U.
  set (a0 := {| a_level := a_level a; a_outer := a_outer a; a_mode := MBracket {| b_neg := neg; b_chars := []; b_ranges := []; b_classes := []; b_others := [] |} LNone BStart; a_used := a_used a + 2 |}).
  assert (S0 : compiler_step (TBracket neg) a = Fine a0) by (unfold compiler_step; rewrite Q; apply spend_fine; lia).
  rewrite (run_step _ _ _ _ S0). destruct (entries_run l a0 _ _ F (or_intror (conj eq_refl eq_refl))) as (a1 & R1 & _ & _ & _ & b1 & last1 & A1 & _). eauto.
Qed.
Lemma dead_bracket r (neg : bool) l rest : fits r = true -> load r <= load_limit -> forallb entry_fits l = true -> not_caret rest ->
  (forall f ts' a b last, (String.length rest <= f)%nat -> scan f SBracket rest = Some ts' -> in_bracket a b last -> dead ts' a) ->
  compile (pattern r +s+ "[" +s+ (if neg then "^" else "") +s+ sconcat (map write_entry l) +s+ rest) = Malformed.
Proof.
  intros F L Fl R D. destruct (after_pattern Whole r F L) as (a & Ra & _ & Na & _ & Ua).
  destruct (prefix_scan (pattern r) (tokens Whole r) SNormal ("[" +s+ (if neg then "^" else "") +s+ sconcat (map write_entry l) +s+ rest) (scans_re r F Whole)) as (f & Lf & E).
  destruct (open_scan neg l rest f Fl R Lf) as (f' & Lf' & E'). destruct (open_run neg l a Fl Na Ua) as (a' & b & last & Ra' & B).
  apply (dead_compile _ (tokens Whole r ++ TBracket neg :: flat_map entry_tokens l) SBracket rest f' a').
  - rewrite E, E'. destruct (scan f' SBracket rest); [|reflexivity]. cbn [option_map]. rewrite app_assoc. reflexivity.
  - rewrite run_app, Ra. exact Ra'.
  - intros ts' H. eapply D; eassumption.
Qed.
Lemma char_step c a b last : in_bracket a b last -> compiler_step (TChar c) a = Fine {| a_level := a_level a; a_outer := a_outer a; a_mode := MBracket (flush last b) (LChar c) BMiddle; a_used := a_used a |}.
Proof. intros [A|[A ->]]; set_mode A; reflexivity. Qed.

Lemma lookup_unknown name : sall (has_kind Lower) name = true ->
  ~ In name ["d"; "w"; "s"; "alnum"; "alpha"; "blank"; "cntrl"; "digit"; "graph"; "lower"; "print"; "punct"; "space"; "upper"; "xdigit"] -> lookup_class name = None.
Proof.
  intros H N. assert (E : lowered name = name).
  { clear N. induction name as [|c name IH]; [reflexivity|]. cbn in *. apply andb_true_iff in H as [H1 H2]. rewrite (IH H2). f_equal. revert H1. each_char c; vm_compute; (reflexivity || discriminate). }
  unfold lookup_class. rewrite E. destruct (find (fun p => String.eqb (fst p) name) class_names) as [[n k]|] eqn:Fd; [|reflexivity].
  exfalso. apply N. apply find_some in Fd as [I Eq]. cbn in Eq. apply String.eqb_eq in Eq. subst n.
  change ["d"; "w"; "s"; "alnum"; "alpha"; "blank"; "cntrl"; "digit"; "graph"; "lower"; "print"; "punct"; "space"; "upper"; "xdigit"] with (map fst class_names). apply (in_map fst) in I. exact I.
Qed.
Lemma eat_name name : forall acc t, sall (has_kind Lower) name = true -> eat_class ":" acc (name +s+ ":]" +s+ t) = Some (acc +s+ name, t).
Proof.
  induction name as [|c name IH]; intros acc t H.
  - rewrite app_nil_s. reflexivity.
  - cbn [sall] in H. apply andb_true_iff in H as [H1 H2]. cbn [append eat_class].
    assert (C : Ascii.eqb c ":" = false) by (revert H1; each_char c; vm_compute; (reflexivity || discriminate)). rewrite C.
    rewrite (IH _ t H2). f_equal. f_equal. rewrite app_assoc_s. reflexivity.
Qed.

(** braces that stay open *)
Lemma brace_tokens t : scontains "}" t = false -> forall f ts, scan f SBrace t = Some ts -> Forall (fun k => (exists n, k = TCount n) \/ k = TComma) ts.
Proof.
  intros H f. revert t H. induction f as [|f IH]; intros t H ts E; destruct t as [|c t]; cbn [scan] in E; try (injection E as <-; constructor); try discriminate.
  cbn [scontains] in H. apply orb_false_iff in H as [H1 H2]. unfold scan_brace in E.
  destruct (is_digit c).
  - destruct (eat_digits (code c - 48) t) as [n r] eqn:D.
    assert (R : scontains "}" r = false).
    { clear - H2 D. revert D. generalize (code c - 48). revert H2. induction t as [|d t IH]; intros H2 v D; cbn in D; [injection D as _ <-; reflexivity|].
      cbn in H2. apply orb_false_iff in H2 as [Ha Hb]. destruct (is_digit d); [eapply IH; eassumption|]. injection D as _ <-. cbn. rewrite Ha. exact Hb. }
    destruct (scan f SBrace r) eqn:X; [|discriminate]. injection E as <-. constructor; [left; eauto|]. eapply IH; eassumption.
  - destruct (Ascii.eqb c ","); [|rewrite Ascii.eqb_sym in H1; rewrite H1 in E; discriminate].
    destruct (scan f SBrace t) eqn:X; [|discriminate]. injection E as <-. constructor; [right; reflexivity|]. eapply IH; eassumption.
Qed.
Definition in_braces (m : mode) : Prop := match m with MBrace | MMin _ | MComma _ | MMax _ _ => True | _ => False end.
Lemma dead_braces ts : Forall (fun k => (exists n, k = TCount n) \/ k = TComma) ts -> forall a, in_braces (a_mode a) -> dead ts a.
Proof.
  induction 1 as [|k ts K _ IH]; intros a B.
  - unfold dead. cbn. destruct (a_mode a); [destruct B|destruct B|exact Logic.I ..].
  - destruct (compiler_step k a) as [a'| |] eqn:S.
    + apply (dead_next _ _ _ _ S). apply IH. revert S. unfold compiler_step. destruct (a_mode a) eqn:Q; destruct B; destruct K as [[n' ->]| ->]; try discriminate;
      try (destruct (int_limit <? n'); [discriminate|]); intros S; injection S as <-; exact Logic.I.
    + now apply dead_step.
    + exfalso. revert S. unfold compiler_step. destruct (a_mode a) eqn:Q; destruct B; destruct K as [[n' ->]| ->]; try discriminate; destruct (int_limit <? n'); discriminate.
Qed.

Lemma hex_kind c : hex_value c = None <-> has_kind Xdigit c = false.
Proof. each_char c; vm_compute; split; (reflexivity || discriminate). Qed.
Lemma short_hex d t : sall (has_kind Xdigit) d = true -> (forall c t', t = String c t' -> has_kind Xdigit c = false) ->
  forall n v, (String.length d < n)%nat -> eat_hex n v (d +s+ t) = None.
Proof.
  intros H Nc. induction d as [|c d IH]; intros n v L; cbn in *.
  - destruct n as [|n]; [lia|]. destruct t as [|c t]; [reflexivity|]. cbn. rewrite (proj2 (hex_kind c) (Nc c t eq_refl)). reflexivity.
  - apply andb_true_iff in H as [H1 H2]. destruct n as [|n]; [lia|]. cbn. destruct (hex_value c) eqn:E; [|reflexivity]. apply IH; [exact H2|lia].
Qed.

Theorem ill_formed p : no_expression p -> forall s, regex_match p s = Malformed.
Proof.
  intros H. apply dead_match. destruct H as [r F L|r t F L|q t|r c q t F L I|r neg l F L Fl|r neg l e1 x e2 y t F L Fl B1 B2 V|r n m t F L V B|r t F L B|r F|r t F Nc|r wide d t F Hx Ln Nc|r neg l name t F L Fl Ln Nn].
  - (* unclosed group *)
    unfold compile. cbn [append].
    assert (E : scan (String.length (String "(" (pattern r))) SNormal (String "(" (pattern r)) = Some (TOpen :: tokens Whole r)).
    { cbn [String.length scan]. pose proof (open_step (pattern r)) as O. cbn [step] in O. rewrite O.
      - unfold pattern. rewrite (scan_whole _ _ (scans_re r F Whole)). reflexivity.
      - rewrite <- (app_nil_s (pattern r)). apply write_first; [exact F|]. intros q; discriminate. }
    rewrite E. unfold compiler_run; fold compiler_run. set (a0 := {| a_level := level0; a_outer := [level0]; a_mode := MNormal false; a_used := 13 |}).
    change (compiler_step TOpen compiler0) with (Fine a0 : verdict compiler). cbv iota beta.
    pose proof (load_pos r) as LP. assert (IL : load_limit + 1000 = state_limit) by reflexivity.
    destruct (re_gets r F Whole ltac:(lia) a0) as (a & R & (Q & O & U) & _); [exists false; reflexivity|change (a_used a0) with 13; cbn [slack]; lia|]. rewrite R, O. cbn. destruct (a_mode a); reflexivity.
  - (* unopened group *)
    destruct (after_pattern Whole r F L) as (a & R & _ & [q Q] & O & _). destruct (prefix_scan (pattern r) _ SNormal (")" +s+ t) (scans_re r F Whole)) as (f & Lf & E).
    eapply dead_compile; [exact E|exact R|]. intros ts' T. destruct (first_token SNormal ")" t f TClose SNormal t ts' eq_refl Lf T) as (ts'' & _ & -> & _). apply dead_step. unfold compiler_step. rewrite Q, O. reflexivity.
  - (* nothing to repeat *)
    eapply (dead_compile _ [] SNormal (write_often q +s+ t) (String.length (write_often q +s+ t)) compiler0); [apply option_map_nil|reflexivity|]. intros ts' T. eapply dead_often; [reflexivity|reflexivity| |exact T]. lia.
  - (* no atom to repeat *)
    destruct (after_pattern Whole r F L) as (a & R & _ & [q0 Q] & O & U). destruct (prefix_scan (pattern r) _ SNormal (c +s+ write_often q +s+ t) (scans_re r F Whole)) as (f & Lf & E).
    eapply dead_compile; [exact E|exact R|]. intros ts' T.
    assert (C : exists tk d l, c = str1 d /\ (forall t, step SNormal d t = Some (tk, SNormal, t)) /\ l_last l = None /\ compiler_step tk a = Fine {| a_level := l; a_outer := a_outer a; a_mode := MNormal false; a_used := a_used a + 2 |}).
    { destruct I as [<-|[<-|[<-|[]]]].
      - exists TBegin, "^"%char, (with_assertion RBegin (a_level a)). split; [reflexivity|]. split; [reflexivity|]. split; [reflexivity|]. unfold compiler_step. rewrite Q. apply spend_fine. lia.
      - exists TEnd, "$"%char, (with_assertion REnd (a_level a)). split; [reflexivity|]. split; [reflexivity|]. split; [reflexivity|]. unfold compiler_step. rewrite Q. apply spend_fine. lia.
      - exists TOr, "|"%char, (with_or (a_level a)). split; [reflexivity|]. split; [reflexivity|]. split; [reflexivity|]. unfold compiler_step. rewrite Q. apply spend_fine. lia. }
    destruct C as (tk & d & l & -> & S & N & C). cbn [str1 append] in *. destruct (first_token _ _ _ _ _ _ _ _ (S _) Lf T) as (ts'' & f' & -> & T' & ->). cbn [String.length] in Lf.
    apply (dead_next _ _ _ _ C). eapply dead_often; [reflexivity|exact N| |exact T']. lia.
  - (* unclosed bracket *)
    rewrite <- (app_nil_s (sconcat (map write_entry l))). apply dead_bracket; [exact F|exact L|exact Fl|intros d q; discriminate|]. intros f ts' a b last _ T A.
    assert (ts' = []) by (destruct f; cbn in T; congruence). subst ts'. unfold dead. cbn. destruct A as [A|[A _]]; rewrite A; exact Logic.I.
  - (* reversed range *)
    apply dead_bracket; [exact F|exact L|exact Fl| |].
    { intros d q E. eapply bracketed_first; [exact B1|exact E]. }
    intros f ts' a b last Lf T A.
    assert (SS : scans SBracket (write_char e1 x +s+ "-" +s+ write_char e2 y) ([TChar x] ++ [TDash] ++ [TChar y]) SBracket).
    { eapply scans_app; [apply scans_bracketed; exact B1|]. eapply scans_app; [apply scans_dash|apply scans_bracketed; exact B2]. }
    destruct (SS t f) as (f' & _ & E); [rewrite !app_assoc_s; exact Lf|]. rewrite !app_assoc_s in E. rewrite E in T. destruct (scan f' SBracket t) as [ts''|]; [|discriminate]. injection T as <-. cbn [app].
    apply (dead_next _ _ _ _ (char_step x a b last A)). eapply dead_next; [unfold compiler_step; cbn [a_mode bracket_step bracket_term]; reflexivity|]. apply dead_step. unfold compiler_step. cbn [a_mode bracket_step].
    unfold make_range. rewrite !value_rank. destruct (Z.ltb_spec (Z.of_nat (rank y) - 128) (Z.of_nat (rank x) - 128)); [reflexivity|lia].
  - (* reversed counts *)
    destruct (after_pattern Atom r F L) as (a & R & (Q & _ & _ & x & X & _) & _ & _ & U).
    assert (SS : scans SNormal (write Atom r +s+ write_often (Between n m)) (tokens Atom r ++ often_tokens (Between n m)) SNormal) by (eapply scans_app; [apply scans_re; exact F|apply scans_often]).
    destruct (prefix_scan _ _ SNormal t SS) as (f & _ & E). rewrite app_assoc_s in E. unfold compile. rewrite E. destruct (scan f SNormal t) as [ts'|]; [|reflexivity]. cbn [option_map]. rewrite <- app_assoc, run_app, R.
    assert (NL : N.of_nat n <= int_limit) by (unfold int_limit; lia). assert (ML : N.of_nat m <= int_limit) by (unfold int_limit; lia).
    cbn [often_tokens app]. rewrite (run_step _ _ _ _ (brace_step x a Q X ltac:(lia))), (run_step _ _ _ _ (count_step a _ _ NL)), (run_step _ _ _ _ (comma_step a _ _)), (run_step _ _ _ _ (count2_step a _ _ _ ML)). cbn [compiler_run].
    unfold compiler_step at 1. cbn [braced a_mode]. destruct (N.ltb_spec (N.of_nat m) (N.of_nat n)); [reflexivity|lia].
  - (* unclosed braces *)
    destruct (after_pattern Atom r F L) as (a & R & (Q & _ & _ & x & X & _) & _ & _ & U). destruct (prefix_scan (write Atom r) _ SNormal ("{" +s+ t) (scans_re r F Atom)) as (f & Lf & E).
    eapply dead_compile; [exact E|exact R|]. intros ts' T. destruct (first_token SNormal "{" t f TBrace SBrace t ts' eq_refl Lf T) as (ts'' & f' & -> & T' & _).
    apply (dead_next _ _ _ _ (brace_step x a Q X ltac:(lia))). eapply dead_braces; [eapply brace_tokens; eassumption|exact Logic.I].
  - (* lone backslash *)
    destruct (prefix_scan (pattern r) _ SNormal "\" (scans_re r F Whole)) as (f & Lf & E). unfold compile. rewrite E. destruct f; reflexivity.
  - (* unknown group *)
    destruct (prefix_scan (pattern r) _ SNormal ("(?" +s+ t) (scans_re r F Whole)) as (f & Lf & E). unfold compile. rewrite E. cbn [append] in *. destruct f as [|f]; [reflexivity|]. cbn [scan].
    assert (S : scan_normal "(" (String "?" t) = None).
    { destruct t as [|c t]; [reflexivity|]. specialize (Nc c t eq_refl). revert Nc. each_char c; try reflexivity; intros X; exfalso; apply X; cbn; auto. }
    rewrite S. reflexivity.
  - (* short number *)
    destruct (prefix_scan (pattern r) _ SNormal ((if wide then "\u" else "\x") +s+ d +s+ t) (scans_re r F Whole)) as (f & Lf & E). unfold compile. rewrite E.
    destruct wide; cbn [append] in *; (destruct f as [|f]; [reflexivity|]); cbn [scan].
    + change (scan_normal "\" (String "u" (d +s+ t))) with (option_map (fun p : token * string => (fst p, SNormal, snd p)) (option_map (fun p : N * string => (TChar (ascii_of_N (fst p mod 256)), snd p)) (eat_hex 4 0 (d +s+ t)))). rewrite (short_hex d t Hx Nc) by exact Ln. reflexivity.
    + change (scan_normal "\" (String "x" (d +s+ t))) with (option_map (fun p : token * string => (fst p, SNormal, snd p)) (option_map (fun p : N * string => (TChar (ascii_of_N (fst p mod 256)), snd p)) (eat_hex 2 0 (d +s+ t)))). rewrite (short_hex d t Hx Nc) by exact Ln. reflexivity.
  - (* unknown name *)
    apply dead_bracket; [exact F|exact L|exact Fl|intros d q E; injection E as <- _; reflexivity|]. intros f ts' a b last Lf T A. cbn [append] in *.
    destruct (first_token SBracket "[" (":" +s+ name +s+ ":]" +s+ t) f (TClassName name) SBracket t ts') as (ts'' & f' & -> & _ & _); [|exact Lf|exact T|].
    + cbn [step append]. unfold scan_bracket. change (Ascii.eqb "[" "-") with false. change (Ascii.eqb "[" "[") with true. change (Ascii.eqb ":" ":") with true. cbv iota. pose proof (eat_name name "" t Ln) as EN. cbn [append] in EN. rewrite EN. reflexivity.
    + apply dead_step. unfold compiler_step. destruct A as [A|[A ->]]; rewrite A; cbn [bracket_step bracket_term]; rewrite (lookup_unknown name Ln Nn); reflexivity.
Qed.
