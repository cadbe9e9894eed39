(** Every error of the scanner is justified. *)
From Verif Require Import Base StrLib Fs Values Validators FormatParse Invocation InvocationProofs InvocationEffects ValuesSpec ValuesProofs
  ScanSpec ScanProofs ScanFlags ScanOutcomes DiagnosisSpec DiagnosisOptions.
From Coq Require Import Permutation Sorted.

(** ** Counting mentions of a flag *)

Lemma count_app F l l' : count_in F (l ++ l') = count_in F l + count_in F l'.
Proof. unfold count_in. now rewrite filter_app, app_length. Qed.
Lemma count_pos F l j : In j F -> In j l -> 1 <= count_in F l.
Proof.
  intros HF Hl. unfold count_in. assert (H : In j (filter (fun i => mem_ident i F) l)) by (apply filter_In; split; [exact Hl|now apply mem_ident_In]).
  destruct (filter _ l); [destruct H|cbn; lia].
Qed.
Lemma count_zero F l : (forall j, In j F -> ~ In j l) -> count_in F l = 0.
Proof.
  intros H. unfold count_in. destruct (filter _ l) as [|j m] eqn:E; [reflexivity|]. exfalso.
  assert (Hj : In j (filter (fun i => mem_ident i F) l)) by (rewrite E; now left). apply filter_In in Hj as [Hl Hm]. apply mem_ident_In in Hm. exact (H j Hm Hl).
Qed.

(** ** Clusters *)

(** no NUL bytes, no dash inside a cluster *)
Definition clean (a : string) : Prop :=
  scontains nul a = false /\ (begins "-" a = true -> starts_with "--" a = true \/ scontains "-" (sdrop 1 a) = false).
Lemma tidy_clean a : tidy a -> clean a. Proof. now intros (_ & H). Qed.
Lemma clean_empty : clean "". Proof. split; [reflexivity|discriminate]. Qed.
Lemma tidy_empty : tidy "". Proof. split; [discriminate|apply clean_empty]. Qed.

Lemma sfind_split c s n : sfind c s = Some n -> exists p q, s = p +s+ String c q /\ erase_at n s = p +s+ q.
Proof.
  revert n; induction s as [|d s IH]; intros n H; cbn [sfind] in H; [discriminate|].
  destruct (Ascii.eqb_spec c d) as [<-|Hne].
  - injection H as <-. exists "", s. auto.
  - destruct (sfind c s) as [m|]; [|discriminate]. injection H as <-. destruct (IH m eq_refl) as (p & q & -> & E).
    exists (String d p), q. cbn [append erase_at]. now rewrite E.
Qed.
Lemma sfind_none c s : sfind c s = None -> ~ In c (chars s).
Proof.
  induction s as [|d s IH]; cbn [sfind]; [intros _ []|]. destruct (Ascii.eqb_spec c d) as [<-|Hne]; [discriminate|].
  destruct (sfind c s); [discriminate|]. intros _ [H|H]; [congruence|now apply IH].
Qed.
Lemma scontains_notIn c s : scontains c s = false <-> ~ In c (chars s).
Proof. rewrite <- scontains_In. destruct (scontains c s); split; congruence. Qed.

Lemma is_cluster_iff a : is_cluster a = true <-> exists x s, a = String "-" (String x s) /\ x <> "-"%char.
Proof.
  split.
  - destruct a as [|c [|d s]]; try discriminate. cbn. intros H. apply andb_true_iff in H as [H1 H2]. apply Ascii.eqb_eq in H1 as ->.
    apply negb_true_iff, Ascii.eqb_neq in H2. eauto.
  - intros (x & s & -> & Hx). cbn. apply Ascii.eqb_neq in Hx. now rewrite Hx.
Qed.

Lemma starts_dd s : starts_with "--" s = true <-> exists u, s = "--" +s+ u.
Proof. apply prefix_iff. Qed.
Lemma starts_dd_cons x s : x <> "-"%char -> starts_with "--" (String "-" (String x s)) = false.
Proof.
  intros H. destruct (starts_with "--" _) eqn:E; [|reflexivity]. apply starts_dd in E as [u E]. cbn in E. congruence.
Qed.

Lemma cut_char c a n : clean a -> is_cluster a = true -> c <> "-"%char -> sfind c a = Some n ->
  let a' := erase_at n a in let a2 := if String.eqb a' "-" then "" else a' in
  tidy a2 /\ Permutation (named a) (IdShort c :: named a2) /\ clustered a = named a /\ clustered a2 = named a2.
Proof.
  intros (Hn & Hd) Hc Hcd Hf. cbn zeta. apply is_cluster_iff in Hc as (x & s & -> & Hx).
  destruct (sfind_split _ _ _ Hf) as (p & q & E & E'). rewrite E'. clear E' Hf.
  assert (Hs : starts_with "--" (String "-" (String x s)) = false) by now apply starts_dd_cons.
  destruct (Hd eq_refl) as [|Hi]; [congruence|]. cbn [sdrop] in Hi.
  destruct p as [|y p]; [injection E as <- _; congruence|]. injection E as <- E. rewrite E in Hi, Hn, Hs.
  rewrite E. cbn [append].
  assert (Hi' : scontains "-" (p +s+ q) = false).
  { apply scontains_notIn. apply scontains_notIn in Hi. rewrite chars_app in *. cbn in Hi. rewrite in_app_iff in *. cbn [In] in Hi. tauto. }
  assert (Hn' : scontains nul (p +s+ q) = false).
  { apply scontains_notIn. apply scontains_notIn in Hn. cbn in Hn. fold (chars (p +s+ String c q)) in Hn. rewrite chars_app in *. cbn in Hn. rewrite in_app_iff in *. cbn [In] in Hn. tauto. }
  assert (Hperm : Permutation (named (String "-" (p +s+ String c q))) (IdShort c :: map IdShort (chars (p +s+ q)))).
  { unfold named. rewrite Hs. cbn [begins sdrop]. rewrite Ascii.eqb_refl. rewrite !chars_app. cbn [chars list_ascii_of_string]. fold (chars q).
    rewrite !map_app. cbn [map]. symmetry. apply Permutation_middle. }
  assert (Hcl : clustered (String "-" (p +s+ String c q)) = named (String "-" (p +s+ String c q))) by (unfold clustered; now rewrite Hs).
  destruct (String.eqb_spec (String "-" (p +s+ q)) "-") as [E2|E2].
  - injection E2 as E2. split; [apply tidy_empty|]. rewrite E2 in Hperm. split; [exact Hperm|auto].
  - assert (Hs2 : starts_with "--" (String "-" (p +s+ q)) = false).
    { destruct (p +s+ q) as [|z u] eqn:Eq; [congruence|]. apply starts_dd_cons. intros ->. cbn in Hi'. discriminate. }
    split; [|split; [|split; [exact Hcl|]]].
    + split; [|split].
      * intros K. injection K as K. rewrite K in Hi'. discriminate.
      * cbn. exact Hn'.
      * intros _. right. exact Hi'.
    + eapply perm_trans; [exact Hperm|]. unfold named. rewrite Hs2. cbn [begins sdrop]. rewrite Ascii.eqb_refl. apply Permutation_refl.
    + unfold clustered. now rewrite Hs2.
Qed.

Lemma short_not_named c a : is_cluster a = false \/ sfind c a = None -> ~ In (IdShort c) (named a).
Proof.
  unfold named. destruct (starts_with "--" a) eqn:Es; [intros _ [H|[]]; discriminate|]. destruct (begins "-" a) eqn:Eb; [|intros _ []].
  destruct a as [|d s]; [discriminate|]. cbn in Eb. apply Ascii.eqb_eq in Eb as <-. cbn [sdrop]. rewrite in_map_iff.
  intros H (d & E & Hd). injection E as ->. destruct H as [H|H].
  - destruct s as [|x s]; [destruct Hd|]. cbn in H. destruct (Ascii.eqb_spec x "-") as [->|Hx]; [|discriminate].
    assert (K : starts_with "--" (String "-" (String "-" s)) = true) by (apply starts_dd; now exists s). congruence.
  - apply sfind_none in H. apply H. now right.
Qed.

Lemma flag_scan_some c l l' : c <> "-"%char -> flag_scan c l = Some l' -> (forall a, In a l -> clean a) ->
  (forall P : string -> Prop, (forall a, tidy a -> P a) -> (forall a, In a l -> P a) -> forall a, In a l' -> P a) /\
  Permutation (flat_map named l) (IdShort c :: flat_map named l') /\
  Permutation (flat_map clustered l) (IdShort c :: flat_map clustered l').
Proof.
  intros Hc. revert l'; induction l as [|a l IH]; intros l' H Hcl; cbn [flag_scan] in H; [discriminate|].
  destruct (is_cluster a) eqn:Ec; [destruct (sfind c a) as [n|] eqn:Ef|].
  - injection H as <-. destruct (cut_char c a n (Hcl a (or_introl eq_refl)) Ec Hc Ef) as (T & P & C1 & C2). cbn zeta in *.
    split; [|split].
    + intros Q HQ Hl b [<-|Hb]; [now apply HQ|apply Hl; now right].
    + cbn [flat_map]. apply (Permutation_app_tail (flat_map named l)) in P. exact P.
    + cbn [flat_map]. rewrite C1, C2. apply (Permutation_app_tail (flat_map clustered l)) in P. exact P.
  - destruct (flag_scan c l) as [m|] eqn:E; [|discriminate]. injection H as <-.
    destruct (IH m eq_refl) as (A1 & A2 & A3); [intros; apply Hcl; now right|]. split; [|split].
    + intros Q HQ Hl b [<-|Hb]; [apply Hl; now left|]. eapply A1; eauto. intros b' Hb'. apply Hl. now right.
    + cbn [flat_map]. eapply perm_trans; [apply Permutation_app_head, A2|]. symmetry. apply Permutation_middle.
    + cbn [flat_map]. eapply perm_trans; [apply Permutation_app_head, A3|]. symmetry. apply Permutation_middle.
  - destruct (flag_scan c l) as [m|] eqn:E; [|discriminate]. injection H as <-.
    destruct (IH m eq_refl) as (A1 & A2 & A3); [intros; apply Hcl; now right|]. split; [|split].
    + intros Q HQ Hl b [<-|Hb]; [apply Hl; now left|]. eapply A1; eauto. intros b' Hb'. apply Hl. now right.
    + cbn [flat_map]. eapply perm_trans; [apply Permutation_app_head, A2|]. symmetry. apply Permutation_middle.
    + cbn [flat_map]. eapply perm_trans; [apply Permutation_app_head, A3|]. symmetry. apply Permutation_middle.
Qed.

Lemma flag_scan_none c l : flag_scan c l = None -> ~ In (IdShort c) (flat_map named l).
Proof.
  induction l as [|a l IH]; cbn [flag_scan flat_map]; [intros _ []|]. intros H. rewrite in_app_iff.
  destruct (is_cluster a) eqn:Ec.
  - destruct (sfind c a) eqn:Ef; [discriminate|]. destruct (flag_scan c l); [discriminate|]. intros [K|K]; [|now apply IH].
    exact (short_not_named c a (or_intror Ef) K).
  - destruct (flag_scan c l); [discriminate|]. intros [K|K]; [|now apply IH]. exact (short_not_named c a (or_introl Ec) K).
Qed.

Lemma clustered_named i l : In i (flat_map clustered l) -> In i (flat_map named l).
Proof.
  rewrite !in_flat_map. intros (a & Ha & H). exists a. split; [exact Ha|]. unfold clustered in H. destruct (starts_with "--" a); [destruct H|exact H].
Qed.
Lemma long_not_clustered s l : ~ In (IdLong s) (flat_map clustered l).
Proof.
  rewrite in_flat_map. intros (a & _ & H). unfold clustered, named in H. destruct (starts_with "--" a); [destruct H|].
  destruct (begins "-" a); [|destruct H]. apply in_map_iff in H as (c & E & _). discriminate.
Qed.

Lemma flag_scan_nul l : (forall a, In a l -> clean a) -> flag_scan nul l = None.
Proof.
  induction l as [|a l IH]; intros H; cbn [flag_scan]; [reflexivity|]. rewrite IH by (intros; apply H; now right).
  destruct (is_cluster a); [|reflexivity]. destruct (sfind nul a) as [n|] eqn:E; [|reflexivity]. exfalso.
  apply sfind_split in E as (p & q & -> & _). destruct (H _ (or_introl eq_refl)) as [Hn _]. apply scontains_notIn in Hn. apply Hn.
  rewrite chars_app. apply in_or_app. right. now left.
Qed.

(** ** Flags *)

Definition mentioned (st : pst) : list ident := flat_map named (pre st) ++ flat_map clustered (post st).
Definition inv (st : pst) : Prop := (forall a, In a (pre st) -> tidy a) /\ (forall a, In a (post st) -> clean a).

Lemma get_flag_step x c st st' : inv st -> c_short c <> "-"%char -> get_flag x c st = (st', Ret tt) ->
  inv st' /\
  ((exists j, In j (config_idents c) /\ Permutation (mentioned st) (j :: mentioned st')) \/
   (mentioned st' = mentioned st /\ forall j, In j (config_idents c) -> ~ In j (mentioned st))).
Proof.
  intros (Hpre & Hpost) Hd H. assert (Hpre' : forall a, In a (pre st) -> clean a) by (intros a Ha; apply tidy_clean; auto).
  unfold get_flag in H. apply bind_inv_p in H as (s1 & s & H1 & H). apply bind_inv_p in H as (s2 & l & H2 & H). injection H as <-.
  cbn [pre post set_vars mentioned]. change (inv (set_vars (set_var (vars s2) x (VBool (s || l || as_bool (vars s2 x)))) s2)) with (inv s2).
  change (mentioned (set_vars (set_var (vars s2) x (VBool (s || l || as_bool (vars s2 x)))) s2)) with (mentioned s2).
  unfold flag_is_set_short in H1. destruct (flag_scan (c_short c) (pre st)) as [l1|] eqn:E1.
  - injection H1 as <- <-. injection H2 as <- <-.
    assert (Hn : c_short c <> nul) by (intros E; rewrite E, flag_scan_nul in E1 by exact Hpre'; discriminate).
    destruct (flag_scan_some _ _ _ Hd E1 Hpre') as (A1 & A2 & _). split; [split; [|exact Hpost]|].
    + cbn. apply (A1 tidy); auto.
    + left. exists (IdShort (c_short c)). split; [apply config_idents_In; auto|]. unfold mentioned. cbn [pre post set_pre].
      apply (Permutation_app_tail (flat_map clustered (post st))) in A2. exact A2.
  - destruct (flag_scan (c_short c) (post st)) as [l2|] eqn:E2.
    + injection H1 as <- <-. injection H2 as <- <-.
      assert (Hn : c_short c <> nul) by (intros E; rewrite E, flag_scan_nul in E2 by exact Hpost; discriminate).
      destruct (flag_scan_some _ _ _ Hd E2 Hpost) as (A1 & _ & A3). split; [split; [exact Hpre|]|].
      * cbn. apply (A1 clean); auto using tidy_clean.
      * left. exists (IdShort (c_short c)). split; [apply config_idents_In; auto|]. unfold mentioned. cbn [pre post set_args].
        apply (Permutation_app_head (flat_map named (pre st))) in A3. eapply perm_trans; [exact A3|]. symmetry. apply Permutation_middle.
    + injection H1 as <- <-. unfold flag_is_set_long in H2.
      assert (Hs : ~ In (IdShort (c_short c)) (mentioned st)).
      { unfold mentioned. rewrite in_app_iff. intros [K|K]; [exact (flag_scan_none _ _ E1 K)|exact (flag_scan_none _ _ E2 (clustered_named _ _ K))]. }
      change (prepend_dash (IdLong (c_long c))) with ("--" +s+ c_long c) in H2.
      destruct (split_first (String.eqb ("--" +s+ c_long c)) (pre st)) as [[[b a] r]|] eqn:E3.
      * injection H2 as <- <-. apply split_first_some in E3 as (Ep & Ea & _). apply String.eqb_eq in Ea. subst a.
        assert (Hl : c_long c <> "").
        { intros E. assert (K : tidy ("--" +s+ c_long c)) by (apply Hpre; rewrite Ep; apply in_or_app; right; now left).
          destruct K as (K & _). apply K. rewrite E. reflexivity. }
        split; [split; [|exact Hpost]|].
        -- cbn. intros a Ha. apply in_app_iff in Ha as [Ha|[<-|Ha]]; [|apply tidy_empty|]; apply Hpre; rewrite Ep; apply in_or_app; [now left|right; now right].
        -- left. exists (IdLong (c_long c)). split; [apply config_idents_In; auto|]. unfold mentioned. cbn [pre post set_pre]. rewrite Ep, !flat_map_app.
           cbn [flat_map]. assert (E : named ("--" +s+ c_long c) = [IdLong (c_long c)]).
           { unfold named. assert (K : starts_with "--" ("--" +s+ c_long c) = true) by (apply starts_dd; eauto). rewrite K. reflexivity. }
           rewrite E. cbn [app named]. rewrite <- !app_assoc. cbn [app]. symmetry.
           apply (Permutation_middle (flat_map named b) (flat_map named r ++ flat_map clustered (post st)) (IdLong (c_long c))).
      * injection H2 as <- <-. split; [now split|]. right. split; [reflexivity|]. intros j Hj. apply config_idents_In in Hj as [[-> _]|[-> Hl]]; [exact Hs|].
        unfold mentioned. rewrite in_app_iff. intros [K|K]; [|exact (long_not_clustered _ _ K)].
        apply in_flat_map in K as (a & Ha & K). unfold named in K. destruct (starts_with "--" a) eqn:Es.
        -- destruct K as [K|[]]. apply starts_dd in Es as [u ->]. injection K as K.
           pose proof (split_first_none_inv _ _ E3 _ Ha) as N. apply String.eqb_neq in N. apply N. cbn. now rewrite <- K.
        -- destruct (begins "-" a); [|destruct K]. apply in_map_iff in K as (z & E & _). discriminate.
Qed.

Lemma flag_calls_count F ds : (forall c, In (IdShort c) (flat_map flag_idents ds) -> c <> "-"%char) -> forall st st', inv st ->
  mapM_ flag_call ds st = (st', Ret tt) -> inv st' /\ count_in F (mentioned st') <= count_in F (mentioned st).
Proof.
  induction ds as [|d ds IH]; intros Hd st st' Hi H; cbn [mapM_] in H; [injection H as <-; auto|].
  apply bind_inv_p in H as (s1 & [] & H1 & H).
  assert (K : inv s1 /\ count_in F (mentioned s1) <= count_in F (mentioned st)).
  { destruct d as [x t c|x c|x t c]; cbn [flag_call] in H1; try (injection H1 as <-; auto).
    destruct (get_flag_step x c st s1 Hi) as (A & B); [|exact H1|].
    - destruct (Ascii.eqb_spec (c_short c) nul) as [E|E]; [rewrite E; discriminate|]. apply Hd. cbn [flat_map flag_idents]. apply in_or_app. left.
      apply config_idents_In. auto.
    - split; [exact A|]. destruct B as [(j & _ & P)|(E & _)]; [|now rewrite E]. rewrite (count_in_perm F _ _ P).
      change (j :: mentioned s1) with ([j] ++ mentioned s1). rewrite count_app. lia. }
  destruct K as [A B]. destruct (IH (fun c Hc => Hd c (in_or_app _ _ _ (or_intror Hc))) s1 st' A H) as [C D]. split; [exact C|lia].
Qed.

Lemma flag_left_twice decls st st' j : (forall c, In (IdShort c) (flat_map flag_idents decls) -> c <> "-"%char) -> inv st ->
  mapM_ flag_call decls st = (st', Ret tt) -> In j (flat_map flag_idents decls) -> In j (mentioned st') ->
  exists d, In d decls /\ In j (flag_idents d) /\ 2 <= count_in (flag_idents d) (mentioned st).
Proof.
  intros Hd Hi H Hj Hm. apply in_flat_map in Hj as (d & Hin & Hj). exists d. split; [exact Hin|]. split; [exact Hj|].
  apply in_split in Hin as (l1 & l2 & ->). rewrite mapM_app in H. apply bind_inv_p in H as (s1 & [] & H1 & H).
  cbn [mapM_] in H. apply bind_inv_p in H as (s2 & [] & H2 & H).
  assert (Hd1 : forall c, In (IdShort c) (flat_map flag_idents l1) -> c <> "-"%char).
  { intros c Hc. apply Hd. rewrite flat_map_app. apply in_or_app. now left. }
  assert (Hd2 : forall c, In (IdShort c) (flat_map flag_idents l2) -> c <> "-"%char).
  { intros c Hc. apply Hd. rewrite flat_map_app. apply in_or_app. right. cbn [flat_map]. apply in_or_app. now right. }
  destruct (flag_calls_count (flag_idents d) l1 Hd1 st s1 Hi H1) as [I1 C1].
  destruct d as [x t c|x c|x t c]; try destruct Hj. cbn [flag_call flag_idents] in *.
  destruct (get_flag_step x c s1 s2 I1) as (I2 & B); [|exact H2|].
  { destruct (Ascii.eqb_spec (c_short c) nul) as [E|E]; [rewrite E; discriminate|]. apply Hd. rewrite flat_map_app. apply in_or_app. right.
    cbn [flat_map flag_idents]. apply in_or_app. left. apply config_idents_In. auto. }
  destruct (flag_calls_count (config_idents c) l2 Hd2 s2 st' I2 H) as [I3 C3].
  pose proof (count_pos _ _ _ Hj Hm) as Hc. destruct B as [(j' & Hj' & P)|(E & N)].
  - rewrite (count_in_perm _ _ _ P) in C1. change (j' :: mentioned s2) with ([j'] ++ mentioned s2) in C1. rewrite count_app in C1.
    pose proof (count_pos (config_idents c) [j'] j' Hj' (or_introl eq_refl)). lia.
  - rewrite E, (count_zero _ _ N) in C3. lia.
Qed.

(** ** The message about what is left *)

Lemma check_unknown_throw l k msg : check_unknown_in l = Throw (Exn k msg) -> k = KUnknownOption /\ exists a, In a l /\ unknown_text a msg.
Proof.
  induction l as [|a l IH]; [discriminate|]. cbn [check_unknown_in].
  assert (K : check_unknown_in l = Throw (Exn k msg) -> k = KUnknownOption /\ exists a0, In a0 (a :: l) /\ unknown_text a0 msg).
  { intros H. destruct (IH H) as (E & b & Hb & U). split; [exact E|]. exists b. split; [now right|exact U]. }
  destruct a as [|c s]; [exact K|]. destruct (Ascii.eqb_spec c "-") as [->|_]; [|exact K].
  destruct (String.eqb_spec (String "-" s) "-") as [_|Hne]; [exact K|]. destruct s as [|x s]; [congruence|]. clear K.
  destruct (Ascii.eqb_spec x "-") as [->|Hx]; cbn [negb andb].
  - intros [= <- <-]. split; [reflexivity|]. eexists. split; [now left|]. right. split; [|reflexivity]. left. now exists s.
  - destruct s as [|y s].
    + intros [= <- <-]. split; [reflexivity|]. eexists. split; [now left|]. right. split; [|reflexivity]. right. now exists x.
    + cbn [String.length Nat.ltb Nat.leb]. intros H.
      destruct (exists_last (l := chars (String y s))) as (cs & z & Ecs); [discriminate|].
      assert (E : String "-" (String x (String y s)) = String "-" (of_chars ((x :: cs) ++ [z]))).
      { cbn [app of_chars string_of_list_ascii]. rewrite <- Ecs. f_equal. f_equal. symmetry. apply of_chars_chars. }
      rewrite E in H. rewrite expand_exact in H by discriminate. cbn [lift_res] in H. injection H as <- <-. split; [reflexivity|].
      exists (String "-" (String x (String y s))). split; [now left|]. left. exists (x :: cs), z. split; [discriminate|]. split; [exact E|]. split; [exact Hx|].
      rewrite !app_assoc_s. reflexivity.
Qed.

Lemma Forall2_back {A} (R : A -> A -> Prop) l l' b : Forall2 R l l' -> In b l' -> exists a, In a l /\ R a b.
Proof.
  induction 1 as [|x y l l' Hxy _ IH]; [intros []|]. intros [<-|H]; [exists x; split; [now left|exact Hxy]|].
  destruct (IH H) as (a & Ha & Hr). exists a. split; [now right|exact Hr].
Qed.

(** ** Positional options *)

Section positionals.
Variable ndebug : bool.

Lemma nonempty_split l b a r : split_first nonempty l = Some (b, a, r) -> filter nonempty l = a :: filter nonempty r /\ filter nonempty b = [] /\ nonempty a = true.
Proof.
  intros H. apply split_first_some in H as (-> & Ha & Hb). rewrite filter_app. cbn [filter]. rewrite Ha.
  assert (E : filter nonempty b = []).
  { clear -Hb. induction b as [|x b IH]; [reflexivity|]. cbn [filter forallb] in *. apply andb_true_iff in Hb as [H1 H2]. apply negb_true_iff in H1. rewrite H1. auto. }
  rewrite E. auto.
Qed.
Lemma nonempty_none l : split_first nonempty l = None -> filter nonempty l = [].
Proof.
  intros H. pose proof (split_first_none_inv _ _ H) as N. clear H. induction l as [|x l IH]; [reflexivity|]. cbn [filter].
  rewrite N by now left. apply IH. intros a Ha. apply N. now right.
Qed.

Lemma pos_all_throw x t l : forall st st' e, pos_all ndebug x t l st = (st', Throw e) ->
  exists ws1 w ws2, filter nonempty l = ws1 ++ w :: ws2 /\ store_fails ndebug t ("positional option" +s+ nat_to_string (count st + List.length ws1)) w e.
Proof.
  induction l as [|a l IH]; intros st st' e H; cbn [pos_all] in H; [discriminate|]. cbn [filter]. unfold nonempty at 1. destruct (is_empty a); cbn [negb].
  - unfold bind in H. destruct (pos_all ndebug x t l st) as [s1 q] eqn:E. destruct q; try discriminate. injection H as <- <-. eapply IH; eauto.
  - unfold bind at 1 in H. destruct (pos_value ndebug x t a st) as [s1 q] eqn:E. destruct q as [[]|e1|o| | |]; try discriminate.
    + unfold bind at 1 in H. cbn [incr_count modify] in H. unfold bind at 1 in H.
      destruct (pos_all ndebug x t l (set_count (S (count s1)) s1)) as [s2 q] eqn:E2. destruct q; try discriminate. injection H as <- <-.
      apply IH in E2 as (ws1 & w & ws2 & -> & Hf). exists (a :: ws1), w, ws2. split; [reflexivity|]. cbn [count set_count List.length] in *.
      pose proof (pos_value_at ndebug x t a st) as Hat. rewrite E in Hat. cbn [fst] in Hat. destruct Hat as (_ & _ & Hc & _). rewrite Hc in Hf.
      replace (count st + S (List.length ws1)) with (S (count st) + List.length ws1) by lia. exact Hf.
    + injection H as <- <-. exists [], a, (filter nonempty l). split; [reflexivity|]. cbn [List.length]. rewrite Nat.add_0_r. unfold pos_value in E. exists x, st, s1. exact E.
Qed.

Lemma pos_all_blank x t l : forall st st' l', pos_all ndebug x t l st = (st', Ret l') -> filter nonempty l' = [].
Proof.
  induction l as [|a l IH]; intros st st' l' H; cbn [pos_all] in H; [now injection H as _ <-|]. destruct (is_empty a) eqn:Ea.
  - apply bind_inv_p in H as (s1 & m & H1 & H). injection H as _ <-. cbn [filter]. unfold nonempty at 1. rewrite Ea. eapply IH; eauto.
  - apply bind_inv_p in H as (s1 & [] & _ & H). apply bind_inv_p in H as (s2 & [] & _ & H). apply bind_inv_p in H as (s3 & m & H1 & H). injection H as _ <-.
    cbn. eapply IH; eauto.
Qed.

Lemma pos_all_at x t l : always (fun a b => pre b = pre a) (pos_all ndebug x t l).
Proof.
  assert (Ht : forall a b c : pst, pre b = pre a -> pre c = pre b -> pre c = pre a) by congruence.
  induction l as [|a l IH]; cbn [pos_all]; [intros st; reflexivity|]. destruct (is_empty a).
  - apply always_bind; [exact Ht|exact IH|intros m st; reflexivity].
  - apply always_bind; [exact Ht|intros st; apply (pos_value_at ndebug x t a st)|intros _]. apply always_bind; [exact Ht|intros st; reflexivity|intros _].
    apply always_bind; [exact Ht|exact IH|intros m st; reflexivity].
Qed.

Definition too_few_text (n : nat) : exn :=
  Exn KTooFew ("Not enough positional arguments provided (Need at least " +s+ nat_to_string n +s+ "). See -h/--help for more information.").

(** one positional option fails *)
Lemma positional_fails n x t v st st' e : get_positional_option ndebug n x t v st = (st', Throw e) ->
  (filter nonempty (pre st) = [] /\ e = too_few_text n) \/ ekind e = KValidation \/
  (exists ws1 w ws2, filter nonempty (pre st) = ws1 ++ w :: ws2 /\ (is_container t = false -> ws1 = []) /\
     store_fails ndebug t ("positional option" +s+ nat_to_string (S (count st + List.length ws1))) w e).
Proof.
  intros H. unfold get_positional_option in H. unfold bind at 1 in H. cbn [incr_count modify] in H. unfold bind at 1 in H. cbn [get] in H. cbn [pre set_count count] in H.
  destruct (split_first nonempty (pre st)) as [[[b a] r]|] eqn:Es.
  2:{ left. split; [now apply nonempty_none|]. now injection H as _ <-. }
  right. destruct (nonempty_split _ _ _ _ Es) as (Ew & Eb & Ea). unfold bind at 1 in H.
  match type of H with (match ?m with _ => _ end) = _ => destruct m as [st2 q] eqn:E end. destruct q as [[]|e1|o| | |]; try discriminate.
  - left. unfold bind, get in H. unfold run_validator in H. destruct (v (fsys st2) (vars st2 x)) as [f' [|m| |]]; try discriminate. now injection H as _ <-.
  - right. injection H as <- <-. destruct (is_container t) eqn:Et.
    + unfold bind at 1 in E. destruct ((S (count st) =? n)%nat || ndebug); cbn [ret] in E; [|discriminate]. unfold bind at 1 in E. cbn [modify] in E.
      unfold bind at 1 in E. match type of E with context [pos_all ndebug x t ?l ?s] => destruct (pos_all ndebug x t l s) as [s3 q] eqn:E3 end.
      destruct q; try discriminate. injection E as <- <-. apply pos_all_throw in E3 as (ws1 & w & ws2 & Ef & Hf).
      exists ws1, w, ws2. split; [|split; [discriminate|exact Hf]]. rewrite Ew, <- Ef. cbn [filter]. now rewrite Ea.
    + unfold bind in E. destruct (pos_value ndebug x t a (set_count (S (count st)) st)) as [s3 q] eqn:E3. destruct q; try discriminate. injection E as <- <-.
      exists [], a, (filter nonempty r). split; [exact Ew|]. split; [reflexivity|]. cbn [List.length]. rewrite Nat.add_0_r.
      unfold pos_value in E3. exists x, (set_count (S (count st)) st), s3. exact E3.
Qed.

(** one positional option succeeds *)
Lemma positional_takes n x t v st st' : get_positional_option ndebug n x t v st = (st', Ret tt) ->
  exists w, if is_container t then filter nonempty (pre st') = [] else filter nonempty (pre st) = w :: filter nonempty (pre st') /\ count st' = S (count st).
Proof.
  intros H. pose proof H as H0. unfold get_positional_option in H. unfold bind at 1 in H. cbn [incr_count modify] in H. unfold bind at 1 in H. cbn [get] in H. cbn [pre set_count count] in H.
  destruct (split_first nonempty (pre st)) as [[[b a] r]|] eqn:Es; [|discriminate]. destruct (nonempty_split _ _ _ _ Es) as (Ew & Eb & Ea).
  apply bind_inv_p in H as (st2 & [] & E & H).
  assert (Hp : pre st' = pre st2).
  { unfold bind, get in H. unfold run_validator in H. destruct (v (fsys st2) (vars st2 x)) as [f' [|m| |]]; try discriminate. now injection H as <-. }
  exists a. destruct (is_container t) eqn:Et.
  - rewrite Hp. apply bind_inv_p in E as (s3 & [] & _ & E). apply bind_inv_p in E as (s4 & [] & _ & E). apply bind_inv_p in E as (s5 & l & E & E5).
    injection E5 as <-. cbn [pre set_pre]. rewrite filter_app, Eb. eapply pos_all_blank; exact E.
  - split; [|eapply positional_count; eauto]. rewrite Hp. apply bind_inv_p in E as (s3 & [] & _ & E5). injection E5 as <-. cbn [pre set_pre]. rewrite filter_app, Eb. exact Ew.
Qed.

Lemma positionals_fail n decls : forall l1 st st' e, list_last (pos_types decls) = true -> count st = List.length (pos_types l1) ->
  n = List.length (pos_types (l1 ++ decls)) ->
  mapM_ (positional_call ndebug n) decls st = (st', Throw e) ->
  (exists k, k < List.length (pos_types decls) /\ List.length (filter nonempty (pre st)) = k /\ e = too_few_text n) \/
  ekind e = KValidation \/
  (exists m1 x t c m2 ws1 w ws2, decls = m1 ++ DPositional x t c :: m2 /\ filter nonempty (pre st) = ws1 ++ w :: ws2 /\
     (if is_container t then List.length (pos_types m1) <= List.length ws1 else List.length ws1 = List.length (pos_types m1)) /\
     store_fails ndebug t ("positional option" +s+ nat_to_string (S (count st + List.length ws1))) w e).
Proof.
  induction decls as [|d ds IH]; intros l1 st st' e Hl Hc Hn H; [discriminate|]. cbn [mapM_] in H. unfold bind in H.
  assert (Ea : l1 ++ d :: ds = (l1 ++ [d]) ++ ds) by now rewrite <- app_assoc.
  destruct d as [x t c|x c|x t c].
  1,2: (rewrite Ea in Hn; eapply IH in H; [|exact Hl| |exact Hn]; [|rewrite Hc; unfold pos_types; rewrite flat_map_app; cbn; now rewrite app_nil_r];
    destruct H as [H|[H|(m1 & x0 & t0 & c0 & m2 & ws1 & w & ws2 & -> & H1 & H2 & H3)]]; [left; exact H|right; left; exact H|right; right];
    match goal with |- context [?d :: m1 ++ _] => exists (d :: m1), x0, t0, c0, m2, ws1, w, ws2 end; auto).
  cbn [positional_call] in H. destruct (get_positional_option ndebug n x t (c_validator c) st) as [st1 q] eqn:E. destruct q as [[]|e1|o| | |]; try discriminate.
  - destruct (positional_takes _ _ _ _ _ _ E) as [w0 Hw]. destruct (is_container t) eqn:Et.
    + cbn [pos_types flat_map app] in Hl. pose proof (list_last_container _ _ Hl Et) as Hnone. rewrite positional_none in H by exact Hnone. discriminate.
    + destruct Hw as [Hw Hcount]. rewrite Ea in Hn. eapply IH in H; [|eapply list_last_tail; exact Hl| |exact Hn].
      2:{ rewrite Hcount, Hc. unfold pos_types. rewrite flat_map_app, app_length. cbn. lia. }
      cbn [pos_types flat_map app List.length]. fold (pos_types ds). rewrite Hw. cbn [List.length].
      destruct H as [(k & H1 & H2 & H3)|[H|(m1 & x0 & t0 & c0 & m2 & ws1 & w & ws2 & -> & H1 & H2 & H3)]]; [left|right; left; exact H|right; right].
      * exists (S k). repeat split; auto; lia.
      * exists (DPositional x t c :: m1), x0, t0, c0, m2, (w0 :: ws1), w, ws2. split; [reflexivity|]. split; [cbn; now rewrite H1|].
        split.
        -- unfold pos_types in *. cbn [flat_map app List.length]. destruct (is_container t0); lia.
        -- rewrite Hcount in H3. cbn [List.length]. replace (count st + S (List.length ws1)) with (S (count st) + List.length ws1) by lia. exact H3.
  - injection H as <- <-. apply positional_fails in E as [[E1 E2]|[E|(ws1 & w & ws2 & E1 & E2 & E3)]].
    + left. exists 0. rewrite E1. repeat split; auto. cbn. lia.
    + right. left. exact E.
    + right. right. exists [], x, t, c, ds, ws1, w, ws2. split; [reflexivity|]. split; [exact E1|]. split; [|exact E3].
      destruct (is_container t); [cbn; lia|]. rewrite E2 by reflexivity. reflexivity.
Qed.

Lemma positionals_take n decls : forall st st', list_last (pos_types decls) = true -> mapM_ (positional_call ndebug n) decls st = (st', Ret tt) ->
  if existsb is_container (pos_types decls) then filter nonempty (pre st') = []
  else List.length (filter nonempty (pre st)) = List.length (pos_types decls) + List.length (filter nonempty (pre st')).
Proof.
  induction decls as [|d ds IH]; intros st st' Hl H; [now injection H as <-|]. cbn [mapM_] in H. apply bind_inv_p in H as (s1 & [] & H1 & H).
  destruct d as [x t c|x c|x t c]; cbn [positional_call] in H1; try (injection H1 as <-; now apply IH).
  cbn [pos_types flat_map app existsb List.length] in *. fold (pos_types ds) in *. destruct (positional_takes _ _ _ _ _ _ H1) as [w Hw].
  destruct (is_container t) eqn:Et; cbn [orb].
  - pose proof (list_last_container _ _ Hl Et) as Hnone. rewrite positional_none in H by exact Hnone. now injection H as <-.
  - destruct Hw as [Hw _]. specialize (IH _ _ (list_last_tail _ _ Hl) H). destruct (existsb is_container (pos_types ds)); [exact IH|]. rewrite Hw. cbn. lia.
Qed.

(** ** The theorem *)

Lemma existsb_negb {A} (p : A -> bool) l : existsb p l = false -> forallb (fun a => negb (p a)) l = true.
Proof. induction l as [|a l IH]; cbn; [auto|]. intros H. apply orb_false_iff in H as [-> H]. cbn. auto. Qed.

Lemma handed_hands ids decls b i w : incl ids (flat_map option_idents decls) -> handed ids b i w -> hands decls b i w.
Proof.
  intros Hi [(H1 & H2 & H3 & H4)|[(H1 & H2)|[(p & q & H)|(p & v & q & j & H1 & H2 & H3 & ->)]]].
  - now apply hands_joined.
  - now apply hands_equals.
  - eapply hands_separate; exact H.
  - eapply hands_used; eauto.
Qed.

Lemma positionals_post n ds : always (fun a b => post b = post a) (mapM_ (positional_call ndebug n) ds).
Proof.
  assert (Ht : forall a b c : pst, post b = post a -> post c = post b -> post c = post a) by congruence.
  assert (Hall : forall x t l, always (fun a b => post b = post a) (pos_all ndebug x t l)).
  { intros x t. induction l as [|a l IH]; cbn [pos_all]; [intros st; reflexivity|]. destruct (is_empty a).
    - apply always_bind; [exact Ht|exact IH|intros m st; reflexivity].
    - apply always_bind; [exact Ht|intros st; apply (pos_value_at ndebug x t a st)|intros _]. apply always_bind; [exact Ht|intros st; reflexivity|intros _].
      apply always_bind; [exact Ht|exact IH|intros m st; reflexivity]. }
  induction ds as [|d ds IH]; cbn [mapM_]; [intros st; reflexivity|]. apply always_bind; [exact Ht| |intros _; exact IH].
  destruct d as [x t c|x c|x t c]; cbn [positional_call]; try (intros st; reflexivity). unfold get_positional_option.
  apply always_bind; [exact Ht|intros st; reflexivity|intros _]. apply always_bind; [exact Ht|intros st; reflexivity|intros s].
  destruct (split_first nonempty (pre s)) as [[[b a] r]|]; [|intros st; reflexivity]. apply always_bind; [exact Ht| |intros _].
  - destruct (is_container t).
    + apply always_bind; [exact Ht|destruct ((count s =? n)%nat || ndebug); intros st; reflexivity|intros _].
      apply always_bind; [exact Ht|intros st; reflexivity|intros _]. apply always_bind; [exact Ht|apply Hall|intros l st; reflexivity].
    + apply always_bind; [exact Ht|intros st; apply (pos_value_at ndebug x t a st)|intros _ st; reflexivity].
  - apply always_bind; [exact Ht|intros st; reflexivity|intros s']. intros st. unfold run_validator. now destruct (c_validator c (fsys st) (vars st x)) as [f' [|m| |]].
Qed.

Lemma front_throw decls b r vs f st' e : wf_decls decls = true -> cut (b ++ r) b r ->
  (forall x t c, In (DOption x t c) decls -> config_idents c <> []) ->
  front ndebug decls {| pre := b; post := r; vars := vs; count := 0; fsys := f |} = (st', Throw e) ->
  (exists l1 x t c l2, decls = l1 ++ DOption x t c :: l2 /\ bad_option ndebug l1 b t c e) \/
  (exists msg, e = Exn KUnknownOption msg /\ unknown_left decls b r msg).
Proof.
  intros Hwf Hcut Hopt H. unfold front in H. unfold bind at 1 in H.
  destruct (mapM_ (option_call ndebug) decls {| pre := b; post := r; vars := vs; count := 0; fsys := f |}) as [st1 q] eqn:E1.
  destruct q as [[]|e1|o| | |]; try discriminate.
  2:{ injection H as <- <-. left. apply (options_throw ndebug decls [] b) in E1; [exact E1|exact Hopt|apply taken_refl]. }
  right. unfold bind in H. pose proof (flag_calls_ret decls st1) as Fr. destruct (mapM_ flag_call decls st1) as [st2 q] eqn:E2. cbn [snd] in Fr. subst q.
  unfold check_for_unknown_ids in H. injection H as <- H. destruct e as [k msg]. apply check_unknown_throw in H as (-> & a' & Ha' & U).
  exists msg. split; [reflexivity|]. pose proof (option_calls_rel ndebug decls {| pre := b; post := r; vars := vs; count := 0; fsys := f |}) as (_ & A2 & _).
  rewrite E1 in A2. cbn [fst post] in A2. apply options_ret in E1 as (T & C). cbn [pre] in T.
  pose proof (flag_calls_rel decls st1) as (B1 & _). rewrite E2 in B1. cbn [fst] in B1.
  destruct (Forall2_back _ _ _ _ B1 Ha') as (a & Ha & W). exists (pre st1), a, a'.
  split; [eapply taken_eaten; exact T|]. split; [intros i w Hi Hw; now apply C|]. split; [exact Ha|]. split; [exact W|]. split; [exact U|].
  intros Htidy j Hj. destruct (mem_ident j (flat_map flag_idents decls)) eqn:Ej; [right|left; intros K; apply mem_ident_In in K; congruence].
  apply mem_ident_In in Ej. destruct (flag_left_twice decls st1 st2 j) as (d & D1 & D2 & D3); auto.
  - now apply good_flags_nodash.
  - split; [intros w Hw; apply Htidy, in_or_app; now left|]. rewrite A2. intros w Hw. destruct r as [|r0 r]; [destruct Hw|]. destruct Hw as [<-|Hw].
    + destruct Hcut as (_ & _ & [Hr|[q Hr]]); [discriminate|]. injection Hr as -> _. split; [reflexivity|]. intros _. left. reflexivity.
    + apply tidy_clean, Htidy, in_or_app. now right.
  - unfold mentioned. apply in_or_app. left. apply in_flat_map. eauto.
  - exists d. split; [exact D1|]. split; [exact D2|]. unfold mentioned in D3. rewrite A2 in D3. destruct Hcut as (_ & _ & [Hr|[q Hr]]); subst r; exact D3.
Qed.

Lemma justified_lemma decls args vs f st' k msg : wf_decls decls = true ->
  (forall x t c, In (DOption x t c) decls -> config_idents c <> [] /\ enum_ok (elem_ty t)) ->
  (forall x t c, In (DPositional x t c) decls -> enum_ok (elem_ty t)) ->
  parse_args ndebug decls args vs f = (st', Throw (Exn k msg)) -> justified decls args (vars st') (fsys st') k msg.
Proof.
  intros Hwf Hopt Hpos H.
  assert (Hl : list_last (pos_types decls) = true) by (unfold wf_decls in Hwf; now apply andb_true_iff in Hwf as [_ Hwf]).
  destruct (cut_exists args) as (b & r & Hcut). exists b, r. split; [exact Hcut|].
  assert (V : k = KValidation -> blamed decls (vars st') (fsys st') msg).
  { intros ->. now apply (validation_message ndebug decls args vs f). }
  revert H. unfold parse_args, init_pst. rewrite (cut_split _ _ _ Hcut), parse_front. cbn [fst snd]. intros H.
  assert (Ecut : args = b ++ r) by apply Hcut.
  unfold bind at 1 in H. destruct (front ndebug decls {| pre := b; post := r; vars := vs; count := 0; fsys := f |}) as [st1 q] eqn:E.
  destruct q as [[]|e|o| | |]; try discriminate.
  - assert (Hacc : accounted decls args (filter nonempty (pre st1 ++ List.tl (post st1))) /\ count st1 = 0).
    { apply front_ret in E as (b1 & E1 & E2 & E3 & Ec & E4). cbn [pre post count] in *. split; [|exact Ec].
      exists b, r, b1, (pre st1), (post st1). repeat split; auto; try apply Hcut. apply filter_ext. apply nonempty_eqb. }
    destruct Hacc as [Hacc Hcount]. unfold bind at 1 in H. cbn [drop_end_of_options modify] in H.
    set (st2 := set_args (pre st1 ++ match post st1 with [] => [] | _ :: p => "" :: p end) [] st1) in H.
    assert (Hw : filter nonempty (pre st2) = filter nonempty (pre st1 ++ List.tl (post st1))).
    { unfold st2. cbn [pre set_args]. rewrite !filter_app. f_equal. now destruct (post st1). }
    rewrite is_positional_types in H. unfold bind in H.
    destruct (mapM_ (positional_call ndebug (List.length (pos_types decls))) decls st2) as [st3 q] eqn:E3. destruct q as [[]|e|o| | |]; try discriminate.
    + unfold check_for_left_over_args in H. destruct (existsb nonempty (pre st3 ++ post st3)) eqn:Ex; [|discriminate]. injection H as <- <- <-.
      pose proof (positionals_post (List.length (pos_types decls)) decls st2) as Hp. rewrite E3 in Hp. cbn [fst] in Hp. rewrite Hp in Ex. cbn [post st2 set_args] in Ex. rewrite app_nil_r in Ex.
      apply positionals_take in E3; [|exact Hl]. apply existsb_exists in Ex as (w & Hin & Hne).
      assert (Hpre : filter nonempty (pre st3) <> []).
      { intros K. assert (In w (filter nonempty (pre st3))) by (apply filter_In; auto). rewrite K in *. contradiction. }
      destruct (existsb is_container (pos_types decls)) eqn:Ec; [contradiction|]. rewrite Hw in E3.
      eexists. split; [exact Hacc|]. split; [|split; [now apply existsb_negb|reflexivity]].
      destruct (filter nonempty (pre st3)); [contradiction|]. cbn [List.length] in E3. lia.
    + injection H as <- ->. apply (positionals_fail _ decls []) in E3; [|exact Hl|exact Hcount|reflexivity]. rewrite Hw in E3.
      destruct E3 as [(n & H1 & H2 & H3)|[H3|(m1 & x & t & c & m2 & ws1 & w & ws2 & H1 & H2 & H3 & H4)]].
      * injection H3 as -> ->. right. eexists. split; [exact Hacc|]. split; [lia|reflexivity].
      * cbn in H3. subst k. now apply V.
      * destruct (store_fails_refuses ndebug t _ w _ (Hpos x t c ltac:(rewrite H1; apply in_or_app; right; now left)) H4) as (msg' & Em & Hr).
        injection Em as -> ->. right. exists m1, x, t, c, m2, ws1, w, ws2. split; [exact H1|]. rewrite H2 in Hacc. split; [exact Hacc|]. split; [exact H3|].
        unfold st2 in Hr. cbn [count set_args] in Hr. rewrite Hcount in Hr. exact Hr.
  - injection H as <- ->. apply front_throw in E; [|exact Hwf|now rewrite <- Ecut|intros; eapply Hopt; eauto].
    destruct E as [(l1 & x & t & c & l2 & Ed & Hb)|(msg' & Em & U)].
    2:{ injection Em as -> ->. exact U. }
    assert (Hin : In (DOption x t c) decls) by (rewrite Ed; apply in_or_app; right; now left).
    destruct Hb as [(i & Hi & [(Hlack & Em)|(w & Hh & Hs)])|[(Hc & Hm)|[(Hr & Hn & Em)|Hk]]].
    + injection Em as -> ->. left. exists x, t, c, i. auto.
    + destruct (store_fails_refuses ndebug t _ w _ (proj2 (Hopt x t c Hin)) Hs) as (msg' & Em & Hr). injection Em as -> ->.
      left. exists x, t, c, i, w. split; [exact Hin|]. split; [exact Hi|]. split; [|exact Hr]. eapply handed_hands; [|exact Hh].
      rewrite Ed, flat_map_app. cbn [flat_map option_idents]. apply incl_app; [apply incl_appl, incl_refl|apply incl_appr, incl_appl, incl_refl].
    + destruct Hm as [(i & Hi & Ht & Em)|(i & j & Hi & Ht & Em)]; injection Em as -> ->; exists x, t, c; (split; [exact Hin|split; [exact Hc|]]); [left; eauto|right; eauto 6].
    + injection Em as -> ->. exists l1, x, t, c, l2. auto.
    + cbn in Hk. subst k. now apply V.
Qed.
End positionals.

(** ** Counting words *)

Lemma cut_unique args b r b' r' : cut args b r -> cut args b' r' -> b = b' /\ r = r'.
Proof. intros H H'. apply cut_split in H, H'. rewrite H in H'. now injection H' as -> ->. Qed.

Lemma flag_step_dash bf ids a b : (forall c, In (IdShort c) ids -> c <> "-"%char) -> flag_step bf ids a b ->
  begins "-" a = true /\ a <> "-" /\ (b = "" \/ (begins "-" b = true /\ b <> "-")).
Proof.
  intros Hids H. destruct H as [s _ _|c p q Hc Hb Hd Hpq|c p q Hc Hb Hd Hpq].
  - split; [reflexivity|]. split; [discriminate|now left].
  - assert (Hcd : c <> "-"%char) by (destruct Hc as [Hc|Hc]; [now apply Hids|intros ->; discriminate Hc]).
    destruct (begins_app_cons p c q Hb Hcd) as [p' ->]. split; [exact Hb|]. split; [cbn; destruct p'; discriminate|]. right. split; [reflexivity|exact Hpq].
  - assert (Hcd : c <> "-"%char) by (destruct Hc as [Hc|Hc]; [now apply Hids|intros ->; discriminate Hc]).
    destruct (begins_app_cons p c q Hb Hcd) as [p' ->]. split; [exact Hb|]. split; [cbn; destruct p'; discriminate|now left].
Qed.
Lemma worn_empty bf ids b : (forall c, In (IdShort c) ids -> c <> "-"%char) -> worn bf ids "" b -> b = "".
Proof. intros Hids H. inversion H as [|? c ? Hs]; subst; [reflexivity|]. apply flag_step_dash in Hs as (H1 & _); [discriminate|exact Hids]. Qed.
Lemma worn_plain bf ids a b : (forall c, In (IdShort c) ids -> c <> "-"%char) -> worn bf ids a b -> a = "-" \/ begins "-" a = false -> b = a.
Proof.
  intros Hids H Ha. inversion H as [|? c ? Hs]; subst; [reflexivity|]. apply flag_step_dash in Hs as (H1 & H2 & _); [|exact Hids]. destruct Ha; [contradiction|congruence].
Qed.
Lemma worn_dash bf ids a b : (forall c, In (IdShort c) ids -> c <> "-"%char) -> worn bf ids a b ->
  begins "-" a = true -> a <> "-" -> b = "" \/ (begins "-" b = true /\ b <> "-").
Proof.
  intros Hids. induction 1 as [|a b c Hs Hw IH]; [auto|]. intros _ _. apply flag_step_dash in Hs as (_ & _ & [->|[H1 H2]]); [|auto|exact Hids].
  left. eapply worn_empty; eauto.
Qed.
Lemma worn_behind ids a b : (forall c, In (IdShort c) ids -> c <> "-"%char) -> worn false ids a b -> starts_with "--" a = true -> b = a.
Proof. intros Hids H Ha. inversion H as [|? c ? Hs]; subst; [reflexivity|]. inversion Hs; subst; [discriminate|congruence|congruence]. Qed.

Lemma dashed_two i a : (forall s, i = IdLong s -> s <> "") -> looks_like i a = true -> begins "-" a = true /\ a <> "-".
Proof.
  intros Hi H. destruct (looks_like_prefix _ _ H) as (u & -> & _). destruct i as [c|s]; cbn; (split; [reflexivity|discriminate]).
Qed.

Lemma eaten_upper ids p l l1 : eaten ids p l l1 -> forall fl l2, (forall c, In (IdShort c) fl -> c <> "-"%char) -> Forall2 (worn true fl) l1 l2 ->
  (forall a, In a l2 -> a = "" \/ plain_word a) -> List.length (filter nonempty l2) <= List.length (possible_words l).
Proof.
  induction 1 as [p|p a a' l l' Ha He IH]; intros fl l2 Hfl H2 Hp; inversion H2 as [|? b ? l2' Hw H2']; subst; [cbn; lia|].
  specialize (IH fl l2' Hfl H2' (fun z Hz => Hp z (or_intror Hz))). unfold possible_words in *. cbn [filter].
  assert (K : nonempty b = true -> negb (is_empty a) && (String.eqb a "-" || negb (begins "-" a)) = true).
  { intros Hb. destruct (Hp b (or_introl eq_refl)) as [->|(_ & Hpl)]; [discriminate|]. destruct Ha as [->|[-> _]].
    2:{ apply worn_empty in Hw; [subst b; discriminate|exact Hfl]. }
    destruct (begins "-" a) eqn:Eb; [destruct (String.eqb_spec a "-") as [->|Hd]; [reflexivity|]|].
    - destruct (worn_dash _ _ _ _ Hfl Hw Eb Hd) as [->|[H1 H3]]; [discriminate|]. destruct Hpl; [contradiction|congruence].
    - rewrite orb_true_r, andb_true_r. apply worn_plain in Hw; [|exact Hfl|now right]. subst b. exact Hb. }
  destruct (nonempty b); [rewrite K by reflexivity; cbn [List.length]; lia|]. destruct (negb (is_empty a) && _); cbn [List.length]; lia.
Qed.

Lemma eaten_lower ids p l l1 : (forall i a, In i ids -> looks_like i a = true -> begins "-" a = true /\ a <> "-") ->
  eaten ids p l l1 -> forall fl l2, (forall c, In (IdShort c) fl -> c <> "-"%char) -> Forall2 (worn true fl) l1 l2 ->
  List.length (sure_words ids p l) <= List.length (filter nonempty l2).
Proof.
  intros Hids. induction 1 as [p|p a a' l l' Ha He IH]; intros fl l2 Hfl H2; inversion H2 as [|? b ? l2' Hw H2']; subst; [cbn; lia|].
  specialize (IH fl l2' Hfl H2'). cbn [sure_words filter]. rewrite app_length.
  destruct (negb (is_empty a) && (String.eqb a "-" || negb (begins "-" a)) && negb (existsb (fun i => String.eqb p (dashed i)) ids)) eqn:E;
    [|destruct (nonempty b); cbn [List.length]; lia].
  apply andb_true_iff in E as [E E3]. apply andb_true_iff in E as [E1 E2]. apply negb_true_iff in E3.
  assert (Hpl : a = "-" \/ begins "-" a = false).
  { apply orb_true_iff in E2 as [E2|E2]; [left; now apply String.eqb_eq|right; now apply negb_true_iff]. }
  assert (Ea : a' = a).
  { destruct Ha as [->|(_ & i & Hi & [Hl|Hp])]; [reflexivity| |].
    - destruct (Hids i a Hi Hl) as [H1 H3]. destruct Hpl; [contradiction|congruence].
    - exfalso. assert (K : existsb (fun i => String.eqb p (dashed i)) ids = true) by (apply existsb_exists; exists i; split; [exact Hi|now apply String.eqb_eq]). congruence. }
  subst a'. apply worn_plain in Hw; [|exact Hfl|exact Hpl]. subst b. unfold nonempty at 1. rewrite E1. cbn [List.length]. lia.
Qed.

Lemma tail_bounds fl l l2 : (forall c, In (IdShort c) fl -> c <> "-"%char) -> Forall2 (worn false fl) l l2 ->
  List.length (sure_tail l) <= List.length (filter nonempty l2) <= List.length (filter nonempty l).
Proof.
  intros Hfl. induction 1 as [|a b l l2 Hw _ IH]; [cbn; lia|]. unfold sure_tail in *. cbn [filter].
  assert (H1 : negb (is_empty a) && (negb (begins "-" a) || String.eqb a "-" || starts_with "--" a) = true -> nonempty b = true).
  { intros H. apply andb_true_iff in H as [H1 H]. apply orb_true_iff in H as [H|H]; [apply orb_true_iff in H as [H|H]|].
    - apply negb_true_iff in H. apply worn_plain in Hw; [subst b; exact H1|exact Hfl|now right].
    - apply String.eqb_eq in H. apply worn_plain in Hw; [subst b; exact H1|exact Hfl|now left].
    - apply worn_behind in Hw; [subst b; exact H1|exact Hfl|exact H]. }
  assert (H2 : nonempty b = true -> nonempty a = true).
  { intros H. destruct a; [|reflexivity]. apply worn_empty in Hw; [subst b; discriminate|exact Hfl]. }
  destruct (negb (is_empty a) && _); [rewrite H1, H2 by auto; cbn [List.length]; lia|]. destruct (nonempty b); [rewrite H2 by auto|]; destruct (nonempty a); cbn [List.length]; lia.
Qed.

Lemma accounted_bounds decls args b r ws : wf_decls decls = true -> cut args b r -> accounted decls args ws ->
  List.length (sure_words (flat_map option_idents decls) "" b) + List.length (sure_tail (List.tl r)) <= List.length ws /\
  List.length ws <= List.length (possible_words b) + List.length (filter nonempty (List.tl r)).
Proof.
  intros Hwf Hc (b' & r' & b1 & b2 & r1 & Hc' & He & Hw & Hw' & Hp & ->). destruct (cut_unique _ _ _ _ _ Hc' Hc) as [-> ->].
  pose proof (good_flags_nodash decls Hwf) as Hfl.
  assert (E : filter (fun a => negb (String.eqb a "")) (b2 ++ List.tl r1) = filter nonempty b2 ++ filter nonempty (List.tl r1)).
  { rewrite filter_app. f_equal; apply filter_ext; intros a; symmetry; apply nonempty_eqb. }
  rewrite E, app_length.
  pose proof (eaten_upper _ _ _ _ He _ _ Hfl Hw Hp) as U.
  assert (L : List.length (sure_words (flat_map option_idents decls) "" b) <= List.length (filter nonempty b2)).
  { eapply eaten_lower; [|exact He|exact Hfl|exact Hw]. intros i a Hi Hl. eapply dashed_two; [|exact Hl]. intros s -> ->.
    apply in_flat_map in Hi as (d & _ & Hi). destruct d as [x t c|x c|x t c]; cbn [option_idents] in Hi; try destruct Hi.
    apply config_idents_In in Hi as [[Hi _]|[Hi Hne]]; [discriminate|]. injection Hi as Hi. congruence. }
  assert (T : List.length (sure_tail (List.tl r)) <= List.length (filter nonempty (List.tl r1)) <= List.length (filter nonempty (List.tl r))).
  { apply (tail_bounds (flat_map flag_idents decls)); [exact Hfl|]. inversion Hw'; subst; [constructor|assumption]. }
  lia.
Qed.

Lemma too_many_lemma ndebug decls args b r vs f msg : wf_decls decls = true -> cut args b r ->
  (forall x t c, In (DOption x t c) decls -> config_idents c <> [] /\ enum_ok (elem_ty t)) ->
  (forall x t c, In (DPositional x t c) decls -> enum_ok (elem_ty t)) ->
  snd (parse_args ndebug decls args vs f) = Throw (Exn KTooMany msg) ->
  List.length (pos_types decls) < List.length (possible_words b) + List.length (filter (fun a => negb (is_empty a)) (List.tl r)) /\
  forallb (fun t => negb (is_container t)) (pos_types decls) = true.
Proof.
  intros Hwf Hc Ho Hp H. destruct (parse_args ndebug decls args vs f) as [st' q] eqn:E. cbn [snd] in H. subst q.
  apply justified_lemma in E; auto. destruct E as (b' & r' & _ & ws & Ha & Hl & Hn & _).
  destruct (accounted_bounds _ _ _ _ _ Hwf Hc Ha) as [_ U]. split; [|exact Hn]. unfold nonempty in U. lia.
Qed.

Lemma too_few_lemma ndebug decls args b r vs f msg : wf_decls decls = true -> cut args b r ->
  (forall x t c, In (DOption x t c) decls -> config_idents c <> [] /\ enum_ok (elem_ty t)) ->
  (forall x t c, In (DPositional x t c) decls -> enum_ok (elem_ty t)) ->
  snd (parse_args ndebug decls args vs f) = Throw (Exn KTooFew msg) ->
  (exists i, In i (flat_map option_idents decls) /\ lacks_value i b /\ msg = "Missing value for option " +s+ dashed i) \/
  List.length (sure_words (flat_map option_idents decls) "" b) + List.length (sure_tail (List.tl r)) < List.length (pos_types decls).
Proof.
  intros Hwf Hc Ho Hp H. destruct (parse_args ndebug decls args vs f) as [st' q] eqn:E. cbn [snd] in H. subst q.
  apply justified_lemma in E; auto. destruct E as (b' & r' & Hc' & [(x & t & c & i & Hin & Hi & Hl & ->)|(ws & Ha & Hl & _)]).
  - left. exists i. destruct (cut_unique _ _ _ _ _ Hc' Hc) as [-> ->]. split; [|auto]. apply in_flat_map. eexists. split; [exact Hin|exact Hi].
  - right. destruct (accounted_bounds _ _ _ _ _ Hwf Hc Ha) as [L _]. lia.
Qed.

Lemma success_count ndebug decls args b r vs f : wf_decls decls = true -> cut args b r ->
  snd (parse_args ndebug decls args vs f) = Ret tt ->
  List.length (pos_types decls) <= List.length (possible_words b) + List.length (filter (fun a => negb (is_empty a)) (List.tl r)) /\
  (forallb (fun t => negb (is_container t)) (pos_types decls) = true ->
     List.length (sure_words (flat_map option_idents decls) "" b) + List.length (sure_tail (List.tl r)) <= List.length (pos_types decls)).
Proof.
  intros Hwf Hc H.
  assert (Hl : list_last (pos_types decls) = true) by (unfold wf_decls in Hwf; now apply andb_true_iff in Hwf as [_ Hwf']).
  destruct (accounted_lemma ndebug _ _ _ _ Hl H) as (ws & Ha & H1 & H2). destruct (accounted_bounds _ _ _ _ _ Hwf Hc Ha) as [L U]. unfold nonempty in U.
  split; [lia|]. intros Hn. specialize (H2 Hn). lia.
Qed.
