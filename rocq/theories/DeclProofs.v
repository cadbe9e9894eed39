(** Proofs about the declaration phase. *)
From Verif Require Import Base StrLib Fs Values Validators FormatParse Invocation ScanSpec Parser ParserSpec ParserProofs DeclSpec.

(** ** Names *)

Lemma sall_in f s c : sall f s = true -> In c (chars s) -> f c = true.
Proof. rewrite sall_forallb, forallb_forall. auto. Qed.
Lemma sall_false f s : sall f s = false -> exists c, In c (chars s) /\ f c = false.
Proof.
  rewrite sall_forallb. induction (chars s) as [|a l IH]; [discriminate|]. cbn. intros H. apply andb_false_iff in H as [H|H]; [eauto|].
  destruct (IH H) as (c & H1 & H2). eauto.
Qed.

Lemma in_eqb c l : In c l <-> existsb (Ascii.eqb c) l = true.
Proof.
  rewrite existsb_exists. split.
  - intros H. exists c. split; [exact H|apply Ascii.eqb_refl].
  - intros (x & H & E). apply Ascii.eqb_eq in E. now subst.
Qed.

Lemma short_ok_iff c : short_ok c <-> Ascii.eqb c "-" || negb (is_valid c) = false.
Proof.
  unfold short_ok. rewrite in_eqb.
  assert (E : existsb (Ascii.eqb c) name_chars = negb (Ascii.eqb c "-" || negb (is_valid c))).
  { destruct c as [[] [] [] [] [] [] [] []]; vm_compute; reflexivity. }
  rewrite E. destruct (Ascii.eqb c "-" || negb (is_valid c)); cbn; intuition discriminate.
Qed.

Lemma valid_iff c : is_valid c = true <-> c = "-"%char \/ In c name_chars.
Proof.
  rewrite in_eqb. assert (E : is_valid c = Ascii.eqb c "-" || existsb (Ascii.eqb c) name_chars).
  { destruct c as [[] [] [] [] [] [] [] []]; vm_compute; reflexivity. }
  rewrite E, orb_true_iff, Ascii.eqb_eq. tauto.
Qed.

Lemma nul_not_ok : ~ short_ok nul.
Proof. rewrite short_ok_iff. vm_compute. discriminate. Qed.

(** the names a declaration takes out of use *)
Definition claims (h : list call) (k : config) (n : string) : Prop :=
  (c_short k <> nul /\ short_ok (c_short k) /\ n = str1 (c_short k)) \/
  ((c_short k = nul \/ (short_ok (c_short k) /\ ~ taken h (str1 (c_short k)))) /\ long_ok (c_long k) /\ n = c_long k).

Lemma taken_cons c h n : taken (c :: h) n <-> taken h n \/ (~ In CParse h /\ exists k, named c = Some k /\ claims h k n).
Proof. reflexivity. Qed.

Lemma taken_nonempty h : ~ taken h "".
Proof.
  induction h as [|c h IH]; [cbn; intros H; decompose [or] H; discriminate || contradiction|].
  rewrite taken_cons. intros [H|(_ & k & _ & [(_ & _ & H)|(_ & (L & _) & H)])]; [auto|discriminate H|]. rewrite <- H in L. cbn in L. lia.
Qed.

(** ** Objections *)

Definition answer (m : option string) : res unit := match m with None => Ret tt | Some t => Throw (Exn KDesign t) end.

Lemma first_of_app l1 l2 m : first_of (l1 ++ l2) m <-> (first_of l1 None /\ first_of l2 m) \/ (exists t, m = Some t /\ first_of l1 (Some t)).
Proof.
  induction l1 as [|[P t] l IH]; cbn [app first_of].
  - split; [left; auto|]. intros [[_ H]|(t & _ & H)]; [exact H|discriminate H].
  - rewrite IH. split.
    + intros [[H ->]|[H [[H1 H2]|(t' & -> & H')]]].
      * right. exists t. auto.
      * left. split; [right; auto|exact H2].
      * right. exists t'. split; [reflexivity|]. right. auto.
    + intros [[[[_ H]|[H1 H2]] H3]|(t' & -> & [[H1 H2]|[H1 H2]])]; [discriminate H|right; split; [auto|left; auto]| |].
      * left. auto.
      * right. split; [auto|]. right. eauto.
Qed.

Lemma first_of_unique l : forall m m', first_of l m -> first_of l m' -> m = m'.
Proof.
  induction l as [|[P t] l IH]; cbn [first_of]; intros m m'; [congruence|].
  intros [[H1 H2]|[H1 H2]] [[H3 H4]|[H3 H4]]; try contradiction; [congruence|]. now apply IH.
Qed.

Lemma first_of_none l : first_of l None <-> forall P t, In (P, t) l -> ~ P.
Proof.
  induction l as [|[P t] l IH]; cbn [first_of].
  - split; [intros _ P t []|reflexivity].
  - rewrite IH. split.
    + intros [[_ H]|[H1 H2]]; [discriminate H|]. intros Q u [[= <- <-]|H]; [exact H1|now apply (H2 Q u)].
    + intros H. right. split; [apply (H P t); now left|]. intros Q u Hu. apply (H Q u). now right.
Qed.

(** ** verify_identifiers *)

Section names.
Variables (h : list call) (k : config) (p : parser).
Hypothesis U : forall n, In n (used_ids p) <-> taken h n.

Notation s := (c_short k).
Notation l := (c_long k).

Lemma set_used_same : set_used_ids (used_ids p) p = p.
Proof. now destruct p. Qed.

Lemma short_exact : exists m, first_of (firstn 2 (skipn 1 (name_objections h k))) m /\
  (m <> None -> verify_short s p = (p, answer m)) /\
  (m = None -> (s = nul /\ verify_short s p = (p, Ret tt)) \/
     (s <> nul /\ short_ok s /\ ~ taken h (str1 s) /\ verify_short s p = (set_used_ids (str1 s :: used_ids p) p, Ret tt))) /\
  (m <> None -> (s <> nul /\ short_ok s /\ taken h (str1 s)) \/ (s <> nul /\ ~ short_ok s)).
Proof.
  unfold verify_short. cbn [firstn skipn name_objections first_of].
  destruct (Ascii.eqb_spec s nul) as [E|E].
  { exists None. split; [right; split; [intros [H _]; contradiction|right; split; [intros [H _]; contradiction|reflexivity]]|].
    split; [congruence|]. split; [intros _; left; auto|congruence]. }
  destruct (Ascii.eqb s "-" || negb (is_valid s)) eqn:V.
  { assert (N : ~ short_ok s) by (rewrite short_ok_iff; congruence).
    eexists. split; [left; split; [split; [exact E|exact N]|reflexivity]|]. split; [reflexivity|]. split; [discriminate|auto]. }
  pose proof (proj2 (short_ok_iff s) V) as O.
  unfold bind, id_exists. cbn [is_empty_id]. destruct (Ascii.eqb_spec s nul) as [|_]; [contradiction|].
  destruct (mem (str1 s) (used_ids p)) eqn:Mm.
  - apply mem_spec, U in Mm. eexists. split; [right; split; [tauto|left; split; [split; [exact E|exact Mm]|reflexivity]]|].
    split; [reflexivity|]. split; [discriminate|]. left. auto.
  - apply mem_false in Mm. rewrite U in Mm. exists None. split; [right; split; [tauto|right; split; [tauto|reflexivity]]|].
    split; [congruence|]. split; [|congruence]. intros _. right. auto.
Qed.

Lemma long_exact q : (forall n, In n (used_ids q) <-> In n (used_ids p) \/ (s <> nul /\ n = str1 s)) ->
  exists m, first_of (skipn 3 (name_objections h k)) m /\
  (m <> None -> verify_long l q = (q, answer m)) /\
  (m = None -> (l = "" /\ verify_long l q = (q, Ret tt)) \/
     (long_ok l /\ ~ taken h l /\ verify_long l q = (set_used_ids (l :: used_ids q) q, Ret tt))) /\
  (m <> None -> long_ok l -> taken h l).
Proof.
  intros Uq. unfold verify_long. cbn [skipn name_objections first_of].
  destruct (is_empty l) eqn:E.
  { apply is_empty_iff in E. rewrite E. exists None. split; [|split; [congruence|split; [intros _; left; auto|congruence]]].
    right. split; [cbn; discriminate|]. right. split; [cbn; discriminate|]. right. split; [intros (c & [] & _)|]. right. split; [apply taken_nonempty|reflexivity]. }
  apply is_empty_false in E.
  destruct (String.length l =? 1)%nat eqn:E1.
  { apply Nat.eqb_eq in E1. eexists. split; [left; split; [exact E1|reflexivity]|]. split; [reflexivity|]. split; [discriminate|].
    intros _ (L & _). lia. }
  apply Nat.eqb_neq in E1.
  assert (B : match snth 0 l with Some c => Ascii.eqb c "-" | None => false end = begins "-" l).
  { destruct l as [|c l']; [reflexivity|]. cbn. apply Ascii.eqb_sym. }
  rewrite B. destruct (begins "-" l) eqn:E2.
  { eexists. split; [right; split; [exact E1|left; split; reflexivity]|]. split; [reflexivity|]. split; [discriminate|].
    intros _ (_ & L & _). congruence. }
  destruct (sall is_valid l) eqn:E3; cbn [negb].
  2:{ assert (X : exists c, In c (chars l) /\ c <> "-"%char /\ ~ In c name_chars).
      { destruct (sall_false is_valid l E3) as (c & H1 & H2). exists c. split; [exact H1|].
        split; intros H; assert (is_valid c = true) by (apply valid_iff; auto); congruence. }
      eexists. split; [right; split; [exact E1|right; split; [discriminate|left; split; [exact X|reflexivity]]]|]. split; [reflexivity|]. split; [discriminate|].
      intros _ (_ & _ & L). destruct X as (c & H1 & H2 & H3). destruct (L c H1); contradiction. }
  assert (L : long_ok l).
  { split; [|split; [exact E2|]].
    - destruct l as [|a [|b l']]; cbn in *; try lia; congruence.
    - intros c Hc. apply valid_iff. now apply (sall_in is_valid l). }
  assert (X : ~ exists c, In c (chars l) /\ c <> "-"%char /\ ~ In c name_chars).
  { intros (c & H1 & H2 & H3). destruct L as (_ & _ & L). destruct (L c H1); contradiction. }
  unfold bind, id_exists. cbn [is_empty_id]. rewrite (proj2 (is_empty_false l) E).
  assert (M : In l (used_ids q) <-> taken h l).
  { rewrite Uq, U. split; [|auto]. intros [H|[_ H]]; [exact H|]. exfalso. destruct L as (L & _). rewrite H in L. cbn in L. lia. }
  destruct (mem l (used_ids q)) eqn:Mm.
  - apply mem_spec, M in Mm. eexists.
    split; [right; split; [exact E1|right; split; [discriminate|right; split; [exact X|left; split; [exact Mm|reflexivity]]]]|].
    split; [reflexivity|]. split; [discriminate|auto].
  - apply mem_false in Mm. rewrite M in Mm. exists None.
    split; [right; split; [exact E1|right; split; [discriminate|right; split; [exact X|right; split; [exact Mm|reflexivity]]]]|].
    split; [congruence|]. split; [|congruence]. intros _. right. auto.
Qed.

Lemma names_exact : exists m u, first_of (name_objections h k) m /\ verify_identifiers s l p = (set_used_ids u p, answer m) /\
  forall n, In n u <-> In n (used_ids p) \/ claims h k n.
Proof.
  assert (Cut : name_objections h k = firstn 1 (name_objections h k) ++ firstn 2 (skipn 1 (name_objections h k)) ++ skipn 3 (name_objections h k)) by reflexivity.
  unfold verify_identifiers. destruct (Ascii.eqb s nul && is_empty l) eqn:Z.
  { apply andb_true_iff in Z as [Z1 Z2]. apply Ascii.eqb_eq in Z1. apply is_empty_iff in Z2.
    eexists _, (used_ids p). split; [left; split; [split; [exact Z1|exact Z2]|reflexivity]|]. split; [now rewrite set_used_same|].
    intros n. split; [auto|]. intros [H|[(H & _)|(_ & (L & _) & _)]]; [exact H|contradiction|]. rewrite Z2 in L. cbn in L. lia. }
  assert (Z' : first_of (firstn 1 (name_objections h k)) None).
  { right. split; [|reflexivity]. intros [Z1 Z2]. apply is_empty_iff in Z2. rewrite Z1, Z2 in Z. discriminate Z. }
  rewrite Cut. destruct short_exact as (m1 & F1 & T1 & N1 & K1). destruct m1 as [t1|].
  { specialize (T1 ltac:(discriminate)). specialize (K1 ltac:(discriminate)).
    exists (Some t1), (used_ids p). split; [apply first_of_app; left; split; [exact Z'|]; apply first_of_app; right; eauto|].
    split; [rewrite set_used_same; now apply (bind_throw_step _ _ _ _ _ T1)|].
    intros n. split; [auto|]. intros [H|[(H1 & H2 & ->)|(H1 & _ & _)]]; [exact H| |]; apply U || exfalso; intuition. }
  specialize (N1 eq_refl). clear T1 K1.
  assert (Q : exists q, verify_short s p = (q, Ret tt) /\ (forall n, In n (used_ids q) <-> In n (used_ids p) \/ (s <> nul /\ n = str1 s)) /\
    q = set_used_ids (used_ids q) p /\ (s <> nul -> short_ok s /\ ~ taken h (str1 s))).
  { destruct N1 as [[E V]|(E & O & T & V)]; eexists; (split; [exact V|]).
    - split; [|split; [now rewrite set_used_same|contradiction]]. intros n. split; [auto|]. intros [H|[H _]]; [exact H|contradiction].
    - split; [|split; [reflexivity|auto]]. intros n. cbn [used_ids set_used_ids]. cbn [In]. intuition. }
  destruct Q as (q & V & Uq & Eq & Oq). rewrite (bind_ret_step _ _ _ _ _ V).
  assert (Cl : claims h k (str1 s) \/ s = nul).
  { destruct (Ascii.eqb_spec s nul); [auto|]. left. left. destruct (Oq n). auto. }
  assert (Cs : forall n, claims h k n <-> (s <> nul /\ n = str1 s) \/ (long_ok l /\ n = l)).
  { intros n. unfold claims. split; [tauto|]. intros [[H1 H2]|[H1 H2]]; [left; destruct (Oq H1); auto|]. right. split; [|auto].
    destruct (Ascii.eqb_spec s nul) as [E|E]; [auto|]. right. now apply Oq. }
  destruct (long_exact q Uq) as (m2 & F2 & T2 & N2 & K2). exists m2.
  assert (F : first_of (firstn 1 (name_objections h k) ++ firstn 2 (skipn 1 (name_objections h k)) ++ skipn 3 (name_objections h k)) m2).
  { apply first_of_app. left. split; [exact Z'|]. apply first_of_app. left. split; [exact F1|exact F2]. }
  destruct m2 as [t2|].
  - specialize (T2 ltac:(discriminate)). specialize (K2 ltac:(discriminate)). exists (used_ids q). split; [exact F|]. split; [rewrite <- Eq; exact T2|].
    intros n. rewrite Uq, Cs. split; [tauto|]. intros [H|[H|[H ->]]]; [auto|auto|]. left. apply U. auto.
  - destruct (N2 eq_refl) as [[E V2]|(L & T & V2)].
    + exists (used_ids q). split; [exact F|]. split; [rewrite <- Eq; exact V2|]. intros n. rewrite Uq, Cs. split; [tauto|].
      intros [H|[H|[(L & _) _]]]; [auto|auto|]. rewrite E in L. cbn in L. lia.
    + exists (l :: used_ids q). split; [exact F|]. split; [rewrite V2; rewrite Eq at 2; reflexivity|]. intros n. cbn [In]. rewrite Uq, Cs. intuition.
Qed.

End names.

(** ** One call *)

(** what the parser remembers about the calls [h]; [ds]: the declarations accepted *)
Record books (h : list call) (ds : list decl) (p : parser) : Prop := {
  bo_called : parse_was_called p = true <-> In CParse h;
  bo_used : forall n, In n (used_ids p) <-> taken h n;
  bo_opts : forall t, In t (options p) <-> announced h t;
  bo_list : has_positional_list_option p = true <-> exists t, In t (pos_types ds) /\ is_container t = true }.

Lemma announced_cons c h t : announced (c :: h) t <-> announced h t \/ (~ In CParse h /\
  exists x ty k, c = CAddOption x ty k /\ first_of (name_objections h k) None /\ exists i, In i (config_idents k) /\ t = dashed i).
Proof. reflexivity. Qed.

Lemma in_parse_cons c h : In CParse (c :: h) <-> c = CParse \/ In CParse h.
Proof. cbn. intuition. Qed.

(** calls that leave names alone *)
Lemma books_other c h ds p p' : named c = None -> books h ds p ->
  (parse_was_called p' = true <-> c = CParse \/ parse_was_called p = true) -> used_ids p' = used_ids p -> options p' = options p ->
  forall ds', (has_positional_list_option p' = true <-> exists t, In t (pos_types ds') /\ is_container t = true) -> books (c :: h) ds' p'.
Proof.
  intros N [] C E1 E2 ds' L. constructor.
  - rewrite C, in_parse_cons, bo_called0. reflexivity.
  - intros n. rewrite E1, bo_used0, taken_cons. split; [auto|]. intros [H|(_ & k & H & _)]; [exact H|congruence].
  - intros t. rewrite E2, bo_opts0, announced_cons. split; [auto|]. intros [H|(_ & x & ty & k & -> & _)]; [exact H|discriminate N].
  - exact L.
Qed.

Lemma called_false h ds p : books h ds p -> parse_was_called p = false -> ~ In CParse h.
Proof. intros B H I. apply (bo_called _ _ _ B) in I. congruence. Qed.

Lemma late_books c h ds p : books h ds p -> parse_was_called p = true -> c <> CParse -> books (c :: h) ds p.
Proof.
  intros [] C N. assert (X : In CParse h) by now apply bo_called0. constructor.
  - rewrite in_parse_cons, bo_called0. intuition.
  - intros n. rewrite bo_used0, taken_cons. tauto.
  - intros t. rewrite bo_opts0, announced_cons. tauto.
  - exact bo_list0.
Qed.

Lemma register_all k p : exists o, ((if Ascii.eqb (c_short k) nul then ret tt else register ("-" +s+ str1 (c_short k))) ;;
    (if is_empty (c_long k) then ret tt else register ("--" +s+ c_long k))) p = (set_options o p, Ret tt) /\
  forall t, In t o <-> In t (options p) \/ exists i, In i (config_idents k) /\ t = dashed i.
Proof.
  assert (E : p = set_options (options p) p) by now destruct p.
  unfold config_idents. destruct (Ascii.eqb (c_short k) nul), (is_empty (c_long k)); unfold bind, ret, register, modify; cbn [app].
  - exists (options p). split; [now rewrite <- E|]. intros t. split; [auto|]. intros [H|(i & [] & _)]. exact H.
  - eexists. split; [reflexivity|]. intros t. cbn [In]. split.
    + intros [<-|H]; [right; exists (IdLong (c_long k)); auto|auto].
    + intros [H|(i & [<-|[]] & ->)]; auto.
  - eexists. split; [reflexivity|]. intros t. cbn [In]. split.
    + intros [<-|H]; [right; exists (IdShort (c_short k)); auto|auto].
    + intros [H|(i & [<-|[]] & ->)]; auto.
  - eexists. split; [reflexivity|]. intros t. cbn [In options set_options]. split.
    + intros [<-|[<-|H]]; [right; exists (IdLong (c_long k)); auto|right; exists (IdShort (c_short k)); auto|auto].
    + intros [H|(i & [<-|[<-|[]]] & ->)]; auto.
Qed.

Lemma bind_assoc {St A B C} (m : M St A) (f : A -> M St B) (g : B -> M St C) s : bind (bind m f) g s = bind m (fun a => bind (f a) g) s.
Proof. unfold bind. destruct (m s) as [s1 [a|e|o| | |]]; reflexivity. Qed.

Definition added (m : option string) (d : decl) : list decl := match m with None => [d] | Some _ => [] end.

Lemma pos_named ds d m : match d with DPositional _ _ _ => False | _ => True end -> pos_types (ds ++ added m d) = pos_types ds.
Proof. intros H. rewrite pos_types_app. destruct m; cbn; [apply app_nil_r|]. destruct d; try contradiction; apply app_nil_r. Qed.

Lemma option_exact h ds p x t k vs subs : books h ds p ->
  exists m p', first_of (objections h subs ds vs (CAddOption x t k)) m /\ add_option x t k p = (p', answer m) /\
    books (CAddOption x t k :: h) (ds ++ added m (DOption x t k)) p'.
Proof.
  intros B. unfold add_option, bind at 1. rewrite check_spec. cbn [objections]. destruct (parse_was_called p) eqn:C.
  { eexists (Some _), p. split; [left; split; [now apply (bo_called _ _ _ B)|reflexivity]|]. split; [reflexivity|]. cbn [added]. rewrite app_nil_r.
    apply late_books; auto. discriminate. }
  pose proof (called_false _ _ _ B C) as NC.
  destruct (names_exact h k p (bo_used _ _ _ B)) as (m & u & F & V & Hu).
  assert (T : forall n, In n u <-> taken (CAddOption x t k :: h) n).
  { intros n. rewrite Hu, (bo_used _ _ _ B), taken_cons. cbn [named]. split; [intros [H|H]; [auto|right; eauto]|].
    intros [H|(_ & k' & [= <-] & H)]; auto. }
  destruct m as [m|].
  { exists (Some m), (set_used_ids u p). split; [right; split; [exact NC|]; apply first_of_app; right; eauto|].
    split; [unfold verify_option_config; unfold bind at 1; unfold bind at 1; rewrite V; reflexivity|].
    cbn [added]. rewrite app_nil_r. destruct B. constructor; cbn [parse_was_called set_used_ids used_ids options has_positional_list_option].
    - rewrite in_parse_cons, bo_called0. intuition discriminate.
    - exact T.
    - intros s. rewrite bo_opts0, announced_cons. split; [auto|]. intros [H|(_ & x' & ty & k' & [= <- <- <-] & G & _)]; [exact H|].
      discriminate (first_of_unique _ _ _ F G).
    - exact bo_list0. }
  destruct (register_all k (set_used_ids u p)) as (o & Ro & Ho).
  set (q := set_options o (set_used_ids u p)).
  assert (Vo : verify_option_config k p = if c_required k && negb (is_empty (c_default_message k))
    then (q, Throw (Exn KDesign "A required option cannot have a default message.")) else (q, Ret tt)).
  { unfold verify_option_config. unfold bind at 1. rewrite V. cbn [answer]. rewrite <- bind_assoc. rewrite (bind_ret_step _ _ _ _ _ Ro). fold q.
    destruct (c_required k && negb (is_empty (c_default_message k))); reflexivity. }
  assert (Ob : forall ds', (has_positional_list_option p = true <-> exists t, In t (pos_types ds') /\ is_container t = true) ->
    books (CAddOption x t k :: h) ds' q).
  { intros ds' L. destruct B. constructor; cbn [parse_was_called set_used_ids set_options used_ids options has_positional_list_option q].
    - rewrite in_parse_cons, bo_called0. intuition discriminate.
    - exact T.
    - intros s. rewrite Ho. cbn [options set_used_ids]. rewrite bo_opts0, announced_cons. split.
      + intros [H|H]; [auto|]. right. split; [exact NC|]. exists x, t, k. auto.
      + intros [H|(_ & x' & ty & k' & [= <- <- <-] & _ & H)]; auto.
    - exact L. }
  assert (Rq : c_required k && negb (is_empty (c_default_message k)) = true <-> c_required k = true /\ c_default_message k <> "").
  { rewrite andb_true_iff, negb_true_iff. rewrite is_empty_false. tauto. }
  unfold bind at 1. rewrite Vo. destruct (c_required k && negb (is_empty (c_default_message k))).
  - eexists (Some _), q. split; [right; split; [exact NC|]; apply first_of_app; left; split; [exact F|left; split; [now apply Rq|reflexivity]]|].
    split; [reflexivity|]. cbn [added]. rewrite app_nil_r. apply Ob, B.
  - exists None. eexists. split; [right; split; [exact NC|]; apply first_of_app; left; split; [exact F|right; split; [|reflexivity]]|].
    + intros H. apply Rq in H. discriminate H.
    + split; [apply defer_eq|]. destruct (Ob (ds ++ added None (DOption x t k))) as [O1 O2 O3 O4]; [rewrite pos_named; [apply B|exact Logic.I]|].
      now constructor.
Qed.

Lemma flag_exact h ds p x k vs subs : books h ds p ->
  exists m p', first_of (objections h subs ds vs (CAddFlag x k)) m /\ add_flag (as_bool (vs x)) x k p = (p', answer m) /\
    books (CAddFlag x k :: h) (ds ++ added m (DFlag x k)) p'.
Proof.
  intros B. unfold add_flag, bind at 1. rewrite check_spec. cbn [objections]. destruct (parse_was_called p) eqn:C.
  { eexists (Some _), p. split; [left; split; [now apply (bo_called _ _ _ B)|reflexivity]|]. split; [reflexivity|]. cbn [added]. rewrite app_nil_r.
    apply late_books; auto. discriminate. }
  pose proof (called_false _ _ _ B C) as NC.
  destruct (names_exact h k p (bo_used _ _ _ B)) as (m & u & F & V & Hu).
  set (q := set_used_ids u p).
  assert (Ob : forall ds', (has_positional_list_option p = true <-> exists t, In t (pos_types ds') /\ is_container t = true) ->
    books (CAddFlag x k :: h) ds' q).
  { intros ds' L. destruct B. constructor; cbn [parse_was_called set_used_ids used_ids options has_positional_list_option q].
    - rewrite in_parse_cons, bo_called0. intuition discriminate.
    - intros n. rewrite Hu, bo_used0, taken_cons. cbn [named]. split; [intros [H|H]; [auto|right; eauto]|].
      intros [H|(_ & k' & [= <-] & H)]; auto.
    - intros s. rewrite bo_opts0, announced_cons. split; [auto|]. intros [H|(_ & x' & ty & k' & H & _)]; [exact H|discriminate H].
    - exact L. }
  assert (Vf : verify_flag_config k p = match m with Some t => (q, Throw (Exn KDesign t)) | None => if is_empty (c_default_message k) then (q, Ret tt)
    else (q, Throw (Exn KDesign "A flag may not have a default message because the default is always `false`.")) end).
  { unfold verify_flag_config, bind. rewrite V. destruct m; [reflexivity|]. cbn [answer]. destruct (is_empty (c_default_message k)); reflexivity. }
  unfold bind at 1. rewrite Vf. destruct m as [m|].
  { exists (Some m), q. split; [right; split; [exact NC|]; apply first_of_app; right; eauto|]. split; [reflexivity|].
    cbn [added]. rewrite app_nil_r. apply Ob, B. }
  destruct (is_empty (c_default_message k)) eqn:E.
  2:{ apply is_empty_false in E. eexists (Some _), q.
      split; [right; split; [exact NC|]; apply first_of_app; left; split; [exact F|left; split; [exact E|reflexivity]]|]. split; [reflexivity|].
      cbn [added]. rewrite app_nil_r. apply Ob, B. }
  apply is_empty_iff in E. destruct (as_bool (vs x)) eqn:A; (assert (Tv : as_bool (vs x) = true <-> vs x = VBool true) by (destruct (vs x) as [|[]| | | | | |]; cbn; split; congruence); rewrite A in Tv).
  - eexists (Some _), q. split; [right; split; [exact NC|]; apply first_of_app; left; split; [exact F|right; split; [tauto|left; split; [now apply Tv|reflexivity]]]|].
    split; [reflexivity|]. cbn [added]. rewrite app_nil_r. apply Ob, B.
  - exists None. eexists. split; [right; split; [exact NC|]; apply first_of_app; left; split; [exact F|right; split; [tauto|right; split; [intros K; apply Tv in K; discriminate K|reflexivity]]]|].
    split; [unfold bind; cbn [ret]; apply defer_eq|].
    destruct (Ob (ds ++ added None (DFlag x k))) as [O1 O2 O3 O4]; [rewrite pos_named; [apply B|exact Logic.I]|].
    now constructor.
Qed.

Lemma positional_exact h ds p x t k vs subs : books h ds p -> (forall s, In s (subcommands p) <-> In s subs) ->
  exists m p', first_of (objections h subs ds vs (CAddPositional x t k)) m /\ add_positional_option x t k p = (p', answer m) /\
    books (CAddPositional x t k :: h) (ds ++ added m (DPositional x t k)) p'.
Proof.
  intros B Su. unfold add_positional_option, bind at 1. rewrite check_spec. cbn [objections]. destruct (parse_was_called p) eqn:C.
  { eexists (Some _), p. split; [left; split; [now apply (bo_called _ _ _ B)|reflexivity]|]. split; [reflexivity|]. cbn [added]. rewrite app_nil_r.
    apply late_books; auto. discriminate. }
  pose proof (called_false _ _ _ B C) as NC.
  assert (Same : forall t', books (CAddPositional x t k :: h) (ds ++ added (Some t') (DPositional x t k)) p).
  { intros t'. cbn [added]. rewrite app_nil_r. refine (books_other _ h ds p p _ B _ eq_refl eq_refl ds (bo_list _ _ _ B)); [reflexivity|intuition discriminate]. }
  assert (S0 : subs <> [] <-> match subcommands p with [] => false | _ => true end = true).
  { destruct (subcommands p) as [|a l] eqn:E.
    - split; [|discriminate]. intros H. destruct subs as [|b l]; [contradiction|]. destruct (proj2 (Su b)). now left.
    - split; [reflexivity|]. intros _ ->. destruct (proj1 (Su a)). now left. }
  unfold bind at 1, verify_positional_option_config.
  destruct (negb (Ascii.eqb (c_short k) nul) || negb (is_empty (c_long k))) eqn:E1.
  { assert (P : c_short k <> nul \/ c_long k <> "").
    { apply orb_true_iff in E1 as [E1|E1]; apply negb_true_iff in E1; [left; now apply Ascii.eqb_neq|right; now apply is_empty_false]. }
    eexists (Some _), p. split; [right; split; [exact NC|]; left; split; [exact P|reflexivity]|]. split; [reflexivity|apply Same]. }
  assert (P1 : ~ (c_short k <> nul \/ c_long k <> "")).
  { apply orb_false_iff in E1 as [E1 E2]. apply negb_false_iff in E1, E2. apply Ascii.eqb_eq in E1. apply is_empty_iff in E2. tauto. }
  destruct (c_advanced k || c_hidden k) eqn:E2.
  { apply orb_true_iff in E2. eexists (Some _), p. split; [right; split; [exact NC|]; right; split; [exact P1|]; left; split; [exact E2|reflexivity]|].
    split; [reflexivity|apply Same]. }
  assert (P2 : ~ (c_advanced k = true \/ c_hidden k = true)) by (rewrite <- orb_true_iff; congruence).
  destruct (match subcommands p with [] => false | _ => true end) eqn:E3.
  { eexists (Some _), p. split; [right; split; [exact NC|]; right; split; [exact P1|]; right; split; [exact P2|]; left; split; [now apply S0|reflexivity]|].
    split; [reflexivity|apply Same]. }
  assert (P3 : ~ subs <> []) by (rewrite S0; discriminate).
  destruct (has_positional_list_option p) eqn:E4.
  { eexists (Some _), p. split; [right; split; [exact NC|]; right; split; [exact P1|]; right; split; [exact P2|]; right; split; [exact P3|]; left; split; [now apply (bo_list _ _ _ B)|reflexivity]|].
    split; [reflexivity|apply Same]. }
  assert (P4 : ~ exists t', In t' (pos_types ds) /\ is_container t' = true) by (rewrite <- (bo_list _ _ _ B); congruence).
  destruct (is_empty (c_default_message k)) eqn:E5; cbn [negb].
  2:{ apply is_empty_false in E5. eexists (Some _), p.
      split; [right; split; [exact NC|]; right; split; [exact P1|]; right; split; [exact P2|]; right; split; [exact P3|]; right; split; [exact P4|]; left; split; [exact E5|reflexivity]|].
      split; [reflexivity|apply Same]. }
  apply is_empty_iff in E5. exists None. eexists.
  split; [right; split; [exact NC|]; right; split; [exact P1|]; right; split; [exact P2|]; right; split; [exact P3|]; right; split; [exact P4|]; right; split; [tauto|reflexivity]|].
  cbn [ret]. unfold bind.
  assert (D : (if is_container t then modify (set_has_list true) else ret tt) p = ((if is_container t then set_has_list true p else p), Ret tt))
    by (destruct (is_container t); reflexivity).
  rewrite D. split; [apply defer_eq|].
  refine (books_other _ h ds p _ _ B _ _ _ _ _); [reflexivity|..]; cbn; destruct (is_container t) eqn:T; cbn; try reflexivity; try (intuition discriminate).
  - rewrite pos_types_app. split; [|auto]. intros _. exists t. split; [apply in_app_iff; right; now left|exact T].
  - rewrite E4, pos_types_app. split; [discriminate|]. intros (t' & H1 & H2). apply in_app_iff in H1 as [H1|[<-|[]]]; [|congruence]. exfalso. eauto.
Qed.

(** ** Programs *)

Section programs.
Variable ndebug : bool.
Variable bk : backend.
Notation step := (step ndebug bk).
Notation run := (run ndebug bk).

Lemma answer_step {A} (m : M parser A) w p' r : m (w_parser w) = (p', r) ->
  bind (on_parser m) (fun _ => ret true) w = (with_parser p' w, lift_res r (fun _ => Ret true)).
Proof. intros H. unfold bind, on_parser. rewrite H. destruct r; reflexivity. Qed.

Lemma answer_verdict m : lift_res (answer m) (fun _ => Ret true) = verdict m.
Proof. now destruct m. Qed.

Lemma verdict_step c w h ds subs : books h ds (w_parser w) -> (forall s, In s (subcommands (w_parser w)) <-> In s subs) -> shapes c = true ->
  exists m, first_of (objections h subs ds (w_vars w) c) m /\ snd (step c w) = verdict m /\
    books (c :: h) (ds ++ match m with None => call_decl c | _ => [] end) (w_parser (fst (step c w))).
Proof.
  intros B Su S. destruct (section_op c) as [o|] eqn:O.
  { assert (N : named c = None) by (destruct c; try discriminate O; reflexivity).
    assert (D : call_decl c = []) by (destruct c; try discriminate O; reflexivity).
    assert (L : exists fn, objections h subs ds (w_vars w) c = [too_late h fn] /\ step c w = bind (on_parser (bind (check_parse_not_called fn) (fun _ => defer o))) (fun _ => ret true) w).
    { destruct c; try discriminate O; injection O as <-; eexists; (split; [reflexivity|]); reflexivity. }
    destruct L as (fn & -> & ->). unfold bind, on_parser. rewrite check_spec. rewrite D. destruct (parse_was_called (w_parser w)) eqn:C; cbn.
    - eexists (Some _). split; [left; split; [now apply (bo_called _ _ _ B)|reflexivity]|]. split; [reflexivity|]. rewrite app_nil_r.
      apply late_books; auto. destruct c; discriminate.
    - exists None. split; [right; split; [exact (called_false _ _ _ B C)|reflexivity]|]. split; [reflexivity|]. rewrite app_nil_r.
      apply (books_other c h ds (w_parser w) (pushed o (w_parser w)) N B); try reflexivity; [|exact (bo_list _ _ _ B)].
      cbn. split; [auto|]. intros [->|H]; [discriminate S|exact H]. }
  destruct c; try discriminate S; try discriminate O; cbn [call_decl].
  - destruct (option_exact h ds (w_parser w) x t c (w_vars w) subs B) as (m & p' & F & A & B').
    exists m. split; [exact F|]. cbn [Parser.step]. rewrite (answer_step _ _ _ _ A), answer_verdict. split; [reflexivity|]. destruct m; exact B'.
  - destruct (flag_exact h ds (w_parser w) x c (w_vars w) subs B) as (m & p' & F & A & B').
    exists m. split; [exact F|]. cbn [Parser.step]. rewrite (answer_step _ _ _ _ A), answer_verdict. split; [reflexivity|]. destruct m; exact B'.
  - destruct (positional_exact h ds (w_parser w) x t c (w_vars w) subs B Su) as (m & p' & F & A & B').
    exists m. split; [exact F|]. cbn [Parser.step]. rewrite (answer_step _ _ _ _ A), answer_verdict. split; [reflexivity|]. destruct m; exact B'.
Qed.

Lemma books_step c w w' r h ds subs : books h ds (w_parser w) -> (forall s, In s (subcommands (w_parser w)) <-> In s subs) -> step c w = (w', r) ->
  books (c :: h) (ds ++ if returned r then call_decl c else []) (w_parser w').
Proof.
  intros B Su H. destruct (shapes c) eqn:S.
  { destruct (verdict_step c w h ds subs B Su S) as (m & F & V & B'). rewrite H in *. cbn [fst snd] in *. rewrite V. destruct m; exact B'. }
  assert (N : named c = None) by (destruct c; try discriminate S; reflexivity).
  assert (D : (if returned r then call_decl c else []) = []) by (destruct c; try discriminate S; now destruct (returned r)).
  rewrite D, app_nil_r. destruct (quiet_call c) eqn:Q.
  { pose proof (step_quiet ndebug bk c w Q) as K. rewrite H in K. cbn in K. destruct K as (K1 & _ & K3 & K4 & _ & K6 & _).
    refine (books_other c h ds _ _ N B _ K3 K4 ds _); [|rewrite K1; apply B]. rewrite K6. split; [auto|]. intros [->|E]; [discriminate Q|exact E]. }
  destruct c; try discriminate Q; try discriminate S.
  - injection H as <- <-. apply (books_other _ h ds (w_parser w) (add_subcommands l (w_parser w)) N B); try reflexivity; [|exact (bo_list _ _ _ B)].
    cbn. split; [auto|]. intros [E|E]; [discriminate E|exact E].
  - destruct (parse_keeps ndebug bk w) as [[] C].
    assert (E : w_parser w' = w_parser (fst (parse ndebug bk w))).
    { revert H. cbn [Parser.step]. unfold bind. destruct (parse ndebug bk w) as [w1 [a|e|o| | |]]; intros [= <- _]; reflexivity. }
    rewrite <- E in *. refine (books_other _ h ds _ _ N B _ _ _ ds _); auto; [tauto|]. rewrite kept_list. apply B.
Qed.

Lemma books_run cs : forall w h ds subs, books h ds (w_parser w) -> good_state ds subs (w_parser w) ->
  books (rev (map fst (snd (run cs w))) ++ h) (ds ++ accepted (snd (run cs w))) (w_parser (fst (run cs w))).
Proof.
  induction cs as [|c cs IH]; intros w h ds subs B G; [cbn; now rewrite app_nil_r|].
  rewrite run_cons. destruct (step c w) as [w1 r] eqn:H.
  pose proof (books_step c w w1 r h ds subs B (gs_subs _ _ _ G) H) as B1. pose proof (good_step ndebug bk _ _ _ _ _ _ G H) as G1.
  destruct (match r with Ret _ | Throw _ => true | _ => false end); cbn [fst snd map rev accepted flat_map app].
  - specialize (IH w1 _ _ _ B1 G1). rewrite <- app_assoc. cbn [app]. rewrite app_assoc. exact IH.
  - rewrite app_nil_r. exact B1.
Qed.

Lemma books_fresh p : fresh p -> books [] [] p.
Proof.
  intros []. constructor; cbn.
  - split; [discriminate|contradiction].
  - intros n. change reserved_ids with reserved. reflexivity.
  - tauto.
  - split; [discriminate|]. intros (t & [] & _).
Qed.

Lemma books_of w0 w log cs : fresh (w_parser w0) -> run cs w0 = (w, log) -> books (history log) (accepted log) (w_parser w).
Proof.
  intros F R. pose proof (books_run cs w0 [] [] _ (books_fresh _ F) (good_fresh _ F)) as B. rewrite R in B. cbn [fst snd app] in B. now rewrite app_nil_r in B.
Qed.

Lemma verdict_lemma w0 w log cs c : fresh (w_parser w0) -> run cs w0 = (w, log) -> shapes c = true ->
  exists m, first_of (objections (history log) (subcommands (w_parser w0) ++ ever_added log) (accepted log) (w_vars w) c) m /\ snd (step c w) = verdict m.
Proof.
  intros F R S. pose proof (ParserProofs.history ndebug bk w0 cs F) as G. rewrite R in G. cbn [fst snd] in G.
  destruct (verdict_step c w _ _ _ (books_of _ _ _ _ F R) (gs_subs _ _ _ G) S) as (m & H1 & H2 & _). eauto.
Qed.

Lemma announced_lemma w0 w log cs t : fresh (w_parser w0) -> run cs w0 = (w, log) -> In t (options (w_parser w)) <-> announced (history log) t.
Proof. intros F R. apply (bo_opts _ _ _ (books_of _ _ _ _ F R)). Qed.

(** ** Declarations in order are accepted *)

Lemma good_short c : good_ident (IdShort c) = true -> short_ok c.
Proof. cbn [good_ident]. rewrite andb_true_iff, negb_true_iff. intros [H1 H2]. apply short_ok_iff. change is_valid with id_char. now rewrite H1, H2. Qed.
Lemma good_long l : good_ident (IdLong l) = true -> long_ok l.
Proof.
  cbn [good_ident]. rewrite !andb_true_iff. intros [[H1 H2] H3]. split; [now apply Nat.leb_le|]. split.
  - destruct l as [|c l]; [discriminate H3|]. cbn. apply negb_true_iff in H3. rewrite Ascii.eqb_sym. exact H3.
  - intros c Hc. apply valid_iff. exact (sall_in _ _ _ H2 Hc).
Qed.

Lemma decl_names_cons d ds : decl_names (d :: ds) = map id_name (decl_idents d) ++ decl_names ds.
Proof. unfold decl_names. cbn [flat_map]. now rewrite map_app. Qed.

Lemma short_name k : c_short k <> nul -> In (IdShort (c_short k)) (config_idents k).
Proof. intros H. unfold config_idents. destruct (Ascii.eqb_spec (c_short k) nul); [contradiction|]. now left. Qed.
Lemma long_name k : c_long k <> "" -> In (IdLong (c_long k)) (config_idents k).
Proof. intros H. apply in_app_iff. right. rewrite (proj2 (is_empty_false (c_long k)) H). now left. Qed.

Lemma claims_names h k n : claims h k n -> In n (map id_name (config_idents k)).
Proof.
  intros [(H & _ & ->)|(_ & (H & _) & ->)].
  - apply (in_map id_name _ (IdShort (c_short k))), short_name, H.
  - apply (in_map id_name _ (IdLong (c_long k))), long_name. intros E. rewrite E in H. cbn in H. lia.
Qed.

Lemma no_name_objection h k : (c_short k <> nul \/ c_long k <> "") -> forallb good_ident (config_idents k) = true ->
  (forall n, In n (map id_name (config_idents k)) -> ~ taken h n) -> first_of (name_objections h k) None.
Proof.
  intros Ne G T. rewrite forallb_forall in G.
  assert (S : c_short k <> nul -> short_ok (c_short k) /\ ~ taken h (str1 (c_short k))).
  { intros H. pose proof (short_name k H) as X. split; [apply good_short, G, X|]. apply T. exact (in_map id_name _ _ X). }
  assert (L : c_long k <> "" -> long_ok (c_long k) /\ ~ taken h (c_long k)).
  { intros H. pose proof (long_name k H) as X. split; [apply good_long, G, X|]. apply T. exact (in_map id_name _ _ X). }
  assert (E : c_long k = "" \/ c_long k <> "") by (destruct (c_long k); [now left|right; discriminate]).
  apply first_of_none. intros P t H. cbn [name_objections In] in H.
  destruct H as [[= <- _]|[[= <- _]|[[= <- _]|[[= <- _]|[[= <- _]|[[= <- _]|[[= <- _]|[]]]]]]]].
  - tauto.
  - tauto.
  - tauto.
  - destruct E as [-> |E]; [discriminate|]. destruct (L E) as [(X & _) _]. lia.
  - destruct E as [-> |E]; [discriminate|]. destruct (L E) as [(_ & X & _) _]. congruence.
  - destruct E as [-> |E]; [intros (c & [] & _)|]. destruct (L E) as [(_ & _ & X) _]. intros (c & H1 & H2 & H3). destruct (X c H1); contradiction.
  - destruct E as [-> |E]; [apply taken_nonempty|]. now apply L.
Qed.

Lemma list_last_cons t ts : list_last (t :: ts) = true -> ts <> [] -> is_container t = false /\ list_last ts = true.
Proof. destruct ts; [contradiction|]. cbn [list_last]. intros H _. apply andb_true_iff in H as [H1 H2]. apply negb_true_iff in H1. auto. Qed.

Lemma list_last_mid a t b : list_last (a ++ t :: b) = true -> forall t', In t' a -> is_container t' = false.
Proof.
  induction a as [|x a IH]; [intros _ t' []|]. cbn [app]. intros H. apply list_last_cons in H as [H1 H2]; [|now destruct a].
  intros t' [<-|H]; auto.
Qed.

Lemma in_order_run ds : forall w h ds0, books h ds0 (w_parser w) -> good_state ds0 [] (w_parser w) -> ~ In CParse h ->
  (forall n, taken h n -> In n reserved \/ In n (decl_names ds0)) ->
  forallb good_ident (flat_map decl_idents ds) = true -> NoDup (decl_names (ds0 ++ ds)) -> list_last (pos_types (ds0 ++ ds)) = true ->
  (forall n, In n (decl_names ds) -> ~ In n reserved) -> Forall (plain_decl (w_vars w)) ds ->
  snd (run (map call_of ds) w) = map (fun d => (call_of d, Ret true)) ds.
Proof.
  induction ds as [|d ds IH]; intros w h ds0 B G NC T Gi ND LL NR Pl; [reflexivity|].
  cbn [map]. rewrite run_cons.
  cbn [flat_map] in Gi. rewrite forallb_app in Gi. apply andb_true_iff in Gi as [Gd Gi]. inversion Pl as [|d' ds' Pd Pl']; subst d' ds'.
  assert (Fr : forall n, In n (map id_name (decl_idents d)) -> ~ taken h n).
  { intros n Hn Ht. destruct (T n Ht) as [H|H]; [apply (NR n); [rewrite decl_names_cons; apply in_app_iff; now left|exact H]|].
    rewrite decl_names_app, decl_names_cons in ND. revert ND H Hn. clear. intros ND H Hn.
    induction (decl_names ds0) as [|a l IH]; [destruct H|]. cbn in ND. inversion ND as [|a' l' N1 N2]; subst. destruct H as [<-|H]; [|auto].
    apply N1. apply in_app_iff. right. apply in_app_iff. now left. }
  assert (Sh : shapes (call_of d) = true) by now destruct d.
  destruct (verdict_step (call_of d) w h ds0 [] B (gs_subs _ _ _ G) Sh) as (m & F & V & B').
  assert (N : first_of (objections h [] ds0 (w_vars w) (call_of d)) None).
  { destruct d as [x t k|x k|x t k]; cbn [call_of objections plain_decl] in *.
    - unfold decl_idents in Gd, Fr. cbn [option_idents flag_idents] in Gd, Fr. rewrite app_nil_r in Gd, Fr. destruct Pd as [P1 P2].
      right. split; [exact NC|]. apply first_of_app. left. split; [now apply no_name_objection|]. right. split; [tauto|reflexivity].
    - unfold decl_idents in Gd, Fr. cbn [option_idents flag_idents app] in Gd, Fr. destruct Pd as (P1 & P2 & P3).
      right. split; [exact NC|]. apply first_of_app. left. split; [now apply no_name_objection|]. right. split; [tauto|]. right. split; [congruence|reflexivity].
    - destruct Pd as (P1 & P2 & P3 & P4 & P5). apply first_of_none. intros P u H. cbn [In] in H.
      destruct H as [[= <- _]|[[= <- _]|[[= <- _]|[[= <- _]|[[= <- _]|[[= <- _]|[]]]]]]]; try tauto.
      + rewrite P3, P4. intros [H|H]; discriminate H.
      + intros (t' & H1 & H2). rewrite pos_types_app in LL. change (pos_types (DPositional x t k :: ds)) with (t :: pos_types ds) in LL.
        rewrite (list_last_mid _ _ _ LL t' H1) in H2. discriminate H2. }
  rewrite (first_of_unique _ _ _ F N) in *. cbn [verdict] in V. destruct (step (call_of d) w) as [w1 r] eqn:H. cbn [fst snd] in *. subst r. cbn [snd]. f_equal.
  pose proof (good_step ndebug bk _ _ _ _ _ _ G H) as G1. cbn [returned] in G1.
  assert (Cd : call_decl (call_of d) = [d]) by now destruct d.
  assert (Cs : match call_of d with CAddSubcommands l => l | _ => [] end = []) by now destruct d.
  assert (Vw : w_vars w1 = w_vars w).
  { destruct d; cbn [call_of] in H; [apply step_option in H as (p' & ra & _ & -> & _)|apply step_flag in H as (p' & ra & _ & -> & _)|apply step_positional in H as (p' & ra & _ & -> & _)]; reflexivity. }
  rewrite Cd in B', G1. rewrite Cs in G1. apply (IH w1 (call_of d :: h) (ds0 ++ [d])); auto.
  - rewrite in_parse_cons. intros [E|E]; [destruct d; discriminate E|contradiction].
  - intros n Hn. rewrite taken_cons in Hn. rewrite decl_names_app, in_app_iff. destruct Hn as [Hn|(_ & k & Hk & Hn)]; [destruct (T n Hn); auto|].
    right. right. apply claims_names in Hn. unfold decl_names. cbn [flat_map]. rewrite app_nil_r.
    destruct d; cbn in Hk; try discriminate Hk; injection Hk as <-; unfold decl_idents; cbn [option_idents flag_idents]; rewrite ?app_nil_r; exact Hn.
  - rewrite <- app_assoc. exact ND.
  - rewrite <- app_assoc. exact LL.
  - intros n Hn. apply NR. rewrite decl_names_cons, in_app_iff. now right.
  - rewrite Vw. exact Pl'.
Qed.

Lemma in_order_lemma w0 ds : fresh (w_parser w0) -> subcommands (w_parser w0) = [] ->
  forallb good_ident (flat_map decl_idents ds) = true -> NoDup (decl_names ds) -> (forall n, In n (decl_names ds) -> ~ In n reserved) ->
  list_last (pos_types ds) = true -> Forall (plain_decl (w_vars w0)) ds ->
  snd (run (map call_of ds) w0) = map (fun d => (call_of d, Ret true)) ds.
Proof.
  intros F S Gi ND NR LL Pl. pose proof (good_fresh _ F) as G. rewrite S in G.
  apply (in_order_run ds w0 [] []); auto. apply books_fresh, F.
Qed.

End programs.
