(** Proofs: exactly when an exported HTML page is well nested (C44). *)
From Verif Require Import Base StrLib Fs Values Validators FormatParse Parser HelpBase HelpText HelpExport HelpSpec HelpTextProofs
  HelpPage HelpGood HelpLayout HelpExportProofs HelpEntries HelpOther PageSpec PageProofs.

(** ** One text *)

(** no tags but <strong> ... </strong> around something without markup.  [pending]: rest of a tag *)
Fixpoint okay (inside : bool) (pending s : string) : bool :=
  match s with
  | EmptyString => match pending with EmptyString => negb inside | _ => false end
  | String c s1 =>
      match pending with
      | String p ps => Ascii.eqb p c && okay inside ps s1
      | EmptyString =>
          if Ascii.eqb c "<" then okay (negb inside) (if inside then "/strong>" else "strong>") s1
          else if Ascii.eqb c "\" then
            negb inside && match s1 with
                           | EmptyString => true
                           | String d s2 =>
                               negb (Ascii.eqb d "<") &&
                               (if Ascii.eqb d "f" then
                                  match s2 with
                                  | EmptyString => true
                                  | String e s3 => negb (Ascii.eqb e "<") && okay inside "" s3
                                  end
                                else okay inside "" s2)
                           end
          else okay inside "" s1
      end
  end.

Lemma okay_pending p : forall i s, okay i p s = true -> exists s2, s = p +s+ s2 /\ okay i "" s2 = true.
Proof.
  induction p as [|c p IH]; intros i s H; [exists s; auto|]. destruct s as [|d s]; [discriminate|]. cbn [okay] in H.
  apply andb_prop in H as [E H]. apply Ascii.eqb_eq in E as <-. destruct (IH i s H) as (s2 & -> & K). exists s2. auto.
Qed.

Lemma okay_plain p s i : bland1 p = true -> okay i "" (p +s+ s) = okay i "" s.
Proof.
  induction p as [|c p IH]; [reflexivity|]. unfold bland1. intros H. apply andb_prop in H as [B N]. apply bland_cons in B as (A & _ & C).
  cbn [scontains] in N. rewrite negb_orb in N. apply andb_prop in N as [N1 N2]. rewrite negb_true_iff, Ascii.eqb_neq in N1.
  cbn [String.append okay]. rewrite (proj2 (Ascii.eqb_neq c "<")) by congruence. rewrite (proj2 (Ascii.eqb_neq c "\") A). apply IH.
  unfold bland1. now rewrite C, N2.
Qed.

Lemma okay_no_tag : forall s, scontains "<" s = false -> okay false "" s = true.
Proof.
  apply (str_ind_len (fun s => scontains "<" s = false -> okay false "" s = true)).
  intros [|c s1] IH H; [reflexivity|]. cbn [scontains] in H. apply orb_false_elim in H as [Hc H]. cbn [okay]. rewrite Ascii.eqb_sym, Hc.
  destruct (Ascii.eqb c "\"); [|apply IH; [cbn; lia|exact H]]. destruct s1 as [|d s2]; [reflexivity|]. cbn [scontains] in H. apply orb_false_elim in H as [Hd H].
  rewrite (Ascii.eqb_sym d), Hd. cbn [negb andb]. destruct (Ascii.eqb d "f"); [|apply IH; [cbn; lia|exact H]].
  destruct s2 as [|e s3]; [reflexivity|]. cbn [scontains] in H. apply orb_false_elim in H as [He H]. rewrite (Ascii.eqb_sym e), He. apply IH; [cbn; lia|exact H].
Qed.

Definition font (t : string) : Prop := t = "em" \/ t = "strong".
Definition wrap (inside : bool) (k : list string) : list string := if inside then "strong" :: k else k.

Lemma balanced_plain p s : scontains "\" p = false -> forall n, balanced n (p +s+ s) = balanced n s.
Proof.
  induction p as [|c p IH]; [reflexivity|]. cbn [scontains]. intros H n. apply orb_false_elim in H as [Hc H]. cbn [String.append balanced].
  rewrite Ascii.eqb_sym, Hc. now apply IH.
Qed.

Lemma scan_text nd : forall s i tags r, okay i "" s = true -> html_from nd tags s = Ret r -> Forall font tags -> forall k, exists l,
  reads r (wrap i (tags ++ k)) (l ++ k) /\ Forall font l /\ (l = [] <-> balanced (List.length tags) s = true).
Proof.
  apply (str_ind_len (fun s => forall i tags r, okay i "" s = true -> html_from nd tags s = Ret r -> Forall font tags -> forall k, exists l,
    reads r (wrap i (tags ++ k)) (l ++ k) /\ Forall font l /\ (l = [] <-> balanced (List.length tags) s = true))).
  assert (LR : forall (x : res string) h r, lift_res x (fun q => Ret (h +s+ q)) = Ret r -> exists q, x = Ret q /\ r = h +s+ q).
  { intros x h r H. destruct x; try discriminate. cbn in H. exists a. split; congruence. }
  intros s IH i tags r O H T k.
  (* one step: [h] is what is written for the beginning *)
  assert (P : forall h s2 i2 tags2, String.length s2 < String.length s -> okay i2 "" s2 = true -> Forall font tags2 ->
     html_from nd tags s = lift_res (html_from nd tags2 s2) (fun q => Ret (h +s+ q)) ->
     reads h (wrap i (tags ++ k)) (wrap i2 (tags2 ++ k)) -> balanced (List.length tags) s = balanced (List.length tags2) s2 ->
     exists l, reads r (wrap i (tags ++ k)) (l ++ k) /\ Forall font l /\ (l = [] <-> balanced (List.length tags) s = true)).
  { intros h s2 i2 tags2 Hl Ho Ht Hf Hr Hb. rewrite Hf in H. apply LR in H as (q & Hq & ->).
    destruct (IH s2 Hl i2 tags2 q Ho Hq Ht k) as (l & R & Fl & E). exists l. rewrite Hb. split; [|split; assumption]. eapply reads_app; eassumption. }
  destruct s as [|c s1].
  { clear P. destruct i; [discriminate|]. cbn in H. exists tags. replace r with "" by congruence. split; [reflexivity|]. split; [exact T|].
    cbn [balanced]. rewrite Nat.eqb_eq. destruct tags; cbn; split; congruence. }
  cbn [okay] in O. destruct (Ascii.eqb_spec c "<") as [->|Nl].
  { apply okay_pending in O as (s2 & -> & O). destruct i.
    - apply (P "</strong>" s2 false tags); [cbn; lia|exact O|exact T|apply (html_verbatim nd "</strong>" eq_refl)|reflexivity|apply (balanced_plain "</strong>"); reflexivity].
    - apply (P "<strong>" s2 true tags); [cbn; lia|exact O|exact T|apply (html_verbatim nd "<strong>" eq_refl)|reflexivity|apply (balanced_plain "<strong>"); reflexivity]. }
  assert (SC : forall d, d <> "<"%char -> forall k, reads (str1 d) k k).
  { intros d Nd k'. apply scan_plain. cbn [str1 scontains]. rewrite orb_false_r. apply Ascii.eqb_neq. congruence. }
  destruct (Ascii.eqb_spec c "\") as [->|Nb].
  2:{ apply (P (str1 c) s1 i tags); [cbn; lia|exact O|exact T|now apply html_plain_step|now apply SC|]. cbn [balanced]. now rewrite (proj2 (Ascii.eqb_neq c "\") Nb). }
  apply andb_prop in O as [Oi O]. destruct i; [discriminate Oi|]. clear Oi.
  destruct s1 as [|d s2]; [cbn in H; destruct nd; discriminate|]. apply andb_prop in O as [Od O]. rewrite negb_true_iff, Ascii.eqb_neq in Od.
  destruct (Ascii.eqb_spec d "f") as [->|Hf].
  2:{ destruct (Ascii.eqb_spec d "-") as [->|Hd].
      - apply (P "-" s2 false tags); [cbn; lia|exact O|exact T|reflexivity|reflexivity|reflexivity].
      - apply (P (String "\" (str1 d)) s2 false tags); [cbn; lia|exact O|exact T| | |].
        + cbn [html_from]. change (Ascii.eqb "\" "\") with true. cbn iota. rewrite (proj2 (Ascii.eqb_neq d "-") Hd), (proj2 (Ascii.eqb_neq d "f") Hf). reflexivity.
        + exact (SC d Od _).
        + cbn [balanced]. rewrite (proj2 (Ascii.eqb_neq d "f") Hf). reflexivity. }
  destruct s2 as [|e s3]; [cbn in H; destruct nd; discriminate|]. apply andb_prop in O as [Oe O]. rewrite negb_true_iff, Ascii.eqb_neq in Oe.
  destruct (Ascii.eqb_spec e "B") as [->|HB]; [|destruct (Ascii.eqb_spec e "I") as [->|HI]; [|destruct (Ascii.eqb_spec e "P") as [->|HP]]].
  - apply (P "<strong>" s3 false ("strong" :: tags)); [cbn; lia|exact O|constructor; [right; reflexivity|exact T]|reflexivity|reflexivity|reflexivity].
  - apply (P "<em>" s3 false ("em" :: tags)); [cbn; lia|exact O|constructor; [left; reflexivity|exact T]|reflexivity|reflexivity|reflexivity].
  - destruct tags as [|t tags]; [cbn in H; destruct nd; discriminate|]. inversion T as [|? ? Ft T']; subst.
    apply (P ("</" +s+ t +s+ ">") s3 false tags); [cbn; lia|exact O|exact T'| |destruct Ft as [->| ->]; reflexivity|reflexivity].
    change (html_from nd (t :: tags) (String "\" (String "f" (String "P" s3)))) with
      (lift_res (html_from nd tags s3) (fun r => Ret ("</" +s+ t +s+ ">" +s+ r))). apply lift_ext. intros q. now rewrite !app_assoc_s.
  - apply (P ("\f" +s+ str1 e) s3 false tags); [cbn; lia|exact O|exact T| | |].
    + cbn [html_from]. change (Ascii.eqb "\" "\") with true. cbn iota. change (Ascii.eqb "f" "-") with false. change (Ascii.eqb "f" "f") with true. cbn iota.
      rewrite (proj2 (Ascii.eqb_neq e "I") HI), (proj2 (Ascii.eqb_neq e "B") HB), (proj2 (Ascii.eqb_neq e "P") HP). reflexivity.
    + exact (SC e Oe _).
    + cbn [balanced]. change (Ascii.eqb "\" "\") with true. cbn iota. change (Ascii.eqb "f" "f") with true. cbn iota.
      rewrite (proj2 (Ascii.eqb_neq e "B") HB), (proj2 (Ascii.eqb_neq e "I") HI), (proj2 (Ascii.eqb_neq e "P") HP). reflexivity.
Qed.

Definition flat (s : string) : bool := balanced 0 s.
Definition tidy (s : string) : bool := okay false "" s.

Lemma scan_conv nd s : hok nd s = true -> tidy s = true -> forall k, exists l,
  reads (hconv nd s) k (l ++ k) /\ Forall font l /\ (l = [] <-> flat s = true).
Proof.
  unfold hok, hconv. destruct (to_html nd s) as [r| | | | |] eqn:E; try discriminate. intros _ O k.
  exact (scan_text nd s false [] r O E (Forall_nil _) k).
Qed.

(** ** Effects *)

Section nested.
Variable nd : bool.
Notation effect := (eff (bool * bool)).

(** some font is left open inside of the paragraph, or reading has failed already *)
Definition spoiled (out : string) (k : list string) (f' : bool * bool) : Prop :=
  html_scan out (HText, k) = None \/
  exists l, l <> [] /\ Forall font l /\ snd f' = true /\ reads out k (l ++ stk f').

Definition scans (e e1 e2 : effect) : Prop := fst e = true -> fst e2 = true ->
  (forall f, valid f = true -> valid (snd (snd e f)) = true /\
     if fst e1 then reads (fst (snd e f)) (stk f) (stk (snd (snd e f))) else spoiled (fst (snd e f)) (stk f) (snd (snd e f))) /\
  (forall f l, valid f = true -> snd f = true -> l <> [] -> Forall font l -> spoiled (fst (snd e f)) (l ++ stk f) (snd (snd e f))).

Lemma scans_ret : scans e_ret e_ret e_ret.
Proof.
  intros _ _. split.
  - intros f V. split; [exact V|reflexivity].
  - intros f l V P N Fl. right. exists l. repeat split; auto.
Qed.

Lemma scans_seq a a1 a2 b b1 b2 : scans a a1 a2 -> scans b b1 b2 -> scans (e_seq a b) (e_seq a1 b1) (e_seq a2 b2).
Proof.
  intros A B H1 H2. cbn [e_seq fst] in H1, H2. apply andb_prop in H1 as [Ha Hb]. apply andb_prop in H2 as [Ha2 Hb2].
  destruct (A Ha Ha2) as [A1 A2]. destruct (B Hb Hb2) as [B1 B2]. clear A B.
  assert (G : forall f k, valid (snd (snd a f)) = true -> spoiled (fst (snd a f)) k (snd (snd a f)) ->
    spoiled (fst (snd a f) +s+ fst (snd b (snd (snd a f)))) k (snd (snd b (snd (snd a f))))).
  { intros f k V S. unfold spoiled in *. unfold reads in *. rewrite scan_app. destruct S as [->|(l & Nl & Fl & Pf & ->)]; [now left|].
    exact (B2 _ l V Pf Nl Fl). }
  split.
  - intros f V. destruct (A1 f V) as [V1 R1]. destruct (B1 _ V1) as [V2 R2]. cbn [e_seq fst snd]. split; [exact V2|].
    destruct (fst a1); cbn [andb]; [|now apply G]. destruct (fst b1); [eapply reads_app; eassumption|].
    unfold spoiled, reads in *. rewrite scan_app, R1. exact R2.
  - intros f l V P N Fl. cbn [e_seq fst snd]. destruct (A1 f V) as [V1 _]. apply G; auto.
Qed.

Lemma scans_when c e e1 e2 : scans e e1 e2 -> scans (e_when c e) (e_when c e1) (e_when c e2).
Proof. destruct c; [auto|intros; apply scans_ret]. Qed.

Lemma scans_map {A} (h h1 h2 : A -> effect) l : (forall a, scans (h a) (h1 a) (h2 a)) -> scans (e_map h l) (e_map h1 l) (e_map h2 l).
Proof. intros H. induction l as [|a l IH]; [apply scans_ret|]. cbn [e_map]. now apply scans_seq. Qed.

(** *** Pages *)

Definition bared (Q : @effects (bool * bool)) : @effects (bool * bool) :=
  {| q_header := fun _ => e_ret; q_section := q_section Q; q_subsection := q_subsection Q; q_line := q_line Q;
     q_item := q_item Q; q_footer := e_ret; q_bold := q_bold Q |}.

Lemma bared_ok Q ex adv r : fst (e_page Q ex adv r) = fst (q_header Q (pr_info r)) && fst (e_page (bared Q) ex adv r) && fst (q_footer Q).
Proof.
  unfold e_page, e_before, e_after.
  change (e_map (e_synopsis (bared Q))) with (e_map (e_synopsis Q)). change (e_subcommands (bared Q)) with (e_subcommands Q).
  change (e_map (q_print (bared Q))) with (e_map (q_print Q)). change (e_common (bared Q)) with (e_common Q).
  change (e_version (bared Q)) with (e_version Q). change (e_legal (bared Q)) with (e_legal Q).
  change (q_section (bared Q)) with (q_section Q). change (q_line (bared Q)) with (q_line Q). cbn [bared q_header q_footer].
  unfold e_ret. rewrite !fst_seq. cbn [fst].
  apply eq_true_iff_eq. rewrite !andb_true_iff. intuition auto.
Qed.

Lemma scans_page (Q Q1 Q2 : @effects (bool * bool)) ex adv r :
  (forall s, q_bold Q1 s = q_bold Q s) -> (forall s, q_bold Q2 s = q_bold Q s) ->
  (forall s, scans (q_section Q s) (q_section Q1 s) (q_section Q2 s)) ->
  (forall s, scans (q_subsection Q s) (q_subsection Q1 s) (q_subsection Q2 s)) ->
  (forall s b, scans (q_line Q s b) (q_line Q1 s b) (q_line Q2 s b)) ->
  (forall k d, scans (q_item Q k d) (q_item Q1 k d) (q_item Q2 k d)) ->
  scans (e_page (bared Q) ex adv r) (e_page (bared Q1) ex adv r) (e_page (bared Q2) ex adv r).
Proof.
  intros B1 B2 HS HU HL HI.
  assert (HP : forall i, scans (q_print Q i) (q_print Q1 i) (q_print Q2 i)) by (intros [s|s|s b|k d]; cbn; auto).
  assert (HY : forall s, scans (e_synopsis Q s) (e_synopsis Q1 s) (e_synopsis Q2 s)).
  { intros s. unfold e_synopsis. destruct (synopsis_line s); auto; intros H; discriminate H. }
  unfold e_page, e_before, e_after.
  change (e_map (e_synopsis (bared Q))) with (e_map (e_synopsis Q)). change (e_subcommands (bared Q)) with (e_subcommands Q).
  change (e_map (q_print (bared Q))) with (e_map (q_print Q)). change (e_common (bared Q)) with (e_common Q).
  change (e_version (bared Q)) with (e_version Q). change (e_legal (bared Q)) with (e_legal Q).
  change (e_map (e_synopsis (bared Q1))) with (e_map (e_synopsis Q1)). change (e_subcommands (bared Q1)) with (e_subcommands Q1).
  change (e_map (q_print (bared Q1))) with (e_map (q_print Q1)). change (e_common (bared Q1)) with (e_common Q1).
  change (e_version (bared Q1)) with (e_version Q1). change (e_legal (bared Q1)) with (e_legal Q1).
  change (e_map (e_synopsis (bared Q2))) with (e_map (e_synopsis Q2)). change (e_subcommands (bared Q2)) with (e_subcommands Q2).
  change (e_map (q_print (bared Q2))) with (e_map (q_print Q2)). change (e_common (bared Q2)) with (e_common Q2).
  change (e_version (bared Q2)) with (e_version Q2). change (e_legal (bared Q2)) with (e_legal Q2).
  cbn [bared q_header q_footer q_section q_line].
  assert (V : scans (e_version Q (pr_info r)) (e_version Q1 (pr_info r)) (e_version Q2 (pr_info r))).
  { unfold e_version. rewrite !B1, !B2. repeat (apply scans_seq; [auto|]). apply scans_when, scans_seq; auto. }
  assert (L : scans (e_legal Q (pr_info r)) (e_legal Q1 (pr_info r)) (e_legal Q2 (pr_info r))).
  { unfold e_legal. rewrite !B1, !B2. apply scans_when. repeat (apply scans_seq; [auto; apply scans_when; auto|]). apply scans_when; auto. }
  assert (S : scans (e_subcommands Q (pr_info r) (pr_subcommands r)) (e_subcommands Q1 (pr_info r) (pr_subcommands r)) (e_subcommands Q2 (pr_info r) (pr_subcommands r))).
  { unfold e_subcommands. destruct (pr_subcommands r) as [|s0 l]; [apply scans_ret|].
    do 2 (apply scans_seq; [auto|]). apply scans_seq; [apply scans_map; auto|]. apply scans_seq; auto. }
  assert (C : scans (e_common Q ex (pr_dev r)) (e_common Q1 ex (pr_dev r)) (e_common Q2 ex (pr_dev r))).
  { unfold e_common. repeat (apply scans_seq; [auto|]). apply scans_when; auto. }
  repeat first [exact scans_ret | exact V | exact L | exact S | exact C | solve [auto] | apply scans_when | apply scans_map; solve [auto] | apply scans_seq].
Qed.

(** *** The members *)

(** like [html_effects]; the first component is what [test] says of the texts *)
Definition tested (test : string -> bool) : @effects (bool * bool) :=
  {| q_header := fun m => (test (m_app_name m) && test (m_short_description m), fun f => ("", f));
     q_section := fun s => (test s, fun f => ("", f)); q_subsection := fun s => (test s, fun f => ("", f));
     q_line := fun s _ => (test s, fun f => ("", f)); q_item := fun k d => (test k && test d, fun f => ("", f));
     q_footer := e_ret; q_bold := q_bold (html_effects nd) |}.

(** a page element cannot be closed while a font is on *)
Lemma closing_fails n l k t : In n ["p"; "h1"; "h2"; "h3"; "div"; "dt"; "dd"] -> l <> [] -> Forall font l ->
  html_scan ("</" +s+ n +s+ ">" +s+ t) (HText, l ++ k) = None.
Proof.
  intros Hn Nl Fl. destruct l as [|x l]; [congruence|]. inversion Fl as [|? ? Fx _]; subst. rewrite <- !app_assoc_s, scan_app.
  assert (E : html_scan (("</" +s+ n) +s+ ">") (HText, (x :: l) ++ k) = None).
  { cbn [In] in Hn. destruct Fx as [->| ->]; repeat (destruct Hn as [<-|Hn]; [reflexivity|]); destruct Hn. }
  now rewrite E.
Qed.

(** a text between the tags of an element *)
Lemma element n s k t : In n ["h1"; "h2"; "h3"; "div"; "dt"; "dd"] -> hok nd s = true -> tidy s = true ->
  html_scan ("<" +s+ n +s+ ">" +s+ hconv nd s +s+ "</" +s+ n +s+ ">" +s+ t) (HText, k) =
  if flat s then html_scan t (HText, k) else None.
Proof.
  intros Hn K O.
  assert (A : html_scan ("<" +s+ n +s+ ">") (HText, k) = Some (HText, n :: k)).
  { cbn [In] in Hn. repeat (destruct Hn as [<-|Hn]; [reflexivity|]). destruct Hn. }
  assert (C : html_scan ("</" +s+ n +s+ ">") (HText, n :: k) = Some (HText, k)).
  { clear A. cbn [In] in Hn. repeat (destruct Hn as [<-|Hn]; [reflexivity|]). destruct Hn. }
  replace ("<" +s+ n +s+ ">" +s+ hconv nd s +s+ "</" +s+ n +s+ ">" +s+ t) with
    (("<" +s+ n +s+ ">") +s+ hconv nd s +s+ ("</" +s+ n +s+ ">") +s+ t) by (rewrite !app_assoc_s; reflexivity).
  rewrite scan_app, A, scan_app. destruct (scan_conv nd s K O (n :: k)) as (l & R & Fl & E). unfold reads in R. rewrite R.
  destruct (flat s).
  - rewrite (proj2 E eq_refl). cbn [app]. now rewrite scan_app, C.
  - rewrite !app_assoc_s. apply closing_fails; [cbn [In] in *; tauto| |exact Fl]. intros N. apply E in N. discriminate.
Qed.

Lemma scan_nl t k : html_scan (nl +s+ t) (HText, k) = html_scan t (HText, k).
Proof. reflexivity. Qed.
Lemma scan_nl0 k : html_scan nl (HText, k) = Some (HText, k).
Proof. reflexivity. Qed.

(** reading a heading from outside of lists and paragraphs *)
Lemma heading n s : In n ["h2"; "h3"] -> forall Q, Q = e_seq e_close_list (e_seq e_close_p (e_html nd s (fun t => "<" +s+ n +s+ ">" +s+ t +s+ "</" +s+ n +s+ ">" +s+ nl))) ->
  scans Q (flat s, fun f => ("", f)) (tidy s, fun f => ("", f)).
Proof.
  intros Hn Q -> K O. cbn [e_seq e_close_list e_close_p e_html fst snd andb] in K, O. split.
  - assert (G : forall k, html_scan ("<" +s+ n +s+ ">" +s+ hconv nd s +s+ "</" +s+ n +s+ ">" +s+ nl) (HText, k) = if flat s then Some (HText, k) else None).
    { intros k. rewrite element; auto. cbn [In] in *. tauto. }
    assert (X : forall pre k, reads pre k ["body"; "html"] -> if flat s
       then reads (pre +s+ "<" +s+ n +s+ ">" +s+ hconv nd s +s+ "</" +s+ n +s+ ">" +s+ nl) k ["body"; "html"]
       else html_scan (pre +s+ "<" +s+ n +s+ ">" +s+ hconv nd s +s+ "</" +s+ n +s+ ">" +s+ nl) (HText, k) = None).
    { intros pre k Hp. unfold reads in *. rewrite scan_app, Hp, G. destruct (flat s); reflexivity. }
    intros [[] []] V; try discriminate V; (split; [reflexivity|]); cbn [e_seq e_close_list e_close_p e_html fst snd].
    + specialize (X ("</dl>" +s+ nl) ["dl"; "body"; "html"] eq_refl). destruct (flat s); [exact X|left; exact X].
    + specialize (X ("</p>" +s+ nl) ["p"; "body"; "html"] eq_refl). destruct (flat s); [exact X|left; exact X].
    + specialize (X "" ["body"; "html"] eq_refl). destruct (flat s); [exact X|left; exact X].
  - intros [[] []] l V P Nl Fl; try discriminate V; try discriminate P. left. cbn [e_seq e_close_list e_close_p e_html fst snd stk].
    cbn [String.append]. apply (closing_fails "p"); auto. cbn; auto.
Qed.

Lemma scans_section s : scans (q_section (html_effects nd) s) (q_section (tested flat) s) (q_section (tested tidy) s).
Proof. apply (heading "h2"); [cbn; auto|reflexivity]. Qed.
Lemma scans_subsection s : scans (q_subsection (html_effects nd) s) (q_subsection (tested flat) s) (q_subsection (tested tidy) s).
Proof. apply (heading "h3"); [cbn; auto|reflexivity]. Qed.

Lemma scans_line s b : scans (q_line (html_effects nd) s b) (q_line (tested flat) s b) (q_line (tested tidy) s b).
Proof.
  intros K O. assert (K' : hok nd s = true).
  { cbn [q_line html_effects e_seq e_close_list e_open_p e_html fst andb] in K. apply andb_prop in K. apply K. }
  cbn [q_line tested fst] in O. clear K.
  (* from within the paragraph *)
  assert (G : forall pre k0 l0, Forall font l0 -> reads pre k0 (l0 ++ ["p"; "body"; "html"]) ->
     if flat s && match l0 with [] => true | _ => false end
     then reads (pre +s+ (hconv nd s +s+ nl) +s+ (if b then "</p>" +s+ nl else "<br>" +s+ nl)) k0 (stk (false, negb b))
     else spoiled (pre +s+ (hconv nd s +s+ nl) +s+ (if b then "</p>" +s+ nl else "<br>" +s+ nl)) k0 (false, negb b)).
  { intros pre k0 l0 F0 Hp. destruct (scan_conv nd s K' O (l0 ++ ["p"; "body"; "html"])) as (l & R & Fl & E). unfold spoiled, reads in *.
    rewrite scan_app, Hp, app_assoc_s, scan_app, R, scan_nl. destruct (flat s).
    - rewrite (proj2 E eq_refl). cbn [andb app]. destruct l0 as [|x l0]; [now destruct b|]. destruct b.
      + left. apply (closing_fails "p" (x :: l0) ["p"; "body"; "html"] nl); [cbn; auto|discriminate|exact F0].
      + right. exists (x :: l0). repeat split; [discriminate|exact F0].
    - cbn [andb]. assert (N : l ++ l0 <> []).
      { intros N. apply app_eq_nil in N as [N _]. apply E in N. discriminate. }
      assert (F2 : Forall font (l ++ l0)) by (apply Forall_app; auto). rewrite app_assoc. destruct b.
      + left. apply (closing_fails "p" (l ++ l0) ["p"; "body"; "html"] nl); [cbn; auto|exact N|exact F2].
      + right. exists (l ++ l0). repeat split; [exact N|exact F2]. }
  split.
  - intros f V. split; [destruct b, f as [[] []]; try discriminate V; reflexivity|].
    cbn [q_line html_effects tested fst].
    destruct f as [[] []]; try discriminate V.
    + pose proof (G ("</dl>" +s+ nl +s+ "<p>" +s+ nl) ["dl"; "body"; "html"] [] (Forall_nil _) eq_refl) as X. rewrite andb_true_r in X. destruct b; exact X.
    + pose proof (G "" ["p"; "body"; "html"] [] (Forall_nil _) eq_refl) as X. rewrite andb_true_r in X. destruct b; exact X.
    + pose proof (G ("<p>" +s+ nl) ["body"; "html"] [] (Forall_nil _) eq_refl) as X. rewrite andb_true_r in X. destruct b; exact X.
  - intros [[] []] l V P Nl Fl; try discriminate V; try discriminate P.
    pose proof (G "" (l ++ ["p"; "body"; "html"]) l Fl eq_refl) as X. destruct l as [|x l]; [congruence|]. rewrite andb_false_r in X. destruct b; exact X.
Qed.

Lemma scans_item k d : scans (q_item (html_effects nd) k d) (q_item (tested flat) k d) (q_item (tested tidy) k d).
Proof.
  intros K O. cbn [q_item html_effects tested e_seq e_close_p e_open_list e_html fst andb] in K, O.
  apply andb_prop in K as [K1 K2]. apply andb_prop in O as [O1 O2].
  assert (G : forall pre k0, reads pre k0 ["dl"; "body"; "html"] -> if flat k && flat d
     then reads (pre +s+ ("<dt>" +s+ hconv nd k +s+ "</dt>" +s+ nl) +s+ ("<dd>" +s+ hconv nd d +s+ "</dd>" +s+ nl)) k0 ["dl"; "body"; "html"]
     else html_scan (pre +s+ ("<dt>" +s+ hconv nd k +s+ "</dt>" +s+ nl) +s+ ("<dd>" +s+ hconv nd d +s+ "</dd>" +s+ nl)) (HText, k0) = None).
  { intros pre k0 Hp. unfold reads in *. rewrite scan_app, Hp, !app_assoc_s.
    pose proof (element "dt" k ["dl"; "body"; "html"] (nl +s+ "<dd>" +s+ hconv nd d +s+ "</dd>" +s+ nl)) as X. cbn [String.append] in X |- *.
    rewrite X by (cbn; auto 10). clear X. destruct (flat k); [|reflexivity]. rewrite scan_nl.
    pose proof (element "dd" d ["dl"; "body"; "html"] nl) as X. cbn [String.append] in X |- *. rewrite X by (cbn; auto 10). now destruct (flat d). }
  split.
  - intros f V. split; [destruct f as [[] []]; try discriminate V; reflexivity|]. cbn [q_item tested fst].
    destruct f as [[] []]; try discriminate V.
    + pose proof (G "" ["dl"; "body"; "html"] eq_refl) as X. destruct (flat k && flat d); [exact X|left; exact X].
    + pose proof (G ("</p>" +s+ nl +s+ "<dl>" +s+ nl) ["p"; "body"; "html"] eq_refl) as X. destruct (flat k && flat d); [exact X|left; exact X].
    + pose proof (G ("<dl>" +s+ nl) ["body"; "html"] eq_refl) as X. destruct (flat k && flat d); [exact X|left; exact X].
  - intros [[] []] l V P Nl Fl; try discriminate V; try discriminate P. left. cbn [q_item html_effects e_seq e_close_p e_open_list e_html fst snd stk].
    cbn [String.append]. apply (closing_fails "p"); auto. cbn; auto.
Qed.

Lemma scans_header m : hok nd (m_app_name m) = true -> hok nd (m_short_description m) = true -> tidy (m_app_name m) = true -> tidy (m_short_description m) = true ->
  forall f t, snd (snd (q_header (html_effects nd) m) f) = f /\
  html_scan (fst (snd (q_header (html_effects nd) m) f) +s+ t) (HText, []) =
    if flat (m_app_name m) && flat (m_short_description m) then html_scan t (HText, ["body"; "html"]) else None.
Proof.
  intros K1 K2 O1 O2 f t. split; [reflexivity|].
  cbn [q_header html_effects]. unfold e_put, e_html, e_seq. cbn [fst snd].
  match goal with |- html_scan ((?p +s+ _) +s+ _) _ = _ => set (pre := p) end.
  assert (P : reads pre [] ["body"; "html"]).
  { subst pre. apply (reads_app ("<!DOCTYPE html PUBLIC ""-//W3C//DTD HTML 4.01//EN"" http://www.w3.org/TR/html4/strict.dtd"">" +s+ nl
            +s+ "<html lang=""en"">" +s+ nl +s+ "<head>" +s+ nl
            +s+ "<meta http-equiv=""content-type"" content=""text/html; charset=utf-8"">" +s+ nl +s+ "<title>")
        (xml_escape (m_app_name m) +s+ " &mdash; " +s+ xml_escape (m_short_description m) +s+ "</title>" +s+ nl +s+ "</head>" +s+ nl +s+ "<body>" +s+ nl)
        [] ["title"; "head"; "html"]); [vm_compute; reflexivity|].
    eapply reads_app; [apply scan_plain, escape_no_tag|]. apply (reads_app " &mdash; " _ _ ["title"; "head"; "html"]); [reflexivity|].
    eapply reads_app; [apply scan_plain, escape_no_tag|]. vm_compute. reflexivity. }
  clearbody pre. rewrite !app_assoc_s, scan_app. unfold reads in P. rewrite P.
  pose proof (element "h1" (m_app_name m) ["body"; "html"] (nl +s+ "<div>" +s+ hconv nd (m_short_description m) +s+ "</div>" +s+ nl +s+ t)) as X.
  cbn [String.append] in X |- *. rewrite X by (cbn; auto 10). clear X. destruct (flat (m_app_name m)); [|reflexivity]. cbn [andb]. rewrite scan_nl.
  pose proof (element "div" (m_short_description m) ["body"; "html"] (nl +s+ t)) as X. cbn [String.append] in X |- *. rewrite X by (cbn; auto 10).
  now destruct (flat (m_short_description m)).
Qed.

Lemma nested_page ex r : let E := e_page (html_effects nd) ex false r in
  fst E = true -> fst (e_page (tested tidy) ex false r) = true ->
  (well_nested (fst (snd E (false, false))) <-> fst (e_page (tested flat) ex false r) = true).
Proof.
  cbn zeta. intros K O. rewrite page_around. rewrite bared_ok in K, O. rewrite bared_ok.
  apply andb_prop in K as [K _]. apply andb_prop in K as [Kh Kp]. apply andb_prop in O as [O _]. apply andb_prop in O as [Oh Op].
  cbn [q_header html_effects tested e_seq e_put e_html fst andb] in Kh, Oh. apply andb_prop in Kh as [K1 K2]. apply andb_prop in Oh as [O1 O2].
  destruct (scans_page (html_effects nd) (tested flat) (tested tidy) ex false r (fun _ => eq_refl) (fun _ => eq_refl)
    scans_section scans_subsection scans_line scans_item Kp Op) as [S _].
  specialize (S (false, false) eq_refl). change (bared (html_effects nd)) with (bare nd) in S. destruct S as [V S].
  pose proof (clears_page nd ex false r (false, false)) as CL.
  unfold e_seq at 1. cbn [fst snd]. unfold well_nested.
  destruct (scans_header (pr_info r) K1 K2 O1 O2 (false, false) (fst (snd (e_seq (e_page (bare nd) ex false r) (q_footer (html_effects nd)))
     (snd (snd (q_header (html_effects nd) (pr_info r)) (false, false)))))) as [Hf Hs]. rewrite Hs, Hf. clear Hs Hf.
  cbn [q_header q_footer tested fst e_ret]. rewrite andb_true_r.
  destruct (flat (m_app_name (pr_info r)) && flat (m_short_description (pr_info r))); cbn [andb]; [|split; discriminate].
  unfold e_seq. cbn [fst snd]. rewrite scan_app.
  set (f' := snd (snd (e_page (bare nd) ex false r) (false, false))) in *. set (out := fst (snd (e_page (bare nd) ex false r) (false, false))) in *.
  clearbody f' out. change (stk (false, false)) with ["body"; "html"] in S.
  destruct f' as [d p]. cbn [fst] in CL. subst d.
  destruct (fst (e_page (bared (tested flat)) ex false r)).
  - unfold reads in S. rewrite S. destruct p; split; reflexivity.
  - split; [|discriminate]. destruct S as [->|(l & Nl & Fl & Pf & R)]; [discriminate|]. unfold reads in R. rewrite R. cbn [snd] in Pf. subst p.
    assert (Z0 : html_scan ("</" +s+ "p" +s+ ">" +s+ nl +s+ "</body></html>") (HText, l ++ ["p"; "body"; "html"]) = None)
      by (apply closing_fails; [cbn; auto|exact Nl|exact Fl]).
    intros W. enough (N : Some (HText, @nil string) = None) by discriminate N. rewrite <- W. exact Z0.
Qed.

End nested.

(** ** The statement about pages *)

Lemma bland1_back p : bland1 p = true -> scontains "\" p = false.
Proof. unfold bland1, bland. destruct (scontains "\" p); [discriminate|reflexivity]. Qed.
Lemma bland1_app a b : bland1 a = true -> bland1 b = true -> bland1 (a +s+ b) = true.
Proof.
  unfold bland1. intros A B. apply andb_prop in A as [A1 A2]. apply andb_prop in B as [B1 B2]. rewrite bland_app by assumption. cbn [andb].
  rewrite negb_true_iff in *. clear A1 B1. induction a as [|c a IH]; [exact B2|]. cbn [String.append scontains] in *. apply orb_false_elim in A2 as [-> A2]. now apply IH.
Qed.

Lemma tidy_bold a s : bland1 a = true -> okay false "" ("<strong>" +s+ a +s+ "</strong>" +s+ s) = okay false "" s.
Proof.
  intros H. assert (Q : forall i p t, okay i p (p +s+ t) = okay i "" t).
  { intros i p t. induction p as [|c p IH]; [reflexivity|]. cbn [String.append okay]. now rewrite Ascii.eqb_refl. }
  change (okay false "" ("<strong>" +s+ a +s+ "</strong>" +s+ s)) with (okay true "strong>" ("strong>" +s+ a +s+ "</strong>" +s+ s)).
  rewrite Q, okay_plain by exact H. change (okay true "" ("</strong>" +s+ s)) with (okay false "/strong>" ("/strong>" +s+ s)). apply Q.
Qed.

Lemma nat_bland1 n : bland1 (nat_to_string n) = true.
Proof.
  unfold bland1. rewrite nat_bland. cbn [andb]. apply negb_true_iff.
  assert (D : forall d, scontains "<" (DecimalString.NilEmpty.string_of_uint d) = false).
  { induction d as [|d IH|d IH|d IH|d IH|d IH|d IH|d IH|d IH|d IH|d IH]; cbn; auto. }
  unfold nat_to_string, Z_to_string, DecimalString.NilZero.string_of_int, DecimalString.NilZero.string_of_uint.
  destruct (Z.to_int (Z.of_nat n)) as [d|d]; destruct d; try reflexivity; try apply D; cbn [scontains]; try apply (D _).
Qed.

Section page_tests.
Variables (nd : bool) (ex : string).
Hypothesis ex_bland : bland1 ex = true.

Lemma flat_page adv r : bland1 (m_app_name (pr_info r)) = true -> fst (e_page (tested nd flat) ex adv r) =
  has_commands (pr_info r) && forallb flat (all_lines adv r) && forallb flat (all_terms adv r) && forallb flat (all_titles adv r).
Proof.
  assert (PL : forall p s, bland1 p = true -> flat (p +s+ s) = flat s) by (intros p s H; apply balanced_plain, bland1_back, H).
  assert (ST : forall a s, bland1 a = true -> flat (("<strong>" +s+ a +s+ "</strong>") +s+ s) = flat s).
  { intros a s H. rewrite !app_assoc_s. unfold flat. rewrite balanced_plain by reflexivity. rewrite balanced_plain by apply bland1_back, H. now apply balanced_plain. }
  apply (page_ok (tested nd flat) flat flat flat (fun a => bland1 a = true) ex); try reflexivity; try exact ex_bland; auto.
  - intros n s. unfold flat. change (balanced 1 ("ARGUMENT-" +s+ nat_to_string n +s+ "\fP " +s+ s) = balanced 0 s). rewrite balanced_plain by reflexivity.
    rewrite balanced_plain by apply bland1_back, nat_bland1. reflexivity.
  - intros a v s A H. change (flat (("<strong>" +s+ (a +s+ " " +s+ v) +s+ "</strong>") +s+ s) = flat (a +s+ " " +s+ v +s+ s)).
    rewrite ST, (PL a), (PL " "), (PL v) by (repeat apply bland1_app; auto). reflexivity.
Qed.

Lemma tidy_page adv r : bland1 (m_app_name (pr_info r)) = true -> fst (e_page (tested nd tidy) ex adv r) =
  has_commands (pr_info r) && forallb tidy (all_lines adv r) && forallb tidy (all_terms adv r) && forallb tidy (all_titles adv r).
Proof.
  assert (PL : forall p s, bland1 p = true -> tidy (p +s+ s) = tidy s) by (intros p s H; apply okay_plain, H).
  assert (ST : forall a s, bland1 a = true -> tidy (("<strong>" +s+ a +s+ "</strong>") +s+ s) = tidy s).
  { intros a s H. rewrite !app_assoc_s. now apply tidy_bold. }
  apply (page_ok (tested nd tidy) tidy tidy tidy (fun a => bland1 a = true) ex); try reflexivity; try exact ex_bland; auto.
  - intros n s. unfold tidy. change (okay false "" ("ARGUMENT-" +s+ nat_to_string n +s+ "\fP " +s+ s) = okay false "" s). rewrite okay_plain by reflexivity.
    rewrite okay_plain by apply nat_bland1. reflexivity.
  - intros a v s A H. change (tidy (("<strong>" +s+ (a +s+ " " +s+ v) +s+ "</strong>") +s+ s) = tidy (a +s+ " " +s+ v +s+ s)).
    rewrite ST, (PL a), (PL " "), (PL v) by (repeat apply bland1_app; auto). reflexivity.
Qed.

End page_tests.

Lemma html_nested_exact e r out : pr_format r = FHtml -> page e r = Ret out ->
  scontains "\" (m_app_name (pr_info r)) = false -> scontains nul (m_app_name (pr_info r)) = false ->
  (forall s, In s (all_lines false r ++ all_terms false r ++ all_titles false r) -> scontains "<" s = false) ->
  (well_nested out <-> forall s, In s (all_lines false r ++ all_terms false r ++ all_titles false r) -> balanced 0 s = true).
Proof.
  intros HF HP N1 N2 HT. pose proof (html_page_eff e r HF) as X. cbn zeta in X. set (nd := pe_ndebug e) in *.
  assert (A : bland1 (m_app_name (pr_info r)) = true).
  { unfold bland1, bland. rewrite N1, N2, HT; [reflexivity|]. rewrite !in_app_iff. right. right. left. reflexivity. }
  destruct (fst (e_page (html_effects nd) (exports e) false r)) eqn:K; [|rewrite HP in X; discriminate]. rewrite HP in X.
  assert (O : fst (e_page (tested nd tidy) (exports e) false r) = true).
  { rewrite tidy_page by (exact A || apply exports_bland1).
    assert (C : has_commands (pr_info r) = true).
    { pose proof (proj1 (html_exact e r HF) (ex_intro _ out HP)) as C. unfold html_prints in C. apply andb_prop in C. apply C. }
    rewrite C. cbn [andb]. rewrite <- andb_assoc, <- !forallb_app. apply forallb_forall. intros s Hs. apply okay_no_tag, HT, Hs. }
  pose proof (nested_page nd (exports e) r K O) as W. cbn zeta in W.
  replace out with (fst (snd (e_page (html_effects nd) (exports e) false r) (false, false))) by congruence. rewrite W.
  rewrite flat_page by (exact A || apply exports_bland1).
  assert (C : has_commands (pr_info r) = true).
  { pose proof (proj1 (html_exact e r HF) (ex_intro _ out HP)) as C. unfold html_prints in C. apply andb_prop in C. apply C. }
  rewrite C. cbn [andb]. rewrite <- andb_assoc, <- !forallb_app. apply forallb_forall.
Qed.
