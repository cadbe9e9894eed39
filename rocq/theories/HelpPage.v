(** Proofs about whole pages, for any printer whose members append to the output. *)
From Verif Require Import Base StrLib Fs Values Validators FormatParse Parser HelpBase HelpSpec.

(** An effect: whether the code succeeds, and what it appends and how it changes the flags. *)
Definition eff (F : Type) : Type := bool * (F -> string * F).

Section effects.
Context {St F : Type} (mk : string -> F -> St).

Definition does (m : M St unit) (e : eff F) : Prop := forall s f,
  if fst e then m (mk s f) = (mk (s +s+ fst (snd e f)) (snd (snd e f)), Ret tt) else is_ret (snd (m (mk s f))) = false.

Definition e_ret : eff F := (true, fun f => ("", f)).
Definition e_seq (a b : eff F) : eff F :=
  (fst a && fst b, fun f => (fst (snd a f) +s+ fst (snd b (snd (snd a f))), snd (snd b (snd (snd a f))))).
Fixpoint e_map {A} (h : A -> eff F) (l : list A) : eff F :=
  match l with [] => e_ret | a :: l' => e_seq (h a) (e_map h l') end.
Definition e_when (b : bool) (e : eff F) : eff F := if b then e else e_ret.

Lemma does_ret : does (ret tt) e_ret.
Proof. intros s f. cbn. now rewrite app_nil_r_s. Qed.

Lemma does_bind m1 m2 e1 e2 : does m1 e1 -> does m2 e2 -> does (m1 ;; m2) (e_seq e1 e2).
Proof.
  intros H1 H2 s f. unfold bind. specialize (H1 s f). unfold e_seq; cbn [fst snd]. destruct (fst e1); cbn [andb].
  - rewrite H1. specialize (H2 (s +s+ fst (snd e1 f)) (snd (snd e1 f))). destruct (fst e2); [|exact H2].
    now rewrite H2, app_assoc_s.
  - destruct (m1 (mk s f)) as [st' r]. destruct r; cbn in *; try discriminate; reflexivity.
Qed.

Lemma does_map {A} (h : A -> M St unit) e l : (forall a, In a l -> does (h a) (e a)) -> does (mapM_ h l) (e_map e l).
Proof.
  induction l as [|a l IH]; intros H; [apply does_ret|]. cbn [mapM_ e_map]. apply does_bind; [apply H; now left|].
  apply IH. intros b Hb. apply H. now right.
Qed.

Lemma does_when b m e : does m e -> does (when b m) (e_when b e).
Proof. destruct b; intros H; [exact H|apply does_ret]. Qed.

(** effects of the members of a printer *)
Record effects := {
  q_header : meta -> eff F; q_section : string -> eff F; q_subsection : string -> eff F; q_line : string -> bool -> eff F;
  q_item : string -> string -> eff F; q_footer : eff F; q_bold : string -> string }.

Definition implements (P : printer St) (Q : effects) : Prop :=
  (forall m, does (p_header P m) (q_header Q m)) /\ (forall s, does (p_section P s) (q_section Q s)) /\
  (forall s, does (p_subsection P s) (q_subsection Q s)) /\ (forall s b, does (p_line P s b) (q_line Q s b)) /\
  (forall k d, does (p_item P k d) (q_item Q k d)) /\ does (p_footer P) (q_footer Q) /\
  (forall s, p_bold P s = q_bold Q s).

Variable Q : effects.

Definition q_print (i : item) : eff F :=
  match i with
  | ISection s => q_section Q s
  | ISubsection s => q_subsection Q s
  | ILine s b => q_line Q s b
  | IItem k d => q_item Q k d
  end.

(** a line of the synopsis: the program name in bold *)
Definition e_synopsis (s : string) : eff F :=
  match synopsis_line s with Ret t => q_line Q t false | _ => (false, fun f => ("", f)) end.

Definition e_version (m : meta) : eff F :=
  e_seq (q_section Q "Version") (e_seq (q_line Q (q_bold Q "Last update: " +s+ m_date m) false)
   (e_seq (q_line Q (q_bold Q (m_app_name m +s+ " version: ") +s+ m_version m) false)
    (e_seq (q_line Q (q_bold Q "Sharg version: " +s+ sharg_version) false)
     (e_when (negb (is_empty (m_url m))) (e_seq (q_section Q "Url") (q_line Q (m_url m) false)))))).

Definition e_legal (m : meta) : eff F :=
  e_when (negb (is_empty (m_short_copyright m)) || negb (is_empty (m_long_copyright m)) || negb (is_empty (m_citation m))
        || negb (is_empty (m_author m)) || negb (is_empty (m_email m)))
   (e_seq (q_section Q "Legal")
    (e_seq (e_when (negb (is_empty (m_short_copyright m)))
              (q_line Q (q_bold Q (m_app_name m +s+ " Copyright: ") +s+ m_short_copyright m) false))
    (e_seq (e_when (negb (is_empty (m_author m))) (q_line Q (q_bold Q "Author: " +s+ m_author m) false))
    (e_seq (e_when (negb (is_empty (m_email m))) (q_line Q (q_bold Q "Contact: " +s+ m_email m) false))
    (e_seq (q_line Q (q_bold Q "SeqAn Copyright: " +s+ "2006-2024 Knut Reinert, FU-Berlin; released under the 3-clause BSDL.") false)
    (e_seq (e_when (negb (is_empty (m_citation m)))
              (q_line Q (q_bold Q "In your academic works please cite: " +s+ m_citation m) false))
           (e_when (negb (is_empty (m_long_copyright m)))
              (q_line Q ("For full copyright and/or warranty information see " +s+ q_bold Q "--copyright" +s+ ".") false)))))))).

Definition e_subcommands (m : meta) (subs : list string) : eff F :=
  match subs with
  | [] => e_ret
  | s0 :: _ =>
      e_seq (q_section Q "Subcommands")
      (e_seq (q_line Q "This program must be invoked with one of the following subcommands:" false)
      (e_seq (e_map (fun name => q_line Q ("- \fB" +s+ name +s+ "\fP") false) subs)
      (e_seq (q_line Q ("See the respective help page for further details (e.g. by calling " +s+ m_app_name m
                +s+ " " +s+ s0 +s+ " -h).") true)
             (q_line Q ("The following options belong to the top-level parser and need to be "
                +s+ "specified \fBbefore\fP the subcommand key word. Every argument after the "
                +s+ "subcommand key word is passed on to the corresponding sub-parser.") true))))
  end.

Definition e_common (exports : string) (dev : bool) : eff F :=
  e_seq (q_subsection Q "Common options")
  (e_seq (q_item Q "\fB-h\fP, \fB--help\fP" "Prints the help page.")
  (e_seq (q_item Q "\fB-hh\fP, \fB--advanced-help\fP" "Prints the help page including advanced options.")
  (e_seq (q_item Q "\fB--version\fP" "Prints the version information.")
  (e_seq (q_item Q "\fB--copyright\fP" "Prints the copyright/license information.")
  (e_seq (q_item Q "\fB--export-help\fP (std::string)"
           ("Export the help page information. Value must be one of " +s+ exports +s+ "."))
         (e_when dev (q_item Q "\fB--version-check\fP (bool)" "Whether to check for the newest app version. Default: true"))))))).

Definition e_before (r : page_request) : eff F :=
  let m := pr_info r in
  let pos := positional_calls (pr_vars r) 0 (pr_ops r) in
  e_seq (q_header Q m)
  (e_seq (e_when (nonempty (m_synopsis m)) (e_seq (q_section Q "Synopsis") (e_map e_synopsis (m_synopsis m))))
  (e_seq (e_when (nonempty (m_description m)) (e_seq (q_section Q "Description") (e_map (fun d => q_line Q d true) (m_description m))))
  (e_seq (e_subcommands m (pr_subcommands r))
  (e_seq (e_when (nonempty pos) (q_section Q "Positional Arguments"))
  (e_map q_print pos))))).

Definition e_after (exports : string) (r : page_request) : eff F :=
  let m := pr_info r in
  e_seq (e_common exports (pr_dev r))
  (e_seq (e_when (nonempty (m_examples m)) (e_seq (q_section Q "Examples") (e_map (fun d => q_line Q d true) (m_examples m))))
  (e_seq (e_version m) (e_seq (e_legal m) (q_footer Q)))).

Definition e_page (exports : string) (adv : bool) (r : page_request) : eff F :=
  e_seq (e_before r) (e_seq (q_section Q "Options")
    (e_seq (e_map q_print (set_up_calls adv (pr_vars r) (pr_ops r))) (e_after exports r))).

(** sequencing is associative *)
Lemma e_seq_assoc a b c f : snd (e_seq (e_seq a b) c) f = snd (e_seq a (e_seq b c)) f.
Proof. cbn. now rewrite app_assoc_s. Qed.

Lemma does_print P : implements P Q -> forall i, does (print_item P i) (q_print i).
Proof. intros (_ & H2 & H3 & H4 & H5 & _) [s|s|s b|k d]; cbn; auto. Qed.

Lemma does_synopsis P s : implements P Q ->
  does (do t <- (fun st => (st, synopsis_line s)); p_line P t false) (e_synopsis s).
Proof.
  intros (_ & _ & _ & H4 & _) s0 f. unfold e_synopsis, bind. destruct (synopsis_line s) eqn:E; try reflexivity. exact (H4 a false s0 f).
Qed.

Lemma does_page P exports adv r : implements P Q -> does (print_page P exports adv r) (e_page exports adv r).
Proof.
  intros I. pose proof (does_print P I) as HI. pose proof (fun s => does_synopsis P s I) as HS.
  destruct I as (H1 & H2 & H3 & H4 & H5 & H6 & H7).
  assert (V : does (print_version P (pr_info r)) (e_version (pr_info r))).
  { unfold print_version, e_version. rewrite <- !H7. repeat (apply does_bind; [auto|]). apply does_when, does_bind; auto. }
  assert (G : does (print_legal P (pr_info r)) (e_legal (pr_info r))).
  { unfold print_legal, e_legal. rewrite <- !H7. apply does_when. repeat (apply does_bind; [auto; apply does_when; auto|]). apply does_when; auto. }
  assert (S : does (print_subcommands P (pr_info r) (pr_subcommands r)) (e_subcommands (pr_info r) (pr_subcommands r))).
  { unfold print_subcommands, e_subcommands. destruct (pr_subcommands r) as [|s0 l]; [apply does_ret|].
    do 2 (apply does_bind; [auto|]). apply does_bind; [apply does_map; auto|]. apply does_bind; auto. }
  assert (C : does (print_common P exports (pr_dev r)) (e_common exports (pr_dev r))).
  { unfold print_common, e_common. repeat (apply does_bind; [auto|]). apply does_when; auto. }
  assert (A : does (print_common P exports (pr_dev r) ;;
     when (nonempty (m_examples (pr_info r))) (p_section P "Examples" ;; mapM_ (fun d => p_line P d true) (m_examples (pr_info r))) ;;
     print_version P (pr_info r) ;; print_legal P (pr_info r) ;; p_footer P) (e_after exports r)).
  { unfold e_after. apply does_bind; [exact C|]. apply does_bind; [apply does_when, does_bind; [auto|apply does_map; auto]|].
    apply does_bind; [exact V|]. apply does_bind; [exact G|exact H6]. }
  assert (B : forall m e, does m e -> does (p_header P (pr_info r) ;;
     when (nonempty (m_synopsis (pr_info r))) (p_section P "Synopsis" ;; print_synopsis P (pr_info r)) ;;
     when (nonempty (m_description (pr_info r)))
       (p_section P "Description" ;; mapM_ (fun d => p_line P d true) (m_description (pr_info r))) ;;
     print_subcommands P (pr_info r) (pr_subcommands r) ;;
     when (nonempty (positional_calls (pr_vars r) 0 (pr_ops r))) (p_section P "Positional Arguments") ;;
     mapM_ (print_item P) (positional_calls (pr_vars r) 0 (pr_ops r)) ;; m) (e_seq (e_before r) e)).
  { intros m e Hm. unfold e_before.
    intros s f. assert (X := does_bind _ _ _ _ (H1 (pr_info r)) (does_bind _ _ _ _
      (does_when (nonempty (m_synopsis (pr_info r))) _ _ (does_bind _ _ _ _ (H2 "Synopsis")
         (does_map _ e_synopsis (m_synopsis (pr_info r)) (fun a _ => HS a))))
      (does_bind _ _ _ _ (does_when (nonempty (m_description (pr_info r))) _ _ (does_bind _ _ _ _ (H2 "Description")
         (does_map _ (fun d => q_line Q d true) (m_description (pr_info r)) (fun a _ => H4 a true))))
      (does_bind _ _ _ _ S (does_bind _ _ _ _ (does_when (nonempty (positional_calls (pr_vars r) 0 (pr_ops r))) _ _ (H2 "Positional Arguments"))
        (does_bind _ _ _ _ (does_map _ q_print (positional_calls (pr_vars r) 0 (pr_ops r)) (fun a _ => HI a)) Hm)))))).
    specialize (X s f). cbn [e_seq fst snd] in X |- *. rewrite !app_assoc_s, <- !andb_assoc. exact X. }
  unfold print_page, e_page. apply B. apply does_bind; [auto|]. apply does_bind; [apply does_map; auto|exact A].
Qed.

(** ** The part with the entries *)

Definition block (i : item) (s : string) : Prop := exists f, s = fst (snd (q_print i) f).

Lemma blocks_of l f : exists bs, fst (snd (e_map q_print l) f) = sconcat bs /\ Forall2 block l bs.
Proof.
  revert f; induction l as [|i l IH]; intros f; [exists []; split; [reflexivity|constructor]|].
  destruct (IH (snd (snd (q_print i) f))) as (bs & E & H). exists (fst (snd (q_print i) f) :: bs). cbn [e_map e_seq snd fst sconcat].
  rewrite E. split; [reflexivity|]. constructor; [now exists f|exact H].
Qed.

Lemma e_map_ok {A} (h : A -> eff F) l : fst (e_map h l) = forallb (fun a => fst (h a)) l.
Proof. induction l as [|a l IH]; [reflexivity|]. cbn. now rewrite IH. Qed.

End effects.

(** the calls stored for the page *)
Definition the_item (vs : store) (o : op) : item :=
  match item_of vs o with Some (i, _, _) => i | None => ISection "" end.

Lemma item_of_eq vs o : item_of vs o = if is_positional o then None else Some (the_item vs o, is_advanced o, is_hidden o).
Proof. destruct o as [[| |]| | | |]; reflexivity. Qed.

Definition shown (adv : bool) (o : op) : bool := negb (is_hidden o) && (adv || negb (is_advanced o)).

Lemma set_up_map adv vs l :
  set_up_calls adv vs l = map (the_item vs) (filter (fun o => negb (is_positional o) && shown adv o) l).
Proof.
  induction l as [|o l IH]; [reflexivity|]. cbn [filter set_up_calls]. rewrite item_of_eq, IH. unfold stored, shown.
  destruct (is_positional o), (is_hidden o), (is_advanced o), adv; reflexivity.
Qed.

Lemma set_up_filter adv vs l :
  set_up_calls adv vs l = set_up_calls adv vs (filter (fun o => is_positional o || shown adv o) l).
Proof.
  rewrite !set_up_map. f_equal. induction l as [|o l IH]; [reflexivity|]. cbn [filter].
  destruct (is_positional o) eqn:P, (shown adv o) eqn:S; cbn [orb negb andb filter]; rewrite ?P, ?S; cbn [negb andb]; now rewrite IH.
Qed.

Lemma positional_filter p vs l n : (forall o, is_positional o = true -> p o = true) ->
  positional_calls vs n l = positional_calls vs n (filter p l).
Proof.
  intros H. revert n; induction l as [|o l IH]; intros n; [reflexivity|]. cbn [filter].
  destruct (p o) eqn:P.
  - destruct o as [[| |]| | | |]; cbn [positional_calls]; now rewrite IH.
  - destruct o as [[x t c|x c|x t c]|s a|s a|s b a|k d a]; cbn [positional_calls]; try apply IH.
    rewrite (H (OpDecl (DPositional x t c)) eq_refl) in P. discriminate.
Qed.
