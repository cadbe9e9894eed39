(** Proofs about what the arguments ask for: special requests and subcommands. *)
From Verif Require Import Base StrLib Fs Values Validators FormatParse Invocation ScanSpec Parser ParserSpec ParserProofs.

Section pieces.
Variable ndebug : bool.
Variable bk : backend.

Lemma starts_dash a : starts_with "-" a = begins "-" a.
Proof. destruct a as [|c a]; [reflexivity|]. unfold starts_with, begins. rewrite prefix_cons, prefix_nil. apply andb_true_r. Qed.

Definition effect (k : piece) (p : parser) : parser :=
  match k with
  | KValue o v => set_format_arguments (format_arguments p ++ [o; v]) p
  | KAlone o => set_format_arguments (format_arguments p ++ [o]) p
  | KWord a => set_format_arguments (format_arguments p ++ [a]) p
  | KPage _ f => set_fmt f p
  | KExport v _ => match lookup v exports with Some f => set_fmt f p | None => p end
  | KCheck v => match lookup v checks_values with Some b => set_user (Some b) p | None => p end
  | KNoValue _ => p
  | KSub s rest => set_sub (Some (new_sub_parser p s (s :: rest))) p
  end.

Lemma found_dash a rest p : ~ In a (subcommands p) -> begins "-" a = true -> found_subcommand a rest p = (p, Ret false).
Proof.
  intros H B. unfold found_subcommand. destruct (subcommands p) eqn:E; [reflexivity|]. rewrite <- E in *.
  rewrite (proj2 (mem_false _ _) H), starts_dash, B. reflexivity.
Qed.

Lemma export_eq v p : export_format bk v p = match lookup v exports with
  | Some f => (set_fmt f p, Ret tt)
  | None => (p, Throw (Exn KValidation ("Validation failed for option --export-help: Value must be one of " +s+ supported_exports bk +s+ ".")))
  end.
Proof.
  unfold export_format. cbn [exports lookup].
  destruct (String.eqb v "html"); [reflexivity|]. destruct (String.eqb v "man"); [reflexivity|].
  destruct (String.eqb v "ctd"); [reflexivity|]. destruct (String.eqb v "cwl"); reflexivity.
Qed.

Lemma check_eq v p : version_check_value v p = match lookup v checks_values with
  | Some b => (set_user (Some b) p, Ret tt)
  | None => (p, Throw (Exn KValidation "Value for option --version-check must be true (1) or false (0)."))
  end.
Proof.
  unfold version_check_value. cbn [checks_values lookup].
  destruct (String.eqb v "1"); [reflexivity|]. destruct (String.eqb v "true"); [reflexivity|].
  destruct (String.eqb v "0"); [reflexivity|]. destruct (String.eqb v "false"); reflexivity.
Qed.

Lemma push2 o v p : set_format_arguments (format_arguments (set_format_arguments (format_arguments p ++ [o]) p) ++ [v])
    (set_format_arguments (format_arguments p ++ [o]) p) = set_format_arguments (format_arguments p ++ [o; v]) p.
Proof. destruct p; cbn. now rewrite <- app_assoc. Qed.

(** the loop on an argument that is neither an option nor a subcommand *)
Lemma scan_dash a l p : ~ In a (options p) -> ~ In a (subcommands p) -> begins "-" a = true ->
  scan_arguments bk (a :: l) p =
  (if String.eqb a "-h" || String.eqb a "--help" then select (FHelp false) ;; scan_arguments bk l
   else if String.eqb a "-hh" || String.eqb a "--advanced-help" then select (FHelp true) ;; scan_arguments bk l
   else if String.eqb a "--version" then select FVersion ;; scan_arguments bk l
   else if String.eqb a "--copyright" then select FCopyright ;; scan_arguments bk l
   else if String.eqb a "--export-help" then
     match l with
     | [] => throw KTooFew "Option --export-help must be followed by a value."
     | v :: l'' => export_format bk v ;; scan_arguments bk l''
     end
   else if starts_with "--export-help=" a then
     export_format bk (sdrop (String.length "--export-help=") a) ;; scan_arguments bk l
   else if String.eqb a "--version-check" then
     match l with
     | [] => throw KTooFew "Option --version-check must be followed by a value."
     | v :: l'' => version_check_value v ;; scan_arguments bk l''
     end
   else push_arg a ;; scan_arguments bk l) p.
Proof.
  intros H1 H2 B. cbn [scan_arguments]. rewrite (proj2 (mem_false _ _) H1).
  unfold bind at 1. rewrite found_dash by assumption. reflexivity.
Qed.

Lemma not_special_tests a : ~ special a ->
  (String.eqb a "-h" || String.eqb a "--help") = false /\ (String.eqb a "-hh" || String.eqb a "--advanced-help") = false /\
  String.eqb a "--version" = false /\ String.eqb a "--copyright" = false /\ String.eqb a "--export-help" = false /\
  starts_with "--export-help=" a = false /\ String.eqb a "--version-check" = false.
Proof.
  intros H. assert (P : forall s f, In (s, f) pages -> String.eqb a s = false).
  { intros s f Hs. apply String.eqb_neq. intros ->. apply H. left. eauto. }
  rewrite (P "-h" (FHelp false)), (P "--help" (FHelp false)), (P "-hh" (FHelp true)), (P "--advanced-help" (FHelp true)),
    (P "--version" FVersion), (P "--copyright" FCopyright) by (cbn; auto 10).
  repeat split.
  - apply String.eqb_neq. intros ->. apply H. right. now left.
  - destruct (starts_with "--export-help=" a) eqn:E; [|reflexivity]. exfalso. apply prefix_iff in E. apply H. right. right. now left.
  - apply String.eqb_neq. intros ->. apply H. right. right. now right.
Qed.

(** the text of the error for unknown subcommands *)
Lemma unknown_message subs : subs <> [] -> unknown_subcommand_message subs =
  "You specified an unknown subcommand! Available subcommands are: [" +s+ String.concat ", " subs +s+ "]. Use -h/--help for more information.".
Proof.
  intros H. unfold unknown_subcommand_message. cbv zeta.
  assert (C : sconcat (map (fun c => c +s+ ", ") subs) = String.concat ", " subs +s+ ", ").
  { clear -H. induction subs as [|a [|b l] IH]; [contradiction|cbn; now rewrite app_nil_r_s|]. cbn [map sconcat]. cbn [map sconcat] in IH.
    rewrite IH by discriminate. change (String.concat ", " (a :: b :: l)) with (a +s+ ", " +s+ String.concat ", " (b :: l)). now rewrite !app_assoc_s. }
  rewrite C, <- app_assoc_s, length_app_s. cbn [String.length]. rewrite Nat.add_sub, stake_app. now rewrite !app_assoc_s.
Qed.

(** one piece, more to come *)
Lemma scan_piece k args p : piece_ok (options p) (subcommands p) k -> must_be_last k = false ->
  match piece_error (bk_tdl bk) (subcommands p) k with
  | Some e => scan_arguments bk (piece_texts k ++ args) p = (p, Throw e)
  | None => scan_arguments bk (piece_texts k ++ args) p = scan_arguments bk args (effect k p)
  end.
Proof.
  destruct k as [o v|o|a f|v j|v|a|s rest|a]; intros H L; try discriminate L; cbn [piece_error piece_texts effect].
  - cbn [piece_ok] in H. cbn [app scan_arguments]. rewrite (proj2 (mem_spec _ _) H). unfold push_arg, bind, modify. now rewrite push2.
  - destruct H as (H & H1 & H2). cbn in H.
    destruct H as [H|[H|[H|[H|[H|[H|[]]]]]]]; injection H as <- <-; cbn [app]; rewrite scan_dash by assumption || reflexivity; reflexivity.
  - destruct H as [H1 H2]. destruct j.
    + destruct (H2 eq_refl) as [H3 H4]. cbn [app]. cbn [app] in *.
      assert (P : starts_with "--export-help=" ("--export-help=" +s+ v) = true) by (apply prefix_iff; eauto).
      rewrite scan_dash by assumption || reflexivity. rewrite P. cbn [String.append] in *.
      repeat match goal with |- context [String.eqb (String ?c ?s) ?t] =>
        replace (String.eqb (String c s) t) with false by (symmetry; apply String.eqb_neq; discriminate) end.
      cbn [orb]. change (sdrop _ _) with v. unfold bind. rewrite export_eq. destruct (lookup v exports); [reflexivity|]. unfold supported_exports. now destruct (bk_tdl bk).
    + destruct (H1 eq_refl) as [H3 H4]. cbn [app]. rewrite scan_dash by assumption || reflexivity.
      cbn [String.eqb Ascii.eqb Bool.eqb orb]. change (String.eqb "--export-help" "-h") with false.
      change (String.eqb "--export-help" "--help") with false. change (String.eqb "--export-help" "-hh") with false.
      change (String.eqb "--export-help" "--advanced-help") with false. change (String.eqb "--export-help" "--version") with false.
      change (String.eqb "--export-help" "--copyright") with false. change (String.eqb "--export-help" "--export-help") with true.
      cbn [orb]. unfold bind. rewrite export_eq. destruct (lookup v exports); [reflexivity|]. unfold supported_exports. now destruct (bk_tdl bk).
  - destruct H as [H1 H2]. cbn [app]. rewrite scan_dash by assumption || reflexivity.
    change (String.eqb "--version-check" "-h") with false.
    change (String.eqb "--version-check" "--help") with false. change (String.eqb "--version-check" "-hh") with false.
    change (String.eqb "--version-check" "--advanced-help") with false. change (String.eqb "--version-check" "--version") with false.
    change (String.eqb "--version-check" "--copyright") with false. change (String.eqb "--version-check" "--export-help") with false.
    change (starts_with "--export-help=" "--version-check") with false. change (String.eqb "--version-check" "--version-check") with true.
    cbn [orb]. unfold bind. rewrite check_eq. destruct (lookup v checks_values); reflexivity.
  - destruct H as (H & H1 & H2). destruct (not_special_tests a H) as (T1 & T2 & T3 & T4 & T5 & T6 & T7). cbn [app].
    destruct (begins "-" a) eqn:B.
    + rewrite scan_dash by assumption. rewrite T1, T2, T3, T4, T5, T6, T7. destruct (subcommands p); reflexivity.
    + cbn [scan_arguments]. rewrite (proj2 (mem_false _ _) H1).
      destruct (subcommands p) as [|s subs] eqn:E.
      * rewrite (bind_ret_step _ _ p p false) by (unfold found_subcommand; now rewrite E).
        rewrite T1, T2, T3, T4, T5, T6, T7. reflexivity.
      * rewrite <- E in *. assert (F : found_subcommand a (a :: args) p = (p, Throw (Exn KUserInput (unknown_subcommand_message (subcommands p))))).
        { unfold found_subcommand. rewrite E. rewrite <- E. rewrite (proj2 (mem_false _ _) H2), starts_dash, B. reflexivity. }
        unfold bind at 1. rewrite F, unknown_message by (rewrite E; discriminate). reflexivity.
Qed.

Lemma scan_last k p : piece_ok (options p) (subcommands p) k -> must_be_last k = true ->
  match piece_error (bk_tdl bk) (subcommands p) k with
  | Some e => scan_arguments bk (piece_texts k) p = (p, Throw e)
  | None => scan_arguments bk (piece_texts k) p = (effect k p, Ret tt)
  end.
Proof.
  destruct k as [o v|o|a f|v j|v|a|s rest|a]; intros H L; try discriminate L; cbn [piece_error piece_texts effect].
  - cbn [piece_ok] in H. cbn [scan_arguments]. rewrite (proj2 (mem_spec _ _) H). reflexivity.
  - destruct H as (H & H1 & H2). destruct H as [-> | ->]; rewrite scan_dash by assumption || reflexivity; reflexivity.
  - destruct H as (H1 & H2). cbn [scan_arguments]. rewrite (proj2 (mem_false _ _) H1). unfold bind, found_subcommand.
    destruct (subcommands p) eqn:E; [destruct H2|]. rewrite <- E in *. rewrite (proj2 (mem_spec _ _) H2). reflexivity.
Qed.

(** everything the loop does *)
Record scanned (ks : list piece) (p p' : parser) : Prop := {
  sc_kept : kept p p';
  sc_called : parse_was_called p' = parse_was_called p;
  sc_exe : executable_name p' = executable_name p;
  sc_args : format_arguments p' = format_arguments p ++ flat_map own_texts ks;
  sc_fmt : fmt p' = match last_some piece_page ks with Some f => f | None => fmt p end;
  sc_user : user_decision p' = match last_some piece_check ks with Some b => Some b | None => user_decision p end;
  sc_sub : sub_parser p' = match last_some piece_sub ks with
                           | Some (s, rest) => Some (new_sub_parser p s rest)
                           | None => sub_parser p
                           end }.

Lemma effect_scanned k p : piece_error (bk_tdl bk) (subcommands p) k = None -> scanned [k] p (effect k p).
Proof.
  intros H. destruct k as [o v|o|a f|v j|v|a|s rest|a]; cbn [effect]; 
    try (constructor; [constructor|..]; cbn; rewrite ?app_nil_r; reflexivity).
  - cbn [piece_error] in H. destruct (lookup v exports) eqn:E; [|discriminate].
    constructor; [constructor|..]; cbn [flat_map own_texts last_some piece_page piece_check piece_sub]; rewrite ?E, ?app_nil_r; reflexivity.
  - cbn [piece_error] in H. destruct (lookup v checks_values) eqn:E; [|discriminate].
    constructor; [constructor|..]; cbn [flat_map own_texts last_some piece_page piece_check piece_sub]; rewrite ?E, ?app_nil_r; reflexivity.
Qed.

Lemma new_sub_same p q s rest : info p = info q -> executable_name p = executable_name q -> new_sub_parser p s rest = new_sub_parser q s rest.
Proof. unfold new_sub_parser. now intros -> ->. Qed.

Lemma scanned_cons k ks p q r : scanned [k] p q -> scanned ks q r -> scanned (k :: ks) p r.
Proof.
  intros [] []. constructor.
  - eapply kept_trans; eassumption.
  - congruence.
  - congruence.
  - rewrite sc_args1, sc_args0. cbn [flat_map]. now rewrite app_nil_r, app_assoc.
  - rewrite sc_fmt1, sc_fmt0. cbn [last_some]. destruct (last_some piece_page ks); reflexivity.
  - rewrite sc_user1, sc_user0. cbn [last_some]. destruct (last_some piece_check ks); reflexivity.
  - rewrite sc_sub1, sc_sub0. cbn [last_some]. destruct (last_some piece_sub ks) as [[s rest]|]; [|reflexivity].
    f_equal. apply new_sub_same; [|exact sc_exe0]. apply sc_kept0.
Qed.

Lemma effect_same k p : options (effect k p) = options p /\ subcommands (effect k p) = subcommands p.
Proof. destruct k; cbn [effect]; auto; match goal with |- context [lookup ?v ?l] => destruct (lookup v l) end; auto. Qed.

Lemma scan_pieces opts subs args ks : pieces opts subs args ks -> forall p, options p = opts -> subcommands p = subs ->
  match first_error (bk_tdl bk) subs ks with
  | Some e => exists p', scan_arguments bk args p = (p', Throw e)
  | None => exists p', scan_arguments bk args p = (p', Ret tt) /\ scanned ks p p'
  end.
Proof.
  induction 1 as [|k Hk L|k args ks Hk L Hp IH]; intros p <- <-.
  - cbn. eexists. split; [reflexivity|]. constructor; [constructor|..]; cbn; rewrite ?app_nil_r; reflexivity.
  - pose proof (scan_last k p Hk L) as H. cbn [first_error]. destruct (piece_error (bk_tdl bk) (subcommands p) k) eqn:E.
    + rewrite H. eauto.
    + rewrite H. eexists. split; [reflexivity|]. now apply effect_scanned.
  - pose proof (scan_piece k args p Hk L) as H. cbn [first_error]. destruct (piece_error (bk_tdl bk) (subcommands p) k) eqn:E.
    + rewrite H. eauto.
    + rewrite H. destruct (effect_same k p) as [E1 E2]. specialize (IH (effect k p) E1 E2).
      destruct (first_error (bk_tdl bk) (subcommands p) ks); [exact IH|]. destruct IH as (p' & -> & S). eexists. split; [reflexivity|].
      eapply scanned_cons; [|exact S]. now apply effect_scanned.
Qed.

(** *** Every argument vector falls into pieces, in one way *)

Lemma page_dec a : (exists f, In (a, f) pages) \/ forall f, ~ In (a, f) pages.
Proof.
  destruct (lookup a pages) as [f|] eqn:E.
  - left. exists f. revert E. cbn. repeat (match goal with |- context [String.eqb a ?s] => destruct (String.eqb_spec a s) as [->|_]; [intros [= <-]; auto 10|] end). discriminate.
  - right. intros f Hf. revert E. cbn in Hf. destruct Hf as [H|[H|[H|[H|[H|[H|[]]]]]]]; injection H as <- <-; discriminate.
Qed.

Lemma pieces_exist opts subs : forall n args, List.length args <= n -> exists ks, pieces opts subs args ks.
Proof.
  induction n as [|n IH]; intros args Hn.
  { destruct args; [exists []; constructor|cbn in Hn; lia]. }
  destruct args as [|a l]; [exists []; constructor|]. cbn in Hn.
  assert (C1 : forall k, piece_ok opts subs k -> must_be_last k = false -> piece_texts k = [a] -> exists ks, pieces opts subs (a :: l) ks).
  { intros k K L T. destruct (IH l) as [ks Hks]; [lia|]. exists (k :: ks). change (a :: l) with ([a] ++ l). rewrite <- T. now constructor. }
  assert (C2 : forall k v l', l = v :: l' -> piece_ok opts subs k -> must_be_last k = false -> piece_texts k = [a; v] -> exists ks, pieces opts subs (a :: l) ks).
  { intros k v l' -> K L T. cbn in Hn. destruct (IH l') as [ks Hks]; [lia|]. exists (k :: ks). change (a :: v :: l') with ([a; v] ++ l'). rewrite <- T. now constructor. }
  assert (C3 : forall k, piece_ok opts subs k -> must_be_last k = true -> piece_texts k = a :: l -> exists ks, pieces opts subs (a :: l) ks).
  { intros k K L T. exists [k]. rewrite <- T. now constructor. }
  destruct (mem a opts) eqn:M1.
  { apply mem_spec in M1. destruct l as [|v l']; [eapply C3 with (k := KAlone a); auto|]. eapply C2 with (k := KValue a v); auto. }
  apply mem_false in M1. destruct (mem a subs) eqn:M2.
  { apply mem_spec in M2. eapply C3 with (k := KSub a l); auto. now split. }
  apply mem_false in M2. destruct (page_dec a) as [[f Hf]|Hf].
  { eapply C1 with (k := KPage a f); auto. now split. }
  destruct (String.eqb_spec a "--export-help") as [->|N1].
  { destruct l as [|v l']; [eapply C3 with (k := KNoValue "--export-help"); auto; now split; [left|]|].
    eapply C2 with (k := KExport v false); auto. split; [now split|discriminate]. }
  destruct (starts_with "--export-help=" a) eqn:P.
  { apply prefix_iff in P as [v ->]. eapply C1 with (k := KExport v true); auto. split; [discriminate|now split]. }
  destruct (String.eqb_spec a "--version-check") as [->|N2].
  { destruct l as [|v l']; [eapply C3 with (k := KNoValue "--version-check"); auto; now split; [right|]|].
    eapply C2 with (k := KCheck v); auto. now split. }
  eapply C1 with (k := KWord a); auto. split; [|now split].
  intros [[f K]|[K|[[v K]|K]]]; try contradiction; [now apply (Hf f)|].
  assert (starts_with "--export-help=" a = true) by (apply prefix_iff; eauto). congruence.
Qed.

End pieces.

(** two readings of the same arguments start with the same piece *)
Definition head_of (k : piece) : string := match piece_texts k with a :: _ => a | [] => "" end.

Lemma texts_head k : exists r, piece_texts k = head_of k :: r.
Proof. destruct k as [o v|o|a f|v [|]|v|a|s rest|a]; eexists; reflexivity. Qed.

Lemma page_special a f : In (a, f) pages -> special a.
Proof. intros H. left. eauto. Qed.

(** what kind of piece begins with a given argument *)
Inductive kind_of := NOption | NSub | NPage | NExport | NJoined | NCheck | NWord.
Definition kind (k : piece) : kind_of :=
  match k with
  | KValue _ _ | KAlone _ => NOption
  | KPage _ _ => NPage
  | KExport _ false => NExport
  | KExport _ true => NJoined
  | KCheck _ => NCheck
  | KNoValue a => if String.eqb a "--export-help" then NExport else NCheck
  | KSub _ _ => NSub
  | KWord _ => NWord
  end.

Lemma page_not_export a f : In (a, f) pages -> a <> "--export-help" /\ a <> "--version-check" /\ forall v, a <> "--export-help=" +s+ v.
Proof. intros H. cbn in H. destruct H as [H|[H|[H|[H|[H|[H|[]]]]]]]; injection H as <- <-; repeat split; try discriminate; intros v; discriminate. Qed.

Definition sorts (opts subs : list string) (n : kind_of) (a : string) : Prop :=
  match n with
  | NOption => In a opts
  | NSub => ~ In a opts /\ In a subs
  | NPage => ~ In a opts /\ ~ In a subs /\ exists f, In (a, f) pages
  | NExport => ~ In a opts /\ ~ In a subs /\ a = "--export-help"
  | NJoined => ~ In a opts /\ ~ In a subs /\ exists v, a = "--export-help=" +s+ v
  | NCheck => ~ In a opts /\ ~ In a subs /\ a = "--version-check"
  | NWord => ~ In a opts /\ ~ In a subs /\ ~ special a
  end.

Lemma piece_sorts opts subs k : piece_ok opts subs k -> sorts opts subs (kind k) (head_of k).
Proof.
  destruct k as [o v|o|a f|v [|]|v|a|s rest|a]; cbn [piece_ok kind head_of piece_texts sorts]; try tauto.
  - intros (H1 & H2 & H3). eauto.
  - intros [_ H]. destruct (H eq_refl). eauto.
  - intros ([-> | ->] & H2 & H3).
    + change (String.eqb "--export-help" "--export-help") with true. cbn. auto.
    + change (String.eqb "--version-check" "--export-help") with false. cbn. auto.
Qed.

Lemma sorts_unique opts subs n m a : sorts opts subs n a -> sorts opts subs m a -> n = m.
Proof.
  destruct n, m; cbn [sorts]; intros H1 H2; try reflexivity; try tauto; exfalso.
  all: repeat match goal with H : _ /\ _ |- _ => destruct H end.
  all: try (match goal with H : exists f, In _ pages |- _ => destruct H as [g Hg]; pose proof (page_not_export _ _ Hg) as (Q1 & Q2 & Q3) end).
  all: try (match goal with H : exists v, _ = "--export-help=" +s+ v |- _ => destruct H as [v Hv] end).
  all: subst; try congruence; try discriminate; eauto.
  all: match goal with H : ~ special _ |- _ => apply H end; unfold special; eauto 6.
Qed.

Lemma pages_unique a f g : In (a, f) pages -> In (a, g) pages -> f = g.
Proof.
  cbn. intros H1 H2. destruct H1 as [H|[H|[H|[H|[H|[H|[]]]]]]]; injection H as <- <-;
    destruct H2 as [H|[H|[H|[H|[H|[H|[]]]]]]]; congruence.
Qed.

Lemma pieces_unique opts subs args ks : pieces opts subs args ks -> forall ks', pieces opts subs args ks' -> ks = ks'.
Proof.
  induction 1 as [|k Hk L|k args ks Hk L Hp IH]; intros ks' H'.
  - inversion H' as [|k' Hk' L' E|k' args' ks1 Hk' L' Hp' E]; subst; [reflexivity|..]; destruct (texts_head k') as [r R]; rewrite R in E; discriminate.
  - inversion H' as [E|k' Hk' L' E|k' args' ks1 Hk' L' Hp' E]; subst.
    + destruct (texts_head k) as [r R]; rewrite R in E; discriminate.
    + f_equal. pose proof (piece_sorts _ _ _ Hk) as S1. pose proof (piece_sorts _ _ _ Hk') as S2.
      assert (Hh : head_of k' = head_of k) by (unfold head_of; now rewrite E). rewrite Hh in S2.
      pose proof (sorts_unique _ _ _ _ _ S1 S2) as Q.
      destruct k as [o v|o|a f|v j|v|a|s rest|a]; try discriminate L; destruct k' as [o' v'|o'|a' f'|v' j'|v'|a'|s' rest'|a']; try discriminate L';
        cbn in *; try congruence; try (destruct (String.eqb _ _); discriminate).
    + pose proof (piece_sorts _ _ _ Hk) as S1. pose proof (piece_sorts _ _ _ Hk') as S2.
      assert (Hh : head_of k' = head_of k).
      { destruct (texts_head k') as [r R]. destruct (texts_head k) as [r' R']. rewrite R, R' in E. now injection E. }
      rewrite Hh in S2. pose proof (sorts_unique _ _ _ _ _ S1 S2) as Q.
      destruct k as [o v|o|a f|v j|v|a|s rest|a]; try discriminate L; destruct k' as [o' v'|o'|a' f'|v' [|]|v'|a'|s' rest'|a']; try discriminate L';
        cbn in *; try congruence; try (destruct (String.eqb _ _); discriminate).
  - inversion H' as [E|k' Hk' L' E|k' args' ks1 Hk' L' Hp' E]; subst.
    + destruct (texts_head k) as [r R]; rewrite R in E; discriminate.
    + pose proof (piece_sorts _ _ _ Hk) as S1. pose proof (piece_sorts _ _ _ Hk') as S2.
      assert (Hh : head_of k' = head_of k).
      { destruct (texts_head k') as [r R]. destruct (texts_head k) as [r' R']. rewrite R, R' in E. now injection E. }
      rewrite Hh in S2. pose proof (sorts_unique _ _ _ _ _ S1 S2) as Q.
      destruct k as [o v|o|a f|v [|]|v|a|s rest|a]; try discriminate L; destruct k' as [o' v'|o'|a' f'|v' j'|v'|a'|s' rest'|a']; try discriminate L';
        cbn in *; try congruence; try (destruct (String.eqb _ _); discriminate).
    + pose proof (piece_sorts _ _ _ Hk) as S1. pose proof (piece_sorts _ _ _ Hk') as S2.
      assert (Hh : head_of k' = head_of k).
      { destruct (texts_head k') as [r R]. destruct (texts_head k) as [r' R']. rewrite R, R' in E. now injection E. }
      rewrite Hh in S2. pose proof (sorts_unique _ _ _ _ _ S1 S2) as Q.
      assert (k = k' /\ args = args') as [-> ->].
      { destruct k as [o v|o|a f|v [|]|v|a|s rest|a]; try discriminate L; destruct k' as [o' v'|o'|a' f'|v' [|]|v'|a'|s' rest'|a']; try discriminate L';
          cbn in *; try congruence; try discriminate; injection E; intros; subst; auto.
        destruct Hk as [Hk _], Hk' as [Hk' _]. now rewrite (pages_unique _ _ _ Hk Hk'). }
      f_equal. now apply IH.
Qed.
