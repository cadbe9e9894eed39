(** Parsers that differ only in leftovers of rejected declarations, or in where they live, behave alike. *)
From Verif Require Import Base StrLib Fs Values Validators FormatParse Invocation ScanSpec Parser ParserSpec ParserProofs.

Section sim.
Variable ndebug : bool.
Variable bk : backend.
Variables U O : list string. (* names and option texts in which the two parsers may differ *)
Variable mv : bool.          (* the two parsers live at the same place and have the same operations *)

Definition applied (p : parser) : res (list op) := apply_operations (self p) (gone p) (operations p).

Record alike (p q : parser) : Prop := {
  al_info : info p = info q;
  al_called : parse_was_called p = parse_was_called q;
  al_list : has_positional_list_option p = has_positional_list_option q;
  al_dev : dev_decision p = dev_decision q;
  al_user : user_decision p = user_decision q;
  al_sub : sub_parser p = sub_parser q;
  al_subs : subcommands p = subcommands q;
  al_fmt : fmt p = fmt q;
  al_fargs : format_arguments p = format_arguments q;
  al_args : arguments p = arguments q;
  al_exe : executable_name p = executable_name q;
  al_used : forall s, ~ In s U -> (In s (used_ids p) <-> In s (used_ids q));
  al_opts : forall s, ~ In s O -> (In s (options p) <-> In s (options q));
  al_ops : if mv then self p = self q /\ gone p = gone q /\ operations p = operations q
           else parse_was_called p = true \/ applied p = applied q }.

Definition sim {A} (m m' : M parser A) : Prop :=
  forall p q, alike p q -> snd (m p) = snd (m' q) /\ alike (fst (m p)) (fst (m' q)).

Lemma sim_ret {A} (a : A) : sim (ret a) (ret a).
Proof. intros p q H. split; [reflexivity|exact H]. Qed.
Lemma sim_throw {A} k m : sim (@throw parser A k m) (throw k m).
Proof. intros p q H. split; [reflexivity|exact H]. Qed.
Lemma sim_bind {A B} (m m' : M parser A) (k k' : A -> M parser B) : sim m m' -> (forall a, sim (k a) (k' a)) -> sim (bind m k) (bind m' k').
Proof.
  intros Hm Hk p q H. destruct (Hm p q H) as [E L]. unfold bind.
  destruct (m p) as [p1 r1], (m' q) as [q1 r2]. cbn in E, L. subst r2.
  destruct r1 as [a|e|o| | |]; try (split; [reflexivity|exact L]). now apply Hk.
Qed.
Lemma sim_modify f g : (forall p q, alike p q -> alike (f p) (g q)) -> sim (modify f) (modify g).
Proof. intros H p q L. split; [reflexivity|now apply H]. Qed.

(** decisions taken from the state *)
Lemma sim_if {A} (b b' : parser -> bool) (m n m' n' : M parser A) :
  (forall p q, alike p q -> b p = b' q) -> sim m m' -> sim n n' ->
  sim (fun p => if b p then m p else n p) (fun p => if b' p then m' p else n' p).
Proof. intros Hb Hm Hn p q L. rewrite (Hb p q L). destruct (b' q); auto. Qed.

Lemma mem_alike s p q : alike p q -> ~ In s U -> mem s (used_ids p) = mem s (used_ids q).
Proof.
  intros L N. pose proof (al_used _ _ L s N) as H. apply Bool.eq_iff_eq_true. now rewrite !mem_spec.
Qed.
Lemma mem_opts_alike s p q : alike p q -> ~ In s O -> mem s (options p) = mem s (options q).
Proof.
  intros L N. pose proof (al_opts _ _ L s N) as H. apply Bool.eq_iff_eq_true. now rewrite !mem_spec.
Qed.

Lemma sim_check fn : sim (check_parse_not_called fn) (check_parse_not_called fn).
Proof.
  intros p q L. rewrite !check_spec, (al_called _ _ L). destruct (parse_was_called q); split; auto.
Qed.

Lemma sim_id_exists i : ~ In (id_name i) U -> sim (id_exists i) (id_exists i).
Proof.
  intros N p q L. unfold id_exists. destruct (is_empty_id i); [split; auto|].
  change (match i with IdShort c => str1 c | IdLong s => s end) with (id_name i).
  rewrite (mem_alike _ _ _ L N). destruct (mem (id_name i) (used_ids q)); [split; auto|]. split; [reflexivity|].
  destruct L. constructor; cbn; auto. intros s Hs. now rewrite (al_used0 s Hs).
Qed.

Lemma sim_verify_identifiers c : (forall i, In i (config_idents c) -> ~ In (id_name i) U) ->
  sim (verify_identifiers (c_short c) (c_long c)) (verify_identifiers (c_short c) (c_long c)).
Proof.
  intros N. unfold verify_identifiers. destruct (Ascii.eqb (c_short c) nul && is_empty (c_long c)); [apply sim_throw|].
  apply sim_bind; [|intros _].
  - unfold verify_short. destruct (Ascii.eqb (c_short c) nul) eqn:Z; [apply sim_ret|].
    destruct (Ascii.eqb (c_short c) "-" || negb (is_valid (c_short c))); [apply sim_throw|].
    apply sim_bind; [apply sim_id_exists, N|intros []; [apply sim_throw|apply sim_ret]].
    unfold config_idents. rewrite Z. now left.
  - unfold verify_long. destruct (is_empty (c_long c)) eqn:Z; [apply sim_ret|].
    destruct (String.length (c_long c) =? 1)%nat; [apply sim_throw|].
    destruct (match snth 0 (c_long c) with Some x => Ascii.eqb x "-" | None => false end); [apply sim_throw|].
    destruct (negb (sall is_valid (c_long c))); [apply sim_throw|].
    apply sim_bind; [apply sim_id_exists, N|intros []; [apply sim_throw|apply sim_ret]].
    unfold config_idents. rewrite Z. apply in_app_iff. right. now left.
Qed.

Lemma sim_register s : sim (register s) (register s).
Proof.
  apply sim_modify. intros p q L. destruct L. constructor; cbn; auto. intros t Ht. now rewrite (al_opts0 t Ht).
Qed.

Lemma sim_verify_option c : (forall i, In i (config_idents c) -> ~ In (id_name i) U) -> sim (verify_option_config c) (verify_option_config c).
Proof.
  intros N. unfold verify_option_config. apply sim_bind; [now apply sim_verify_identifiers|intros _].
  apply sim_bind; [destruct (Ascii.eqb (c_short c) nul); [apply sim_ret|apply sim_register]|intros _].
  apply sim_bind; [destruct (is_empty (c_long c)); [apply sim_ret|apply sim_register]|intros _].
  destruct (c_required c && negb (is_empty (c_default_message c))); [apply sim_throw|apply sim_ret].
Qed.
Lemma sim_verify_flag c : (forall i, In i (config_idents c) -> ~ In (id_name i) U) -> sim (verify_flag_config c) (verify_flag_config c).
Proof.
  intros N. unfold verify_flag_config. apply sim_bind; [now apply sim_verify_identifiers|intros _].
  destruct (negb (is_empty (c_default_message c))); [apply sim_throw|apply sim_ret].
Qed.
Lemma sim_verify_positional c : sim (verify_positional_option_config c) (verify_positional_option_config c).
Proof.
  intros p q L. unfold verify_positional_option_config. rewrite (al_subs _ _ L), (al_list _ _ L).
  repeat match goal with |- context [if ?b then _ else _] => destruct b end; split; auto.
Qed.

Lemma apply_snoc i dead l o : apply_operations i dead (l ++ [(i, o)]) = lift_res (apply_operations i dead l) (fun r => Ret (r ++ [o])).
Proof.
  induction l as [|[j a] l IH]; cbn [app apply_operations].
  - rewrite Nat.eqb_refl. reflexivity.
  - destruct (Nat.eqb j i).
    + rewrite IH. destruct (apply_operations i dead l); reflexivity.
    + destruct (existsb (Nat.eqb j) dead); [reflexivity|exact IH].
Qed.

Lemma sim_defer o : sim (defer o) (defer o).
Proof.
  apply sim_modify. intros p q L. destruct L. constructor; cbn; auto. destruct mv.
  - destruct al_ops0 as (A & B & C). now rewrite A, B, C.
  - destruct al_ops0 as [A|A]; [now left|right]. unfold applied in *. cbn. now rewrite !apply_snoc, A.
Qed.

Lemma sim_add_option x t c : (forall i, In i (config_idents c) -> ~ In (id_name i) U) -> sim (add_option x t c) (add_option x t c).
Proof.
  intros N. unfold add_option. apply sim_bind; [apply sim_check|intros _].
  apply sim_bind; [now apply sim_verify_option|intros _]. apply sim_defer.
Qed.
Lemma sim_add_flag v x c : (forall i, In i (config_idents c) -> ~ In (id_name i) U) -> sim (add_flag v x c) (add_flag v x c).
Proof.
  intros N. unfold add_flag. apply sim_bind; [apply sim_check|intros _].
  apply sim_bind; [now apply sim_verify_flag|intros _].
  apply sim_bind; [destruct v; [apply sim_throw|apply sim_ret]|intros _]. apply sim_defer.
Qed.
Lemma sim_add_positional x t c : sim (add_positional_option x t c) (add_positional_option x t c).
Proof.
  unfold add_positional_option. apply sim_bind; [apply sim_check|intros _].
  apply sim_bind; [apply sim_verify_positional|intros _].
  apply sim_bind; [|intros _; apply sim_defer]. destruct (is_container t); [|apply sim_ret].
  apply sim_modify. intros p q L. destruct L. constructor; cbn; auto.
Qed.

Lemma sim_push a : sim (push_arg a) (push_arg a).
Proof. apply sim_modify. intros p q L. destruct L. constructor; cbn; auto. congruence. Qed.
Lemma sim_select f : sim (select f) (select f).
Proof. apply sim_modify. intros p q L. destruct L. constructor; cbn; auto. Qed.

Lemma sim_found arg rest : sim (found_subcommand arg rest) (found_subcommand arg rest).
Proof.
  intros p q L. unfold found_subcommand. rewrite <- (al_subs _ _ L).
  destruct (subcommands p) as [|s l] eqn:E; [split; auto|]. destruct (mem arg (s :: l)).
  - split; [reflexivity|]. cbn [fst]. destruct L. constructor; cbn; auto. unfold new_sub_parser. now rewrite al_info0, al_exe0.
  - destruct (negb (starts_with "-" arg)); split; auto.
Qed.

Lemma sim_export v : sim (export_format bk v) (export_format bk v).
Proof. unfold export_format. repeat (destruct (String.eqb v _); [apply sim_select|]). 
  repeat match goal with |- context [if ?b then _ else _] => destruct b; [apply sim_select|] end. apply sim_throw. Qed.
Lemma sim_check_value v : sim (version_check_value v) (version_check_value v).
Proof.
  unfold version_check_value.
  repeat match goal with |- context [if ?b then _ else _] => destruct b; [apply sim_modify; intros p q L; destruct L; constructor; cbn; auto|] end.
  apply sim_throw.
Qed.

Lemma sim_scan n : forall l, List.length l <= n -> (forall a, In a l -> ~ In a O) -> sim (scan_arguments bk l) (scan_arguments bk l).
Proof.
  induction n as [|n IH]; intros [|arg l] Hn HO; cbn [List.length] in Hn; try (apply sim_ret); try lia.
  cbn [scan_arguments].
  assert (K : forall l', List.length l' <= n -> (forall a, In a l' -> In a l) -> sim (scan_arguments bk l') (scan_arguments bk l')).
  { intros l' Hl Hi. apply IH; [exact Hl|]. intros a Ha. apply HO. right. auto. }
  apply (sim_if (fun p => mem arg (options p)) (fun p => mem arg (options p))).
  - intros p q L. apply mem_opts_alike; [exact L|]. apply HO. now left.
  - apply sim_bind; [apply sim_push|intros _]. destruct l as [|v l]; [apply sim_ret|].
    apply sim_bind; [apply sim_push|intros _]. apply K; cbn [List.length] in *; [lia|]. intros; now right.
  - apply sim_bind; [apply sim_found|intros found]. destruct found; [apply sim_ret|].
    assert (Kl : sim (scan_arguments bk l) (scan_arguments bk l)) by (apply K; [lia|auto]).
    repeat match goal with |- context [if ?b then _ else _] => destruct b end;
      try (apply sim_bind; [apply sim_select|intros _; exact Kl]).
    + destruct l as [|v l]; [apply sim_throw|]. apply sim_bind; [apply sim_export|intros _].
      apply K; cbn [List.length] in *; [lia|]. intros; now right.
    + apply sim_bind; [apply sim_export|intros _; exact Kl].
    + destruct l as [|v l]; [apply sim_throw|]. apply sim_bind; [apply sim_check_value|intros _].
      apply K; cbn [List.length] in *; [lia|]. intros; now right.
    + apply sim_bind; [apply sim_push|intros _; exact Kl].
Qed.

Definition clear (p : parser) : Prop := forall a, In a (List.tl (arguments p)) -> ~ In a O.

(** the same for parsers whose arguments avoid the texts in which the two differ *)
Definition csim {A} (m m' : M parser A) : Prop :=
  forall p q, alike p q -> clear p -> snd (m p) = snd (m' q) /\ alike (fst (m p)) (fst (m' q)).

Lemma csim_determine : csim (determine_format_and_subcommand ndebug bk) (determine_format_and_subcommand ndebug bk).
Proof.
  intros p q L C. unfold clear in C. unfold determine_format_and_subcommand. rewrite <- (al_args _ _ L).
  destruct (arguments p) as [|a l] eqn:E; [split; auto|].
  apply sim_bind; [| |exact L].
  - apply sim_modify. intros p1 q1 L1. destruct L1. constructor; cbn; auto. congruence.
  - intros _. apply sim_bind; [apply (sim_scan (List.length l)); [lia|exact C]|intros _].
    unfold settle_format. apply sim_modify. intros p1 q1 L1. rewrite <- (al_fmt _ _ L1), <- (al_fargs _ _ L1), <- (al_sub _ _ L1).
    destruct (fmt p1); try exact L1. destruct (format_arguments p1), (sub_parser p1);
      try exact L1; destruct L1; constructor; cbn; auto.
Qed.

Lemma sim_names : sim verify_app_and_subcommand_names verify_app_and_subcommand_names.
Proof.
  intros p q L. unfold verify_app_and_subcommand_names. rewrite (al_info _ _ L), (al_subs _ _ L).
  destruct (negb (name_matches (m_app_name (info q)))); [split; auto|].
  destruct (negb (forallb name_matches (subcommands q))); split; auto.
Qed.

(** *** Worlds *)

Record walike (w v : world) : Prop := {
  wa_parser : alike (w_parser w) (w_parser v);
  wa_vars : w_vars w = w_vars v;
  wa_fs : w_fs w = w_fs v }.

Definition wsim {A} (m m' : M world A) : Prop :=
  forall w v, walike w v -> snd (m w) = snd (m' v) /\ walike (fst (m w)) (fst (m' v)).

Lemma wsim_ret {A} (a : A) : wsim (ret a) (ret a).
Proof. intros p q H. split; [reflexivity|exact H]. Qed.
Lemma wsim_bind {A B} (m m' : M world A) (k k' : A -> M world B) : wsim m m' -> (forall a, wsim (k a) (k' a)) -> wsim (bind m k) (bind m' k').
Proof.
  intros Hm Hk p q H. destruct (Hm p q H) as [E L]. unfold bind.
  destruct (m p) as [p1 r1], (m' q) as [q1 r2]. cbn in E, L. subst r2.
  destruct r1 as [a|e|o| | |]; try (split; [reflexivity|exact L]). now apply Hk.
Qed.
Lemma wsim_on {A} (m m' : M parser A) : sim m m' -> wsim (on_parser m) (on_parser m').
Proof.
  intros H w v [L V F]. destruct (H _ _ L) as [E L']. unfold on_parser.
  destruct (m (w_parser w)) as [p1 r1], (m' (w_parser v)) as [q1 r2]. cbn in *. subst. split; [reflexivity|]. constructor; auto.
Qed.

Lemma wsim_version : wsim (run_version_check bk) (run_version_check bk).
Proof.
  intros w v [L V F]. unfold run_version_check. rewrite <- (al_info _ _ L), <- (al_dev _ _ L), <- (al_user _ _ L), <- F.
  destruct (bk_version_check bk (info (w_parser w)) (dev_decision (w_parser w)) (user_decision (w_parser w)) (w_fs w)) as [f r].
  split; [reflexivity|]. constructor; auto.
Qed.
Lemma wsim_format l : wsim (parse_format ndebug bk l) (parse_format ndebug bk l).
Proof.
  intros w v W. pose proof W as [L V F]. unfold parse_format.
  rewrite <- (al_fmt _ _ L), <- (al_fargs _ _ L), <- (al_info _ _ L), <- (al_subs _ _ L), <- (al_dev _ _ L), <- (al_exe _ _ L), <- V, <- F.
  destruct (fmt (w_parser w)); try (split; [reflexivity|exact W]).
  destruct (parse_args ndebug (ops_decls l) (format_arguments (w_parser w)) (w_vars w) (w_fs w)) as [st r].
  split; [reflexivity|]. constructor; auto.
Qed.

Lemma alike_called p q : alike p q -> alike (set_called true p) (set_called true q).
Proof. intros []. constructor; cbn; auto. destruct mv; auto. Qed.

Lemma bind_step {St A B} (m : M St A) (k : A -> M St B) s : bind m k s =
  match m s with (s1, Ret a) => k a s1 | (s1, r) => (s1, lift_res r (fun _ => UB)) end.
Proof. unfold bind. destruct (m s) as [s1 [a|e|o| | |]]; reflexivity. Qed.

Lemma bind_assoc {St A B C} (m : M St A) (f : A -> M St B) (g : B -> M St C) s :
  bind (bind m f) g s = bind m (fun a => bind (f a) g) s.
Proof. unfold bind. destruct (m s) as [s1 [a|e|o| | |]]; reflexivity. Qed.

Lemma wsim_parse w v : walike w v -> clear (w_parser w) ->
  snd (parse ndebug bk w) = snd (parse ndebug bk v) /\ walike (fst (parse ndebug bk w)) (fst (parse ndebug bk v)).
Proof.
  intros W C. pose proof W as [L V F]. unfold parse. rewrite <- (al_called _ _ L).
  destruct (parse_was_called (w_parser w)) eqn:CL; [split; [reflexivity|exact W]|].
  rewrite (bind_ret_step _ _ w (with_parser (set_called true (w_parser w)) w) tt) by reflexivity.
  rewrite (bind_ret_step _ _ v (with_parser (set_called true (w_parser v)) v) tt) by reflexivity.
  set (w1 := with_parser (set_called true (w_parser w)) w). set (v1 := with_parser (set_called true (w_parser v)) v).
  assert (A : applied (w_parser w) = applied (w_parser v)).
  { pose proof (al_ops _ _ L) as H. destruct mv; [destruct H as (H1 & H2 & H3); unfold applied; now rewrite H1, H2, H3|].
    destruct H as [H|H]; [congruence|exact H]. }
  (* up to the operations *)
  pose (m := on_parser verify_app_and_subcommand_names ;; on_parser (determine_format_and_subcommand ndebug bk)).
  pose (k := (do l <- (fun w => (w, applied (w_parser w))); run_version_check bk ;; parse_format ndebug bk l) : M world unit).
  assert (Eq : forall u, (on_parser verify_app_and_subcommand_names ;; on_parser (determine_format_and_subcommand ndebug bk) ;;
                 do l <- (fun w => (w, apply_operations (self (w_parser w)) (gone (w_parser w)) (operations (w_parser w))));
                 run_version_check bk ;; parse_format ndebug bk l) u = (m ;; k) u).
  { intros u. unfold m. rewrite bind_assoc. reflexivity. }
  rewrite !Eq, !(bind_step m).
  assert (M : snd (m w1) = snd (m v1) /\ alike (w_parser (fst (m w1))) (w_parser (fst (m v1))) /\
              w_vars (fst (m w1)) = w_vars (fst (m v1)) /\ w_fs (fst (m w1)) = w_fs (fst (m v1)) /\
              (snd (m w1) = Ret tt -> applied (w_parser (fst (m w1))) = applied (w_parser (fst (m v1))))).
  { assert (K : forall u u', w_parser u' = set_called true (w_parser u) ->
              applied (w_parser (fst (m u'))) = applied (w_parser u)).
    { intros u u' Hu. unfold m, bind. unfold on_parser at 1. rewrite Hu.
      pose proof (keeps_names (set_called true (w_parser u))) as K1.
      destruct (verify_app_and_subcommand_names (set_called true (w_parser u))) as [p1 [[]|e|o| | |]]; cbn [fst] in K1;
        try (cbn [fst w_parser]; unfold applied; rewrite (kept_self _ _ K1), (kept_gone _ _ K1), (kept_ops _ _ K1); reflexivity).
      unfold on_parser. cbn [w_parser].
      pose proof (keeps_determine ndebug bk p1) as K2.
      destruct (determine_format_and_subcommand ndebug bk p1) as [p2 r2]. cbn [fst w_parser] in *.
      pose proof (kept_trans _ _ _ K1 K2) as K3.
      unfold applied. rewrite (kept_self _ _ K3), (kept_gone _ _ K3), (kept_ops _ _ K3). reflexivity. }
    assert (L1 : alike (w_parser w1) (w_parser v1)) by (apply alike_called, L).
    rewrite (K w w1 eq_refl), (K v v1 eq_refl). clear K.
    unfold m, bind, on_parser.
    destruct (sim_names _ _ L1) as [E1 L2].
    pose proof (keeps_names (w_parser w1)) as K1.
    destruct (verify_app_and_subcommand_names (w_parser w1)) as [p1 r1], (verify_app_and_subcommand_names (w_parser v1)) as [q1 r2].
    cbn [fst snd] in *. subst r2.
    destruct r1 as [[]|e|o| | |]; cbn [fst snd w_parser w_vars w_fs]; try (now auto 10).
    assert (C1 : clear p1) by (unfold clear; rewrite (kept_args _ _ K1); exact C).
    destruct (csim_determine p1 q1 L2 C1) as [E2 L3].
    destruct (determine_format_and_subcommand ndebug bk p1) as [p2 r2], (determine_format_and_subcommand ndebug bk q1) as [q2 r3].
    cbn [fst snd w_parser w_vars w_fs] in *. subst r3. auto 10. }
  destruct (m w1) as [w2 r1], (m v1) as [v2 r2]. cbn [fst snd] in M. destruct M as (E & L2 & V2 & F2 & A2). subst r2.
  assert (W2 : walike w2 v2) by (constructor; auto).
  destruct r1 as [[]|e|o| | |]; try (split; [reflexivity|exact W2]).
  unfold k. rewrite !(bind_step (fun w => (w, applied (w_parser w)))), (A2 eq_refl).
  destruct (applied (w_parser v2)) as [l|e|o| | |]; try (split; [reflexivity|exact W2]).
  exact (wsim_bind _ _ _ _ wsim_version (fun _ => wsim_format l) w2 v2 W2).
Qed.

Lemma wsim_set i : ~ In (id_name i) U -> wsim (on_parser (is_option_set i)) (on_parser (is_option_set i)).
Proof.
  intros N. apply wsim_on. intros p q L. unfold is_option_set. rewrite <- (al_called _ _ L), <- (al_fargs _ _ L).
  change (match i with IdLong s => s | IdShort c => str1 c end) with (id_name i) in *.
  rewrite (mem_alike _ _ _ L N).
  destruct (negb (parse_was_called p)); [split; auto|].
  destruct (match i with IdShort _ => false | IdLong s => (String.length s =? 1)%nat end); [split; auto|].
  destruct (negb (mem (id_name i) (used_ids q))); split; auto.
Qed.

(** the calls under which two parsers stay alike *)
Definition unaffected (c : call) : Prop :=
  (forall n, In n (call_names c) -> ~ In n U) /\ (mv = false -> is_move c = false).

Lemma alike_step c w v : walike w v -> clear (w_parser w) -> unaffected c ->
  snd (step ndebug bk c w) = snd (step ndebug bk c v) /\ walike (fst (step ndebug bk c w)) (fst (step ndebug bk c v)).
Proof.
  intros W C [N Mv]. pose proof W as [L V F].
  assert (T : forall m : M world unit, wsim m m -> wsim (m ;; ret true) (m ;; ret true)).
  { intros m H. apply wsim_bind; [exact H|intros _; apply wsim_ret]. }
  assert (Nc : forall c0, (forall n, In n (map id_name (config_idents c0)) -> ~ In n U) -> forall i, In i (config_idents c0) -> ~ In (id_name i) U).
  { intros c0 H i Hi. apply H, in_map, Hi. }
  destruct c; cbn [step].
  - apply T; [|exact W]. apply wsim_on, sim_add_option, Nc, N.
  - rewrite <- V. apply T; [|exact W]. apply wsim_on, sim_add_flag, Nc, N.
  - apply T; [|exact W]. apply wsim_on, sim_add_positional.
  - apply T; [|exact W]. apply wsim_on, sim_bind; [apply sim_check|intros _; apply sim_defer].
  - apply T; [|exact W]. apply wsim_on, sim_bind; [apply sim_check|intros _; apply sim_defer].
  - apply T; [|exact W]. apply wsim_on, sim_bind; [apply sim_check|intros _; apply sim_defer].
  - apply T; [|exact W]. apply wsim_on, sim_bind; [apply sim_check|intros _; apply sim_defer].
  - apply T; [|exact W]. apply wsim_on, sim_modify. intros p q L1. unfold add_subcommands. destruct L1. constructor; cbn; auto. congruence.
  - destruct (wsim_parse w v W C) as [E1 W1]. unfold bind.
    destruct (parse ndebug bk w) as [w1 r1], (parse ndebug bk v) as [v1 r2]. cbn [fst snd] in *. subst r2. destruct r1; split; auto.
  - apply wsim_set; [|exact W]. apply N. now left.
  - unfold get_sub_parser. rewrite <- (al_sub _ _ L). destruct (sub_parser (w_parser w)) as [p|] eqn:Es; [|split; [reflexivity|exact W]].
    rewrite <- V, <- F.
    destruct (step ndebug bk c {| w_parser := p; w_vars := w_vars w; w_fs := w_fs w |}) as [w1 r1].
    split; [reflexivity|]. constructor; auto. cbn [w_parser fst]. destruct L. constructor; cbn; auto.
  - apply T; [|exact W]. apply wsim_on, sim_modify. intros p q L1. destruct L1. constructor; cbn; auto.
  - apply T; [|exact W]. apply wsim_on, sim_modify. intros p q L1. destruct L1. destruct mv eqn:Em; [|now specialize (Mv eq_refl)].
    destruct al_ops0 as (A & B & D). constructor; cbn; auto. rewrite Em. now rewrite A, B, D.
  - unfold bind, modify. split; [reflexivity|]. constructor; cbn; auto. now rewrite V.
  - unfold bind, modify. split; [reflexivity|]. constructor; cbn; auto.
Qed.

Lemma step_arguments c w : arguments (w_parser (fst (step ndebug bk c w))) = arguments (w_parser w).
Proof.
  destruct (step ndebug bk c w) as [w1 r] eqn:E. cbn [fst].
  assert (B : forall p q, but_ids p q -> arguments q = arguments p) by (intros p q ->; reflexivity).
  destruct (section_op c) as [o|] eqn:S.
  { destruct (step_section ndebug bk c o w w1 r S E) as [(_ & -> & _)|(_ & -> & _)]; reflexivity. }
  destruct (quiet_call c) eqn:Q.
  { pose proof (step_quiet ndebug bk c w Q) as H. rewrite E in H. apply H. }
  destruct c; try discriminate S; try discriminate Q.
  - destruct (step_option ndebug bk x t c w w1 r E) as (p' & ra & H & -> & _).
    destruct (add_option_spec _ _ _ _ _ _ H) as [D K]. cbn [with_parser w_parser].
    destruct (dc_out _ _ _ _ _ D) as [->|[m ->]].
    + destruct (K eq_refl) as (_ & q & Hq & ->). change (arguments q = arguments (w_parser w)). now apply B.
    + now apply B, (dc_throw _ _ _ _ _ D).
  - destruct (step_flag ndebug bk x c w w1 r E) as (p' & ra & H & -> & _).
    destruct (add_flag_spec _ _ _ _ _ _ H) as [D K]. cbn [with_parser w_parser].
    destruct (dc_out _ _ _ _ _ D) as [->|[m ->]].
    + destruct (K eq_refl) as (_ & _ & q & Hq & ->). change (arguments q = arguments (w_parser w)). now apply B.
    + now apply B, (dc_throw _ _ _ _ _ D).
  - destruct (step_positional ndebug bk x t c w w1 r E) as (p' & ra & H & -> & _).
    destruct (add_positional_spec _ _ _ _ _ _ H) as [(-> & _)|(_ & _ & _ & _ & _ & ->)]; reflexivity.
  - injection E as <- _. reflexivity.
  - destruct (parse_keeps ndebug bk w) as [K _]. cbn [step] in E. unfold bind in E.
    destruct (parse ndebug bk w) as [w2 r2]. cbn [fst] in K.
    assert (w2 = w1) as <- by (destruct r2; now injection E). apply (kept_args _ _ K).
Qed.

Lemma alike_run cs : forall w v, walike w v -> clear (w_parser w) -> (forall c, In c cs -> unaffected c) ->
  snd (run ndebug bk cs w) = snd (run ndebug bk cs v) /\ walike (fst (run ndebug bk cs w)) (fst (run ndebug bk cs v)).
Proof.
  induction cs as [|c cs IH]; intros w v W C N; [split; [reflexivity|exact W]|].
  destruct (alike_step c w v W C (N c (or_introl eq_refl))) as [E W1]. pose proof (step_arguments c w) as A.
  rewrite !run_cons. destruct (step ndebug bk c w) as [w1 r1], (step ndebug bk c v) as [v1 r2]. cbn [fst snd] in *. subst r2.
  assert (C1 : clear (w_parser w1)) by (unfold clear; rewrite A; exact C).
  destruct (IH w1 v1 W1 C1 (fun c' H => N c' (or_intror H))) as [E2 W2].
  destruct r1; try (split; [reflexivity|exact W1]); cbn [fst snd] in *; (split; [now rewrite E2|exact W2]).
Qed.
End sim.
