(** From options and words to whole vectors: the parser refuses exactly what FailureSpec.v says. *)
From Verif Require Import Base StrLib Fs Values Validators FormatParse Invocation InvocationProofs InvocationEffects ValuesSpec ValuesProofs
  ScanSpec ScanProofs ScanFlags DiagnosisSpec DiagnosisOptions DiagnosisProofs ReadingSpec ReadingProofs FailureSpec FailureValues FailureProofs.

Section failing.
Variable ndebug : bool.

(** ** One option *)

Lemma id_value_option t ws old new : id_value ndebug t ws old new <-> option_value ndebug t [ws] old new.
Proof. destruct t; cbn [id_value option_value List.concat]; [now rewrite app_nil_r|reflexivity]. Qed.
Lemma option_value_nothing t old : option_value ndebug t [] old old.
Proof. destruct t; [now left|apply list_end]. Qed.
Lemma option_value_nothing_inv t old new : option_value ndebug t [] old new -> new = old.
Proof. destruct t; cbn; [intros [[_ H]|(w & H & _)]; [exact H|discriminate]|]. intros H. now inversion H. Qed.

Lemma option_throw x t c st st' ex : enum_ok (elem_ty t) -> get_option ndebug x t c st = (st', Throw ex) ->
  exists v, option_fails ndebug t c (pre st) (vars st x) (fsys st) (ekind ex) v (fsys st') /\ becomes x v (vars st) (vars st').
Proof.
  intros Hok H. unfold get_option in H. unfold bind at 1 in H. fold (short_id c) (long_id c) in H. destruct (get_by_id ndebug (short_id c) x t st) as [s1 q1] eqn:H1.
  destruct q1 as [q1|ex1|?| | |]; try discriminate.
  2:{ injection H as <- <-. apply by_id_throw in H1 as (Hi & v & l & Hn & A1 & A2 & A3 & A4 & A5); [|exact Hok]. exists v. split; [|exact A5]. rewrite A4.
      eapply (fails_name _ _ _ _ _ _ [] (short_id c)); [|constructor|apply option_value_nothing|exact Hn].
      unfold config_idents, short_id in *. cbn in Hi. rewrite Hi. reflexivity. }
  unfold bind at 1 in H. destruct (get_by_id ndebug (long_id c) x t s1) as [s2 q2] eqn:H2.
  apply by_id_ret' in H1 as (ws1 & l1 & v1 & A1 & -> & A2 & A3 & A4 & A5 & A6 & A7); [|exact Hok].
  destruct q2 as [q2|ex2|?| | |]; try discriminate.
  2:{ injection H as <- <-. apply by_id_throw in H2 as (Hi & v & l & Hn & B1 & B2 & B3 & B4 & B5); [|exact Hok]. exists v. rewrite B4, A6. split; [|eapply becomes_trans; eauto].
      rewrite A3, (proj1 A7) in Hn. unfold id_read in A1. destruct (is_empty_id (short_id c)) eqn:Es.
      - destruct A1 as [-> ->]. apply id_value_nothing_inv in A2 as ->.
        eapply (fails_name _ _ _ _ _ _ [] (long_id c)); [|constructor|apply option_value_nothing|exact Hn].
        unfold config_idents, short_id, long_id in *. cbn in Hi, Es. rewrite Hi, Es. reflexivity.
      - eapply (fails_name _ _ _ _ _ _ [short_id c] (long_id c) [] [ws1] l1 v1); [|eapply reads_name; [exact A1|constructor]|now apply id_value_option|exact Hn].
        unfold config_idents, short_id, long_id in *. cbn in Hi, Es. rewrite Hi, Es. reflexivity. }
  apply by_id_ret' in H2 as (ws2 & l2 & v2 & B1 & -> & B2 & B3 & B4 & B5 & B6 & B7); [|exact Hok].
  rewrite A3 in B1. rewrite (proj1 A7) in B2. pose proof (becomes_trans _ _ _ _ _ _ A7 B7) as Hb.
  destruct (given ws1 && given ws2 && negb (is_container t)) eqn:Em.
  - injection H as <- <-. apply andb_true_iff in Em as [Em Hc]. apply andb_true_iff in Em as [G1 G2]. destruct t as [e|e]; [|discriminate].
    cbn [id_value] in A2, B2. destruct A2 as [[-> _]|(w1 & -> & M1)]; [discriminate|]. destruct B2 as [[-> _]|(w2 & -> & M2)]; [discriminate|].
    exists v2. split; [|exact Hb]. rewrite B6, A6. cbn [ekind].
    eapply (fails_both _ _ _ _ _ _ e w1 w2 l2 v1); [reflexivity| |exact M1|exact M2].
    unfold id_read, short_id, long_id, is_empty_id in *. unfold config_idents. destruct (Ascii.eqb (c_short c) nul); [destruct A1; discriminate|].
    destruct (is_empty (c_long c)); [destruct B1; discriminate|]. eapply reads_name; [exact A1|]. eapply reads_name; [exact B1|]. constructor.
  - destruct (option_whole ndebug c t _ _ _ _ _ _ _ _ A1 B1 A2 B2) as (wss & W1 & W2 & W3).
    { intros Hc. rewrite Hc, andb_true_r in Em. exact Em. }
    rewrite <- given_app, <- W3 in H. destruct (List.concat wss) as [|w ws] eqn:Ec; cbn [given] in H.
    + destruct (c_required c) eqn:Er; [|discriminate]. injection H as <- <-. rewrite B6, A6. cbn [ekind].
      symmetry in W3. apply app_eq_nil in W3 as [-> ->]. apply id_value_nothing_inv in A2 as ->. apply id_value_nothing_inv in B2 as ->.
      exists (vars st x). split; [|exact Hb]. eapply fails_required; eauto.
    + unfold run_validator in H. rewrite (proj1 Hb), B6, A6 in H. destruct (c_validator c (fsys st) v2) as [f' r] eqn:Ev. destruct r; try discriminate.
      injection H as <- <-. exists v2. split; [|exact Hb]. cbn [ekind fsys set_fsys]. eapply fails_validation; eauto. rewrite Ec. discriminate.
Qed.

Lemma option_fails_throw x t c st k v f' : enum_ok (elem_ty t) -> option_fails ndebug t c (pre st) (vars st x) (fsys st) k v f' ->
  exists st' ex, get_option ndebug x t c st = (st', Throw ex) /\ ekind ex = k /\ fsys st' = f' /\ becomes x v (vars st) (vars st').
Proof.
  intros Hok H. unfold get_option. fold (short_id c) (long_id c). unfold bind.
  destruct H as [ids1 i ids2 wss l1 mid k v Hc Hr Hv Hn|e w1 w2 l1 mid v -> Hr M1 M2|wss l1 v f' m Hr Hne Hv Hval|wss l1 Hr Hne Hreq].
  - assert (Hids : (ids1 = [] /\ i = short_id c /\ is_empty_id i = false) \/ (ids1 = [] /\ i = long_id c /\ is_empty_id (short_id c) = true /\ is_empty_id i = false) \/
                   (ids1 = [short_id c] /\ i = long_id c /\ is_empty_id (short_id c) = false /\ is_empty_id i = false)).
    { clear -Hc. unfold config_idents, short_id, long_id in *. cbn [is_empty_id]. destruct (Ascii.eqb (c_short c) nul) eqn:E1; destruct (is_empty (c_long c)) eqn:E2; cbn [app] in Hc.
      - destruct ids1; discriminate.
      - destruct ids1 as [|? [|? ?]]; try discriminate. injection Hc as <- _. right. left. cbn. auto.
      - destruct ids1 as [|? [|? ?]]; try discriminate. injection Hc as <- _. left. cbn. auto.
      - destruct ids1 as [|? [|? [|? ?]]]; try discriminate.
        + injection Hc as <- _. left. cbn. auto.
        + injection Hc as <- <- _. right. right. cbn. auto. }
    destruct Hids as [(-> & -> & Hi)|[(-> & -> & Es & Hi)|(-> & -> & Es & Hi)]].
    + inversion Hr; subst. apply option_value_nothing_inv in Hv as ->. destruct (by_id_fails ndebug _ x t k v st Hok Hi Hn) as (s1 & ex & l & E & Ek & A1 & A2 & A3 & A4 & A5).
      rewrite E. exists s1, ex. auto.
    + inversion Hr; subst. apply option_value_nothing_inv in Hv as ->. rewrite by_id_nameless by exact Es.
      destruct (by_id_fails ndebug _ x t k v st Hok Hi Hn) as (s1 & ex & l & E & Ek & A1 & A2 & A3 & A4 & A5). rewrite E. exists s1, ex. auto.
    + inversion Hr as [|? ? ? ws ? wss' ? Hi1 Hn1]; subst. inversion Hn1; subst. apply id_value_option in Hv.
      destruct (by_id_reads ndebug (short_id c) x t st ws l1 mid Hok Es Hi1 Hv) as (s1 & E1 & A1 & A2 & A3 & A4 & A5). rewrite E1.
      destruct (by_id_fails ndebug (long_id c) x t k v s1 Hok Hi) as (s2 & ex & l & E & Ek & B1 & B2 & B3 & B4 & B5); [now rewrite A1, (proj1 A5)|].
      rewrite E. exists s2, ex. split; [reflexivity|]. split; [exact Ek|]. split; [congruence|]. eapply becomes_trans; eauto.
  - unfold config_idents in Hr. unfold id_read in *.
    assert (Hids : is_empty_id (short_id c) = false /\ is_empty_id (long_id c) = false /\ exists l0, reads (short_id c) (pre st) [w1] l0 /\ reads (long_id c) l0 [w2] l1).
    { clear -Hr. unfold short_id, long_id. cbn [is_empty_id]. destruct (Ascii.eqb (c_short c) nul); destruct (is_empty (c_long c)); cbn [app] in Hr.
      - inversion Hr.
      - inversion Hr as [|? ? ? ? ? ? ? ? Hr']; subst. inversion Hr'.
      - inversion Hr as [|? ? ? ? ? ? ? ? Hr']; subst. inversion Hr'.
      - inversion Hr as [|? ? ? ? l0 ? ? Hr0 Hr']; subst. inversion Hr' as [|? ? ? ? l2 ? ? Hr2 Hr3]; subst. inversion Hr3; subst. eauto 6. }
    destruct Hids as (E1 & E2 & l0 & R1 & R2).
    destruct (by_id_reads ndebug (short_id c) x (Scalar e) st [w1] l0 mid Hok E1 R1) as (s1 & G1 & A1 & A2 & A3 & A4 & A5); [right; eauto|]. rewrite G1.
    destruct (by_id_reads ndebug (long_id c) x (Scalar e) s1 [w2] l1 v Hok E2) as (s2 & G2 & B1 & B2 & B3 & B4 & B5); [now rewrite A1|right; rewrite (proj1 A5); eauto|]. rewrite G2.
    cbn [given is_container andb negb]. do 2 eexists. split; [reflexivity|]. split; [reflexivity|]. split; [congruence|]. eapply becomes_trans; eauto.
  - destruct (option_parts ndebug c t _ _ _ _ _ Hr Hv) as (ws1 & l & ws2 & v1 & P1 & P2 & P3 & P4 & P5 & P6).
    destruct (by_id_reads' ndebug (short_id c) x t st ws1 l v1 Hok P1 P3) as (s1 & E1 & A3 & A4 & A5 & A6 & A7).
    destruct (by_id_reads' ndebug (long_id c) x t s1 ws2 l1 v Hok) as (s2 & E2 & B3 & B4 & B5 & B6 & B7); [now rewrite A3|now rewrite (proj1 A7)|].
    rewrite E1, E2.
    assert (Em : given ws1 && given ws2 && negb (is_container t) = false) by (destruct (is_container t); [apply andb_false_r|rewrite P6 by reflexivity; reflexivity]).
    rewrite Em, <- given_app, <- P5. pose proof (becomes_trans _ _ _ _ _ _ A7 B7) as Hb. destruct (List.concat wss) as [|w ws]; [contradiction|]. cbn [given].
    unfold run_validator. rewrite B6, A6, (proj1 Hb), Hval. do 2 eexists. split; [reflexivity|]. split; [reflexivity|]. split; [reflexivity|exact Hb].
  - assert (Hv : option_value ndebug t wss (vars st x) (vars st x)).
    { clear -Hne. destruct t; [left; auto|]. cbn [option_value]. induction wss as [|ws wss IH]; [apply list_end|]. cbn in Hne. apply app_eq_nil in Hne as [-> Hne]. apply list_unused. auto. }
    destruct (option_parts ndebug c t _ _ _ _ _ Hr Hv) as (ws1 & l & ws2 & v1 & P1 & P2 & P3 & P4 & P5 & P6).
    destruct (by_id_reads' ndebug (short_id c) x t st ws1 l v1 Hok P1 P3) as (s1 & E1 & A3 & A4 & A5 & A6 & A7).
    destruct (by_id_reads' ndebug (long_id c) x t s1 ws2 l1 (vars st x) Hok) as (s2 & E2 & B3 & B4 & B5 & B6 & B7); [now rewrite A3|now rewrite (proj1 A7)|].
    rewrite E1, E2.
    assert (Em : given ws1 && given ws2 && negb (is_container t) = false) by (destruct (is_container t); [apply andb_false_r|rewrite P6 by reflexivity; reflexivity]).
    rewrite Em, <- given_app, <- P5, Hne. cbn [given]. rewrite Hreq. do 2 eexists. split; [reflexivity|]. split; [reflexivity|]. split; [congruence|]. eapply becomes_trans; eauto.
Qed.

(** ** All options *)

Lemma elems_ok_app ds1 ds2 : elems_ok (ds1 ++ ds2) -> elems_ok ds1 /\ elems_ok ds2.
Proof. intros H. split; intros t Ht; apply H; rewrite flat_map_app, in_app_iff; auto. Qed.
Lemma elems_ok_option ds1 x t c ds2 : elems_ok (ds1 ++ DOption x t c :: ds2) -> enum_ok (elem_ty t).
Proof. intros H. apply H. rewrite flat_map_app, in_app_iff. right. now left. Qed.

Lemma options_fail ds st st' ex : elems_ok ds -> mapM_ (option_call ndebug) ds st = (st', Throw ex) ->
  exists ds1 x t c ds2 b1 vs1 f1 v, ds = ds1 ++ DOption x t c :: ds2 /\ options_read ndebug ds1 (pre st) (vars st) (fsys st) b1 vs1 f1 /\
    option_fails ndebug t c b1 (vs1 x) f1 (ekind ex) v (fsys st') /\ becomes x v vs1 (vars st').
Proof.
  intros Hok H. apply mapM_throw in H as (ds1 & d & ds2 & s1 & -> & H1 & H2). destruct d as [x t c|x c|x t c]; try discriminate. cbn [option_call] in H2.
  pose proof (elems_ok_option _ _ _ _ _ Hok) as He. apply elems_ok_app in Hok as [Hok _]. apply options_ret in H1 as (R & _); [|exact Hok].
  apply option_throw in H2 as (v & Hf & Hb); [|exact He]. exists ds1, x, t, c, ds2, (pre s1), (vars s1), (fsys s1), v. auto.
Qed.

Lemma options_stop ds1 x t c ds2 b1 vs1 f1 k v f' st : elems_ok (ds1 ++ DOption x t c :: ds2) ->
  options_read ndebug ds1 (pre st) (vars st) (fsys st) b1 vs1 f1 -> option_fails ndebug t c b1 (vs1 x) f1 k v f' ->
  exists st' ex, mapM_ (option_call ndebug) (ds1 ++ DOption x t c :: ds2) st = (st', Throw ex) /\ ekind ex = k /\ fsys st' = f' /\ becomes x v vs1 (vars st').
Proof.
  intros Hok Hr Hf. pose proof (elems_ok_option _ _ _ _ _ Hok) as He. apply elems_ok_app in Hok as [Hok _].
  destruct (options_do ndebug _ _ _ _ _ _ _ Hr Hok st) as (s1 & E1 & A1 & A2 & A3 & A4 & A5); try reflexivity.
  destruct (option_fails_throw x t c s1 k v f' He) as (s2 & ex & E2 & Ek & Ef & Hb); [now rewrite A1, A2, A3|].
  rewrite mapM_app. unfold bind. rewrite E1. cbn [mapM_ option_call]. unfold bind. rewrite E2. exists s2, ex. repeat split; auto; [apply Hb|].
  intros y Hy. rewrite (proj2 Hb y Hy). apply A2.
Qed.

(** ** Words *)

Lemma assign_throw x e w s s' ex : enum_ok e -> s_assign ndebug x (Scalar e) w s = (s', Throw ex) ->
  ekind ex = KUserInput /\ exists v, ruined e (s_vars s x) w v /\ shifts x v s s'.
Proof.
  intros Hok H. unfold s_assign in H. cbn [parse_option_value] in H. pose proof (fun v => proj1 (elem_fails e (s_vars s x) w v Hok)) as F. unfold fails_with in F.
  destruct (parse_elem e (s_vars s x) w) as [v [| |]|ex'] eqn:E.
  - discriminate.
  - injection H as <- <-. split; [reflexivity|]. exists v. split; [now apply F|]. split; [apply becomes_set|reflexivity].
  - apply elem_overflow in E as [Hn _]. replace (is_arithmetic (Scalar e)) with true in H by (destruct e; try discriminate; reflexivity).
    injection H as <- <-. split; [reflexivity|]. exists v. split; [now apply F|]. split; [apply becomes_set|reflexivity].
  - injection H as <- <-. apply elem_throw in E as (n & names & sorted & _ & _ & _ & ->); [|exact Hok]. split; [reflexivity|].
    exists (s_vars s x). split; [now apply F|]. repeat split; auto.
Qed.
Lemma assign_ruined x e w s v : enum_ok e -> ruined e (s_vars s x) w v ->
  exists s' ex, s_assign ndebug x (Scalar e) w s = (s', Throw ex) /\ ekind ex = KUserInput /\ shifts x v s s'.
Proof.
  intros Hok H. apply elem_fails in H; [|exact Hok]. unfold fails_with in H. unfold s_assign. cbn [parse_option_value].
  destruct (parse_elem e (s_vars s x) w) as [v' [| |]|ex'] eqn:E.
  - destruct H.
  - subst v'. do 2 eexists. split; [reflexivity|]. split; [reflexivity|]. split; [apply becomes_set|reflexivity].
  - subst v'. apply elem_overflow in E as [Hn _]. replace (is_arithmetic (Scalar e)) with true by (destruct e; try discriminate; reflexivity).
    do 2 eexists. split; [reflexivity|]. split; [reflexivity|]. split; [apply becomes_set|reflexivity].
  - subst v. apply elem_throw in E as (n & names & sorted & _ & _ & _ & ->); [|exact Hok]. do 2 eexists. split; [reflexivity|]. split; [reflexivity|]. repeat split; auto.
Qed.
Lemma assign_list_throw x e w l s s' ex : enum_ok e -> s_vars s x = VList l -> s_assign ndebug x (ListOf e) w s = (s', Throw ex) ->
  ekind ex = KUserInput /\ unreadable e w /\ shifts x (VList l) s s'.
Proof.
  intros Hok Hl H. unfold s_assign in H. cbn [parse_option_value] in H. pose proof (fun v => proj1 (elem_fails e (default_val e) w v Hok)) as F. unfold fails_with in F.
  destruct (parse_elem e (default_val e) w) as [v [| |]|ex'] eqn:E; cbn [is_arithmetic] in H.
  - discriminate.
  - injection H as <- <-. split; [reflexivity|]. split.
    + split; [exists v; now apply F|]. intros T. apply (too_large_overflow _ (default_val e)) in T. congruence.
    + split; [|reflexivity]. split; [cbn; unfold set_var; rewrite Nat.eqb_refl; exact Hl|]. intros y Hy. now apply becomes_set.
  - unfold bind in H. cbn in H. destruct ndebug; discriminate.
  - injection H as <- <-. pose proof E as E0. apply elem_throw in E as (n & names & sorted & _ & _ & _ & ->); [|exact Hok]. split; [reflexivity|]. split.
    + split; [exists (default_val e); now apply F|]. intros T. apply (too_large_overflow _ (default_val e)) in T. congruence.
    + repeat split; auto.
Qed.
Lemma assign_list_unreadable x e w l s : enum_ok e -> s_vars s x = VList l -> unreadable e w ->
  exists s' ex, s_assign ndebug x (ListOf e) w s = (s', Throw ex) /\ ekind ex = KUserInput /\ shifts x (VList l) s s'.
Proof.
  intros Hok Hl [(new & H) Hn]. apply elem_fails in H; [|exact Hok]. unfold fails_with in H. unfold s_assign. cbn [parse_option_value].
  destruct (parse_elem e (default_val e) w) as [v' [| |]|ex'] eqn:E.
  - destruct H.
  - do 2 eexists. split; [reflexivity|]. split; [reflexivity|]. split; [|reflexivity]. split; [cbn; unfold set_var; rewrite Nat.eqb_refl; exact Hl|]. intros y Hy. now apply becomes_set.
  - apply elem_overflow in E as [_ E]. contradiction.
  - apply elem_throw in E as (n & names & sorted & _ & _ & _ & ->); [|exact Hok]. do 2 eexists. split; [reflexivity|]. split; [reflexivity|]. repeat split; auto.
Qed.

Lemma words_throw ds : elems_ok ds -> forall ws s s' ex, s_positionals ndebug ds ws s = (s', Throw ex) ->
  words_fail ndebug ds ws (s_vars s) (s_fs s) (ekind ex) (s_vars s') (s_fs s').
Proof.
  induction ds as [|d ds IH]; intros Hok ws s s' ex H; cbn [s_positionals] in H.
  - destruct ws as [|w ws]; [discriminate|]. injection H as <- <-. apply fail_surplus; [discriminate|auto].
  - pose proof (elems_ok_cons _ _ Hok) as Hok'. destruct d as [x t c|x c|x t c]; [constructor; [discriminate|auto]|constructor; [discriminate|auto]|].
    assert (He : enum_ok (elem_ty t)) by (apply Hok; now left).
    destruct ws as [|w ws]; [injection H as <- <-; eapply fail_here; [apply word_missing|apply becomes_self]|]. destruct t as [e|e]; cbn [is_container elem_ty] in *.
    + unfold bind at 1 in H. destruct (s_assign ndebug x (Scalar e) w s) as [s1 q] eqn:E1. destruct q as [[]|ex'|?| | |]; try discriminate.
      * apply assign_ret in E1 as (v & Hm & [Hb Hf]); [|exact He]. unfold bind in H. destruct (s_validate (c_validator c) x s1) as [s2 q] eqn:E2. destruct q as [[]|ex'|?| | |]; try discriminate.
        -- apply s_validate_ok in E2 as [Hv E]. apply IH in H; [|exact Hok']. rewrite E in H. cbn [s_vars s_fs] in H.
           eapply fail_one; eauto. now rewrite <- Hf, <- (proj1 Hb).
        -- injection H as <- <-. unfold s_validate in E2. rewrite Hf, (proj1 Hb) in E2. destruct (c_validator c (s_fs s) v) as [f' r] eqn:Ev. destruct r; try discriminate.
           injection E2 as <- <-. cbn [s_vars s_fs]. eapply fail_here; [|exact Hb]. eapply word_validation; eauto.
      * injection H as <- <-. apply assign_throw in E1 as (Ek & v & Hr & [Hb Hf]); [|exact He]. rewrite Ek, Hf. eapply fail_here; [|exact Hb]. now apply word_refused.
    + unfold bind at 1 in H. cbn [s_set modify] in H. set (s0 := {| s_vars := set_var (s_vars s) x (VList []); s_fs := s_fs s |}) in *.
      assert (H0 : becomes x (VList []) (s_vars s) (s_vars s0)) by apply becomes_set.
      unfold bind at 1 in H. destruct (mapM_ (s_assign ndebug x (ListOf e)) (w :: ws) s0) as [s1 q] eqn:E1. destruct q as [[]|ex'|?| | |]; try discriminate.
      * apply (assign_all_ret ndebug x e (w :: ws) He _ _ []) in E1 as (vals & Hm & [Hb Hf]); [|apply H0]. cbn [app] in Hb. pose proof (becomes_trans _ _ _ _ _ _ H0 Hb) as Hb'.
        unfold bind in H. destruct (s_validate (c_validator c) x s1) as [s2 q] eqn:E2. destruct q as [[]|ex'|?| | |]; try discriminate.
        -- apply s_validate_ok in E2 as [Hv E]. apply IH in H; [|exact Hok']. rewrite E in H. cbn [s_vars s_fs] in H. rewrite Hf, (proj1 Hb) in Hv. cbn [s_fs s0] in Hv.
           eapply fail_list; eauto. discriminate.
        -- injection H as <- <-. unfold s_validate in E2. rewrite Hf, (proj1 Hb) in E2. cbn [s_fs s0] in E2. destruct (c_validator c (s_fs s) (VList vals)) as [f' r] eqn:Ev. destruct r; try discriminate.
           injection E2 as <- <-. cbn [s_vars s_fs]. eapply fail_here; [|exact Hb']. eapply words_validation; eauto. discriminate.
      * injection H as <- <-. apply mapM_throw in E1 as (ws1 & u & ws2 & s2 & Ew & E1 & E2).
        apply (assign_all_ret ndebug x e ws1 He _ _ []) in E1 as (vals & Hm & [Hb Hf]); [|apply H0]. cbn [app] in Hb.
        apply (assign_list_throw _ _ _ vals) in E2 as (Ek & Hu & [Hb2 Hf2]); [|exact He|apply Hb]. rewrite Ek, Hf2, Hf, Ew. change (s_fs s0) with (s_fs s).
        eapply fail_here; [eapply words_refused; [exact Hm|exact Hu]|]. eapply becomes_trans; [exact H0|]. eapply becomes_trans; eauto.
Qed.

Lemma becomes_same x v a b a' b' : becomes x v a b -> becomes x v a' b' -> (forall y : addr, a y = a' y) -> forall y, b y = b' y.
Proof. intros [H1 H2] [H3 H4] H y. destruct (Nat.eq_dec y x) as [->|Hy]; [congruence|]. now rewrite H2, H4. Qed.

Lemma words_stop ds ws vs f k vs' f' : words_fail ndebug ds ws vs f k vs' f' -> elems_ok ds -> forall s, (forall y, s_vars s y = vs y) -> s_fs s = f ->
  exists s' ex, s_positionals ndebug ds ws s = (s', Throw ex) /\ ekind ex = k /\ (forall y, s_vars s' y = vs' y) /\ s_fs s' = f'.
Proof.
  induction 1 as [ws vs vs' f Hne He|x t c ds ws vs f k v vs' f' Hw Hb|d ds ws vs f k vs' f' Hd H IH|x e c ds w ws vs f v vs1 f1 k vs' f' Hm Hb Hv H IH|x e c ds ws vals vs f vs1 f1 k vs' f' Hne Hm Hb Hv H IH];
    intros Hok s Hs Hf; cbn [s_positionals].
  - destruct ws as [|w ws]; [contradiction|]. exists s. eexists. split; [reflexivity|]. repeat split; auto. intros y. now rewrite Hs, He.
  - assert (He : enum_ok (elem_ty t)) by (apply (Hok t); now left). rewrite <- Hs, <- Hf in Hw.
    destruct Hw as [t|e w ws new Hr|e w ws new f' m Hm Hval|e ws1 w ws2 vals Hm Hu|e ws vals f' m Hne Hm Hval]; cbn [is_container elem_ty] in *.
    + exists s. eexists. split; [reflexivity|]. split; [reflexivity|]. split; [|reflexivity]. intros y. symmetry. eapply (becomes_same x (s_vars s x)); [exact Hb| |]; [|intros; symmetry; apply Hs].
      apply becomes_self.
    + destruct (assign_ruined x e w s new He Hr) as (s1 & ex & E & Ek & B & F). unfold bind. rewrite E. exists s1, ex. repeat split; auto.
      eapply becomes_same; [exact B|exact Hb|exact Hs].
    + destruct (assign_means ndebug x e w s new He Hm) as (s1 & E & B & F). unfold bind. rewrite E. unfold s_validate. rewrite F, (proj1 B), Hval.
      do 2 eexists. split; [reflexivity|]. repeat split; auto. cbn [s_vars]. eapply becomes_same; [exact B|exact Hb|exact Hs].
    + destruct (ws1 ++ w :: ws2) as [|w0 ws0] eqn:Ews; [destruct ws1; discriminate|]. rewrite <- Ews. unfold bind at 1. cbn [s_set modify].
      match goal with |- context [mapM_ _ (ws1 ++ w :: ws2)] => set (s0 := {| s_vars := set_var (s_vars s) x (VList []); s_fs := s_fs s |}) end.
      assert (H0 : becomes x (VList []) (s_vars s) (s_vars s0)) by apply becomes_set.
      destruct (assign_all_elements ndebug x e ws1 vals He Hm s0 [] (proj1 H0)) as (s1 & E1 & B1 & F1). cbn [app] in B1.
      destruct (assign_list_unreadable x e w vals s1 He (proj1 B1) Hu) as (s2 & ex & E2 & Ek & B2 & F2).
      unfold bind at 1. rewrite mapM_app. unfold bind at 1. rewrite E1. cbn [mapM_]. unfold bind at 1. rewrite E2. exists s2, ex. repeat split; auto; [|rewrite F2, F1; reflexivity].
      eapply becomes_same; [|exact Hb|exact Hs]. eapply becomes_trans; [exact H0|]. eapply becomes_trans; eauto.
    + destruct ws as [|w0 ws]; [contradiction|]. unfold bind at 1. cbn [s_set modify].
      match goal with |- context [mapM_ _ (w0 :: ws)] => set (s0 := {| s_vars := set_var (s_vars s) x (VList []); s_fs := s_fs s |}) end.
      assert (H0 : becomes x (VList []) (s_vars s) (s_vars s0)) by apply becomes_set.
      destruct (assign_all_elements ndebug x e (w0 :: ws) vals He Hm s0 [] (proj1 H0)) as (s1 & E1 & B1 & F1). cbn [app] in B1.
      unfold bind at 1. rewrite E1. unfold bind, s_validate. rewrite F1, (proj1 B1). cbn [s_fs s0]. rewrite Hval. do 2 eexists. split; [reflexivity|]. repeat split; auto.
      cbn [s_vars]. eapply becomes_same; [|exact Hb|exact Hs]. eapply becomes_trans; eauto.
  - pose proof (elems_ok_cons _ _ Hok) as Hok'. destruct d; [apply IH; auto|apply IH; auto|exfalso; eapply Hd; reflexivity].
  - cbn [is_container]. assert (He : enum_ok e) by (apply (Hok (Scalar e)); now left). rewrite <- Hs in Hm.
    destruct (assign_means ndebug x e w s v He Hm) as (s1 & E1 & B1 & F1). unfold bind. rewrite E1.
    assert (E2 : s_validate (c_validator c) x s1 = ({| s_vars := s_vars s1; s_fs := f1 |}, Ret tt)) by (apply s_validate_ok; rewrite F1, Hf, (proj1 B1); auto).
    rewrite E2. apply IH; [eapply elems_ok_cons; eauto| |reflexivity]. cbn [s_vars]. eapply becomes_same; eauto.
  - cbn [is_container]. destruct ws as [|w ws]; [contradiction|]. assert (He : enum_ok e) by (apply (Hok (ListOf e)); now left).
    unfold bind. cbn [s_set modify]. match goal with |- context [mapM_ _ (w :: ws) ?s0] => destruct (assign_all_elements ndebug x e (w :: ws) vals He Hm s0 []) as (s1 & E1 & B1 & F1); [apply becomes_set|] end.
    rewrite E1. cbn [app] in B1.
    assert (E2 : s_validate (c_validator c) x s1 = ({| s_vars := s_vars s1; s_fs := f1 |}, Ret tt)) by (apply s_validate_ok; rewrite F1, (proj1 B1); cbn [s_fs]; rewrite Hf; auto).
    rewrite E2. apply IH; [eapply elems_ok_cons; eauto| |reflexivity]. cbn [s_vars]. eapply becomes_same; [|exact Hb|exact Hs]. eapply becomes_trans; [apply becomes_set|exact B1].
Qed.

(** ** The whole vector *)

Lemma unknown_throw l a : In a l -> a <> "" -> ~ ScanSpec.plain_word a -> exists msg, check_unknown_in l = Throw (Exn KUnknownOption msg).
Proof.
  intros Hin Hne Hp. destruct (check_unknown_in l) as [[]|[k msg]|o| | |] eqn:E.
  - exfalso. destruct (check_unknown_ret _ E _ Hin); contradiction.
  - apply check_unknown_throw in E as [-> _]. eauto.
  - exfalso. revert E. clear. induction l as [|a l IH]; [discriminate|]. cbn [check_unknown_in]. destruct a as [|c s]; [exact IH|]. destruct (Ascii.eqb c "-"); [|exact IH].
    destruct (String.eqb _ _); [exact IH|]. destruct (_ && _); [|discriminate]. unfold lift_res. destruct (expand_multiple_flags _) eqn:E; try discriminate.
    revert E. unfold expand_multiple_flags. repeat match goal with |- context [if ?b then _ else _] => destruct b end; try discriminate; destruct (rfind _ _); discriminate.
  - exfalso. revert E. clear. induction l as [|a l IH]; [discriminate|]. cbn [check_unknown_in]. destruct a as [|c s]; [exact IH|]. destruct (Ascii.eqb c "-"); [|exact IH].
    destruct (String.eqb _ _); [exact IH|]. destruct (_ && _); [|discriminate]. unfold lift_res. destruct (expand_multiple_flags _) eqn:E; try discriminate.
    revert E. unfold expand_multiple_flags. repeat match goal with |- context [if ?b then _ else _] => destruct b end; try discriminate; destruct (rfind _ _); discriminate.
  - exfalso. revert E. clear. induction l as [|a l IH]; [discriminate|]. cbn [check_unknown_in]. destruct a as [|c s]; [exact IH|]. destruct (Ascii.eqb_spec c "-") as [->|]; [|exact IH].
    destruct (String.eqb_spec (String "-" s) "-") as [|E0]; [exact IH|]. destruct (_ && _) eqn:Ec; [|discriminate]. unfold lift_res. destruct (expand_multiple_flags _) eqn:E; try discriminate.
    unfold expand_multiple_flags in E. rewrite Ascii.eqb_refl in E. destruct s as [|d s]; [now exfalso|]. cbn [is_empty] in E. destruct (rfind _ _); discriminate.
  - exfalso. revert E. clear. induction l as [|a l IH]; [discriminate|]. cbn [check_unknown_in]. destruct a as [|c s]; [exact IH|]. destruct (Ascii.eqb c "-"); [|exact IH].
    destruct (String.eqb _ _); [exact IH|]. destruct (_ && _); [|discriminate]. unfold lift_res. destruct (expand_multiple_flags _) eqn:E; try discriminate.
    revert E. unfold expand_multiple_flags. repeat match goal with |- context [if ?b then _ else _] => destruct b end; try discriminate; destruct (rfind _ _); discriminate.
Qed.

Lemma refused_iff decls args vs f k vs' f' : wf_decls decls = true -> elems_ok decls ->
  refused ndebug decls args vs f k vs' f' <->
  exists st' ex, parse_args ndebug decls args vs f = (st', Throw ex) /\ ekind ex = k /\ (forall y, vars st' y = vs' y) /\ fsys st' = f'.
Proof.
  intros Hwf Hok. assert (Hl : list_last (pos_types decls) = true) by (unfold wf_decls in Hwf; now apply andb_true_iff in Hwf as [_ Hwf]).
  pose proof (wf_flags_ok _ Hwf) as Hfl. split.
  - intros H. destruct H as [b r ds1 x t c ds2 b1 vs1 f1 k v vs' f' Hc Hd Hr Hf Hb|b r b1 vs1 f1 b2 r2 vs2 a Hc Ho Hf Hin Hne Hp|b r b1 vs1 f1 b2 r2 vs2 k vs' f' Hc Ho Hf Hu Hw].
    + set (st := {| pre := b; post := r; vars := vs; count := 0; fsys := f |}). pose proof Hok as Hok'. rewrite Hd in Hok'.
      destruct (options_stop ds1 x t c ds2 b1 vs1 f1 k v f' st Hok' Hr Hf) as (s1 & ex & E & Ek & Ef & B). rewrite <- Hd in E.
      assert (Efr : front ndebug decls st = (s1, Throw ex)) by (unfold front, bind; rewrite E; reflexivity).
      destruct (parse_split ndebug decls args b r vs f Hl Hc) as [(st1 & q & E1 & Hq & E2)|(st1 & E1 & _)]; fold st in E1; rewrite Efr in E1; [|discriminate].
      injection E1 as <- <-. exists s1, ex. repeat split; auto. eapply becomes_same; [exact B|exact Hb|auto].
    + set (st := {| pre := b; post := r; vars := vs; count := 0; fsys := f |}).
      destruct (options_do ndebug _ _ _ _ _ _ _ Ho Hok st) as (s1 & E1 & A1 & A2 & A3 & A4 & A5); try reflexivity.
      destruct (flags_do _ _ _ _ _ _ _ Hf Hfl s1 A1 A4 A2) as (s2 & E2 & B1 & B2 & B3 & B4 & B5).
      destruct (unknown_throw _ _ Hin Hne Hp) as [msg Em].
      assert (Efr : front ndebug decls st = (s2, Throw (Exn KUnknownOption msg))) by (unfold front, bind; rewrite E1, E2; unfold check_for_unknown_ids; now rewrite B1, Em).
      destruct (parse_split ndebug decls args b r vs f Hl Hc) as [(st1 & q & E3 & Hq & E4)|(st1 & E3 & _)]; fold st in E3; rewrite Efr in E3; [|discriminate].
      injection E3 as <- <-. do 2 eexists. split; [exact E4|]. repeat split; auto. congruence.
    + set (st := {| pre := b; post := r; vars := vs; count := 0; fsys := f |}).
      destruct (options_do ndebug _ _ _ _ _ _ _ Ho Hok st) as (s1 & E1 & A1 & A2 & A3 & A4 & A5); try reflexivity.
      destruct (flags_do _ _ _ _ _ _ _ Hf Hfl s1 A1 A4 A2) as (s2 & E2 & B1 & B2 & B3 & B4 & B5).
      assert (Efr : front ndebug decls st = (s2, Ret tt)).
      { unfold front, bind. rewrite E1, E2. unfold check_for_unknown_ids. rewrite unknown_ret; [reflexivity|]. now rewrite B1. }
      destruct (parse_split ndebug decls args b r vs f Hl Hc) as [(st1 & q & E & Hq & _)|(st1 & E & V1 & V2 & V3)]; fold st in E; rewrite Efr in E.
      { injection E as _ <-. contradiction. }
      injection E as <-. rewrite B1, B2, filter_nonempty in V1, V2, V3.
      destruct (words_stop _ _ _ _ _ _ _ Hw Hok (abs s2)) as (s' & ex & E3 & Ek & C1 & C2); [exact B3|cbn; congruence|]. rewrite E3 in V1, V2, V3.
      destruct (parse_args ndebug decls args vs f) as [st' q]. cbn [fst snd okind_of] in *. destruct q as [[]|ex'|?| | |]; try discriminate. cbn [okind_of] in V3. injection V3 as V3.
      exists st', ex'. split; [reflexivity|]. split; [congruence|]. split; [intros y; rewrite V1; apply C1|congruence].
  - intros (st' & ex & E & <- & Hv & Hf). destruct (cut_exists args) as (b & r & Hc). set (st := {| pre := b; post := r; vars := vs; count := 0; fsys := f |}).
    destruct (parse_split ndebug decls args b r vs f Hl Hc) as [(st1 & q & Efr & _ & E')|(st1 & Efr & V1 & V2 & V3)]; fold st in Efr.
    + rewrite E in E'. injection E' as <- <-. unfold front in Efr. unfold bind at 1 in Efr. destruct (mapM_ (option_call ndebug) decls st) as [s1 q1] eqn:H1.
      destruct q1 as [[]|ex1|?| | |]; try discriminate.
      * unfold bind in Efr. pose proof (flag_calls_ret decls s1) as Hr. destruct (mapM_ flag_call decls s1) as [s2 q2] eqn:H2. cbn in Hr. subst q2.
        unfold check_for_unknown_ids in Efr. injection Efr as <- Hu.
        apply options_ret in H1 as (O1 & O2 & O3); [|exact Hok]. apply flags_ret in H2 as (F1 & F2 & F3); [|exact Hfl]. cbn [pre post vars fsys st] in *.
        destruct ex as [k msg]. apply check_unknown_throw in Hu as U. destruct U as [-> (a & Ha & _)]. cbn [ekind].
        assert (exists a, In a (pre s2) /\ a <> "" /\ ~ ScanSpec.plain_word a) as (a' & I1 & I2 & I3).
        { clear -Hu. induction (pre s2) as [|a l IH]; [discriminate|].
          assert (K : check_unknown_in l = Throw (Exn KUnknownOption msg) -> exists a0, In a0 (a :: l) /\ a0 <> "" /\ ~ ScanSpec.plain_word a0).
          { intros H. destruct (IH H) as (b & Hb & H1 & H2). exists b. split; [now right|auto]. }
          cbn [check_unknown_in] in Hu. destruct a as [|c s]; [auto|]. destruct (Ascii.eqb_spec c "-") as [->|Hc]; [|auto]. destruct (String.eqb_spec (String "-" s) "-") as [E|E]; [auto|].
          exists (String "-" s). split; [now left|]. split; [discriminate|]. intros [_ [H|H]]; [congruence|]. cbn in H. discriminate. }
        rewrite O2 in F1. rewrite <- Hf, F2.
        eapply (refused_unknown ndebug decls args vs f b r (pre s1) (vars s1) (fsys s1) (pre s2) (post s2) vs' a'); auto.
        clear -F1 Hv. revert F1. generalize (pre s1), (vars s1), (pre s2), (post s2), (vars s2), r, Hv. clear. intros b1 vs1 b2 r2 v2 r Hv F1.
        induction F1 as [? ? ? ? He|? ? ? ? ? ? ? ? Hd H IH|? ? ? ? ? ? ? ? ? ? ? ? ? Hfr Hb H IH]; [constructor; intros y; rewrite <- Hv; auto|constructor; auto|eapply flags_one; eauto].
      * injection Efr as <- <-. apply options_fail in H1 as (ds1 & x & t & c & ds2 & b1 & vs1 & f1 & v & Hd & Hr & Hfl' & Hb); [|exact Hok]. rewrite <- Hf.
        eapply refused_option; eauto. eapply becomes_ext; [| |exact Hb]; auto.
    + rewrite E in V1, V2, V3. cbn [fst snd okind_of] in V1, V2, V3.
      match type of V1 with _ = s_vars (fst ?e) => destruct e as [s' q] eqn:Es end. cbn [fst snd] in *. destruct q as [[]|ex'|?| | |]; try discriminate V3. cbn [okind_of] in V3. injection V3 as V3.
      unfold front in Efr. apply bind_inv_p in Efr as (s1 & [] & H1 & Efr). apply bind_inv_p in Efr as (s2 & [] & H2 & Efr). unfold check_for_unknown_ids in Efr.
      injection Efr as <- Hu. apply options_ret in H1 as (O1 & O2 & O3); [|exact Hok]. apply flags_ret in H2 as (F1 & F2 & F3); [|exact Hfl]. cbn [pre post vars fsys st] in *.
      apply words_throw in Es; [|exact Hok]. cbn [abs s_vars s_fs] in Es. rewrite O2 in F1. rewrite <- V3 in Es.
      eapply (refused_words ndebug decls args vs f b r (pre s1) (vars s1) (fsys s1) (pre s2) (post s2) (vars s2)); auto.
      { now apply check_unknown_ret. }
      rewrite <- filter_nonempty, <- F2.
      assert (Ext : forall vs1 vs2 f1 f2, (forall y, vs1 y = vs2 y) -> f1 = f2 -> forall ds ws a g k, words_fail ndebug ds ws a g k vs1 f1 -> words_fail ndebug ds ws a g k vs2 f2).
      { clear. intros vs1 vs2 f1 f2 H <- ds ws a g k W. induction W; [apply fail_surplus; auto; intros y; rewrite <- H; auto|eapply fail_here; eauto; eapply becomes_ext; eauto|constructor; auto|eapply fail_one; eauto|eapply fail_list; eauto]. }
      eapply Ext; [| |exact Es]; [intros y; rewrite <- V1; apply Hv|congruence].
Qed.
End failing.
