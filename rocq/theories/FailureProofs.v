(** A vector is refused exactly as FailureSpec.v says. *)
From Verif Require Import Base StrLib Fs Values Validators FormatParse Invocation InvocationProofs ValuesSpec ValuesProofs
  ScanSpec ScanProofs ScanFlags DiagnosisSpec DiagnosisOptions DiagnosisProofs ReadingSpec ReadingProofs FailureSpec FailureValues.

(** ** Storing values *)

Section failing.
Variable ndebug : bool.

Lemma store_scalar_throw x e name w st st' ex : enum_ok e -> store_value ndebug x (Scalar e) name w st = (st', Throw ex) ->
  ekind ex = KUserInput /\ exists v, ruined e (vars st x) w v /\ same_but x v (pre st) st st'.
Proof.
  intros Hok H. unfold store_value in H. cbn [parse_option_value] in H. pose proof (fun v => proj1 (elem_fails e (vars st x) w v Hok)) as F. unfold fails_with in F.
  destruct (parse_elem e (vars st x) w) as [v [| |]|ex'] eqn:E; cbn [throw_on_input_error] in H.
  - discriminate.
  - injection H as <- <-. split; [reflexivity|]. exists v. split; [now apply F|]. repeat split; auto; apply becomes_set.
  - apply elem_overflow in E as [Hn _]. replace (is_arithmetic (Scalar e)) with true in H by (destruct e; try discriminate; reflexivity).
    injection H as <- <-. split; [reflexivity|]. exists v. split; [now apply F|]. repeat split; auto; apply becomes_set.
  - injection H as <- <-. apply elem_throw in E as (n & names & sorted & _ & _ & _ & ->); [|exact Hok]. split; [reflexivity|].
    exists (vars st x). split; [now apply F|]. repeat split; auto.
Qed.
Lemma store_scalar_ruined x e name w st v : enum_ok e -> ruined e (vars st x) w v ->
  exists st' ex, store_value ndebug x (Scalar e) name w st = (st', Throw ex) /\ ekind ex = KUserInput /\ same_but x v (pre st) st st'.
Proof.
  intros Hok H. apply elem_fails in H; [|exact Hok]. unfold fails_with in H. unfold store_value. cbn [parse_option_value].
  destruct (parse_elem e (vars st x) w) as [v' [| |]|ex'] eqn:E; cbn [throw_on_input_error].
  - destruct H.
  - subst v'. do 2 eexists. split; [reflexivity|]. split; [reflexivity|]. repeat split; auto; apply becomes_set.
  - subst v'. apply elem_overflow in E as [Hn _]. replace (is_arithmetic (Scalar e)) with true by (destruct e; try discriminate; reflexivity).
    do 2 eexists. split; [reflexivity|]. split; [reflexivity|]. repeat split; auto; apply becomes_set.
  - subst v. apply elem_throw in E as (n & names & sorted & _ & _ & _ & ->); [|exact Hok]. do 2 eexists. split; [reflexivity|]. split; [reflexivity|]. repeat split; auto.
Qed.

Lemma store_list_throw x e name w l st st' ex : enum_ok e -> vars st x = VList l -> store_value ndebug x (ListOf e) name w st = (st', Throw ex) ->
  ekind ex = KUserInput /\ unreadable e w /\ same_but x (VList l) (pre st) st st'.
Proof.
  intros Hok Hl H. unfold store_value in H. cbn [parse_option_value] in H. pose proof (fun v => proj1 (elem_fails e (default_val e) w v Hok)) as F. unfold fails_with in F.
  destruct (parse_elem e (default_val e) w) as [v [| |]|ex'] eqn:E; cbn [throw_on_input_error is_arithmetic] in H.
  - discriminate.
  - injection H as <- <-. split; [reflexivity|]. split.
    + split; [exists v; now apply F|]. intros T. apply (too_large_overflow _ (default_val e)) in T. congruence.
    + repeat split; auto; [cbn; unfold set_var; rewrite Nat.eqb_refl; exact Hl|]. intros y Hy. now apply becomes_set.
  - destruct ndebug; discriminate.
  - injection H as <- <-. pose proof E as E0. apply elem_throw in E as (n & names & sorted & _ & _ & _ & ->); [|exact Hok]. split; [reflexivity|]. split.
    + split; [exists (default_val e); now apply F|]. intros T. apply (too_large_overflow _ (default_val e)) in T. congruence.
    + repeat split; auto.
Qed.
Lemma store_list_unreadable x e name w l st : enum_ok e -> vars st x = VList l -> unreadable e w ->
  exists st' ex, store_value ndebug x (ListOf e) name w st = (st', Throw ex) /\ ekind ex = KUserInput /\ same_but x (VList l) (pre st) st st'.
Proof.
  intros Hok Hl [(new & H) Hn]. apply elem_fails in H; [|exact Hok]. unfold fails_with in H. unfold store_value. cbn [parse_option_value].
  destruct (parse_elem e (default_val e) w) as [v' [| |]|ex'] eqn:E; cbn [throw_on_input_error].
  - destruct H.
  - do 2 eexists. split; [reflexivity|]. split; [reflexivity|]. repeat split; auto; [cbn; unfold set_var; rewrite Nat.eqb_refl; exact Hl|]. intros y Hy. now apply becomes_set.
  - apply elem_overflow in E as [_ E]. contradiction.
  - apply elem_throw in E as (n & names & sorted & _ & _ & _ & ->); [|exact Hok]. do 2 eexists. split; [reflexivity|]. split; [reflexivity|]. repeat split; auto.
Qed.

Lemma mapM_throw {A St} (g : A -> M St unit) ws : forall st st' ex, mapM_ g ws st = (st', Throw ex) ->
  exists ws1 w ws2 s1, ws = ws1 ++ w :: ws2 /\ mapM_ g ws1 st = (s1, Ret tt) /\ g w s1 = (st', Throw ex).
Proof.
  induction ws as [|w ws IH]; intros st st' ex H; cbn [mapM_] in H; [discriminate|]. unfold bind in H.
  destruct (g w st) as [s1 q] eqn:E. destruct q as [[]|ex'|o| | |]; try discriminate.
  - apply IH in H as (ws1 & w' & ws2 & s2 & -> & H1 & H2). exists (w :: ws1), w', ws2, s2. split; [reflexivity|]. split; [|exact H2]. cbn [mapM_]. unfold bind. now rewrite E.
  - injection H as <- <-. exists [], w, ws, st. auto.
Qed.
Lemma mapM_app {A St} (g : A -> M St unit) ws1 ws2 st : mapM_ g (ws1 ++ ws2) st = bind (mapM_ g ws1) (fun _ => mapM_ g ws2) st.
Proof.
  revert st; induction ws1 as [|w ws IH]; intros st; cbn [app mapM_]; [reflexivity|]. unfold bind in *. destruct (g w st) as [s [[]|?|?| | |]]; try reflexivity. apply IH.
Qed.

(** ** Uses of an identifier *)

Lemma first_like i a r w mid r' : first_value i a r w mid r' -> looks_like i a = true.
Proof. destruct 1 as [w r [c ->] _ _|w r _|w r]; [apply dashed_app_short|apply dashed_app_equals|apply dashed_like]. Qed.
Lemma first_offers i a r w mid r' : first_value i a r w mid r' -> offers i (a :: r) w.
Proof. destruct 1; constructor; auto. Qed.
Lemma offers_first i l w : offers i l w -> exists a r mid r', l = a :: r /\ first_value i a r w mid r'.
Proof. destruct 1; do 4 eexists; (split; [reflexivity|]); [apply first_joined|apply first_equals|apply first_separate]; auto. Qed.

Lemma looks_cases i a r : looks_like i a = true -> (exists w mid r', first_value i a r w mid r') \/ valueless i (a :: r).
Proof.
  intros Ha. destruct (looks_like_prefix _ _ Ha) as (u & -> & Hu). destruct u as [|e u].
  - rewrite app_nil_r_s. destruct r as [|v r]; [right; now left|]. left. exists v, [""], r. apply first_separate.
  - destruct (Ascii.eqb_spec e "=") as [->|He].
    + destruct u as [|e' u]; [right; right; now exists r|]. left. exists (String e' u), [], r. apply (first_equals i (String e' u)). discriminate.
    + left. exists (String e u), [], r. destruct Hu as [Hu|[Hu|Hu]]; [discriminate|cbn in Hu; apply Ascii.eqb_eq in Hu; congruence|].
      apply first_joined; [exact Hu|discriminate|]. cbn. destruct (Ascii.eqb_spec "=" e); [congruence|reflexivity].
Qed.
Lemma valueless_like i l : valueless i l -> exists a r, l = a :: r /\ looks_like i a = true.
Proof.
  intros [->|[r ->]]; do 2 eexists; (split; [reflexivity|]); [apply dashed_like|]. apply (dashed_app_equals i "").
Qed.

Lemma retrieve_first i a r w mid r' x t b0 st : first_value i a r w mid r' ->
  retrieve ndebug i x t b0 a r st = (do _ <- store_value ndebug x t (dashed i) w; ret (b0 ++ mid, "" :: r')) st.
Proof.
  intros H. unfold retrieve. rewrite !prepend_dash_dashed. destruct H as [w r Hi Hw He|w r Hw|w r].
  - destruct w as [|e u]; [contradiction|]. replace (String.length (dashed i) <? String.length (dashed i +s+ String e u))%nat with true
      by (symmetry; apply Nat.ltb_lt; rewrite length_app_s; cbn; lia).
    assert (Hm : match snth (String.length (dashed i)) (dashed i +s+ String e u) with Some c => Ascii.eqb c "=" | None => false end = false)
      by (rewrite snth_app_len; cbn [begins] in He; rewrite Ascii.eqb_sym in He; exact He).
    rewrite Hm. now rewrite app_nil_r, sdrop_app.
  - destruct w as [|e u]; [contradiction|]. replace (String.length (dashed i) <? String.length (dashed i +s+ "=" +s+ String e u))%nat with true
      by (symmetry; apply Nat.ltb_lt; rewrite length_app_s; cbn; lia).
    assert (Hm : match snth (String.length (dashed i)) (dashed i +s+ "=" +s+ String e u) with Some c => Ascii.eqb c "=" | None => false end = true)
      by (rewrite snth_app_len; reflexivity).
    rewrite Hm. cbn [append].
    replace (String.length (dashed i +s+ String "=" (String e u)) =? String.length (dashed i) + 1)%nat with false
      by (symmetry; apply Nat.eqb_neq; rewrite length_app_s; cbn; lia).
    rewrite app_nil_r. replace (sdrop (String.length (dashed i) + 1) (dashed i +s+ String "=" (String e u))) with (String e u); [reflexivity|].
    change (dashed i +s+ String "=" (String e u)) with (dashed i +s+ "=" +s+ String e u). rewrite <- app_assoc_s.
    replace (String.length (dashed i) + 1) with (String.length (dashed i +s+ "=")) by (rewrite length_app_s; reflexivity). now rewrite sdrop_app.
  - rewrite Nat.ltb_irrefl. reflexivity.
Qed.
Lemma retrieve_valueless i a r x t b0 st : valueless i (a :: r) ->
  retrieve ndebug i x t b0 a r st = (st, Throw (Exn KTooFew ("Missing value for option " +s+ dashed i))).
Proof.
  intros [[= -> ->]|[r' [= -> ->]]]; unfold retrieve; rewrite !prepend_dash_dashed.
  - rewrite Nat.ltb_irrefl. reflexivity.
  - replace (String.length (dashed i) <? String.length (dashed i +s+ "="))%nat with true by (symmetry; apply Nat.ltb_lt; rewrite length_app_s; cbn; lia).
    assert (Hm : match snth (String.length (dashed i)) (dashed i +s+ "=") with Some c => Ascii.eqb c "=" | None => false end = true)
      by (rewrite snth_app_len; reflexivity).
    rewrite Hm. replace (String.length (dashed i +s+ "=") =? String.length (dashed i) + 1)%nat with true by (symmetry; apply Nat.eqb_eq; rewrite length_app_s; cbn; lia).
    reflexivity.
Qed.

Lemma first_det i a r w mid r' w2 mid2 r2 : first_value i a r w mid r' -> first_value i a r w2 mid2 r2 -> w2 = w /\ mid2 = mid /\ r2 = r'.
Proof.
  intros Hfv Hfv2. destruct Hfv as [w r Hi Hw He|w r Hw|w r]; inversion Hfv2; subst; auto.
  - match goal with K : dashed i +s+ _ = dashed i +s+ _ |- _ => apply app_inv_head_s in K; now subst end.
  - match goal with K : dashed i +s+ _ = dashed i +s+ _ |- _ => apply app_inv_head_s in K; subst w; discriminate end.
  - match goal with K : dashed i = dashed i +s+ _ |- _ => apply sapp_nil_inv in K; contradiction end.
  - match goal with K : dashed i +s+ _ = dashed i +s+ _ |- _ => apply app_inv_head_s in K; subst; discriminate end.
  - match goal with K : dashed i +s+ _ = dashed i +s+ _ |- _ => apply app_inv_head_s in K; injection K as ->; auto end.
  - match goal with K : dashed i = dashed i +s+ _ |- _ => apply sapp_nil_inv in K; discriminate end.
  - match goal with K : _ = dashed i |- _ => symmetry in K; apply sapp_nil_inv in K; contradiction end.
  - match goal with K : _ = dashed i |- _ => symmetry in K; apply sapp_nil_inv in K; discriminate end.
Qed.

Lemma first_until i a r w mid r' ws l' : first_value i a r w mid r' -> reads_until i r' ws l' -> reads_until i (a :: r) (w :: ws) l'.
Proof. intros H Hr. destruct H; [apply until_joined|apply until_equals|apply until_separate]; auto. Qed.
Lemma until_skip i b l ws l' : (forall y, In y b -> looks_like i y = false) -> reads_until i l ws l' -> reads_until i (b ++ l) ws l'.
Proof. intros Hb H. induction b as [|a b IH]; cbn [app]; [exact H|]. apply until_other; [apply Hb; now left|]. apply IH. intros y Hy. apply Hb. now right. Qed.

Lemma until_inv i a l ws l' : reads_until i (a :: l) ws l' ->
  (looks_like i a = false /\ reads_until i l ws l') \/
  (looks_like i a = true /\ ((ws = [] /\ l' = a :: l) \/ exists w mid r' ws', first_value i a l w mid r' /\ ws = w :: ws' /\ reads_until i r' ws' l')).
Proof.
  intros H. inversion H as [? ? Ha|? ? ? ? Ha Hr|w ? ws0 ? Hi Hw He Hr|w ? ws0 ? Hw Hr|w l0 ws0 ? Hr]; subst.
  - right. auto.
  - left. auto.
  - right. split; [destruct Hi as [c ->]; apply dashed_app_short|]. right. exists w, [], l, ws0. split; [now apply first_joined|auto].
  - right. split; [apply dashed_app_equals|]. right. exists w, [], l, ws0. split; [now apply first_equals|auto].
  - right. split; [apply dashed_like|]. right. exists w, [""], l0, ws0. split; [apply first_separate|auto].
Qed.
Lemma until_skip_inv i b l ws l' : (forall y, In y b -> looks_like i y = false) -> reads_until i (b ++ l) ws l' -> reads_until i l ws l'.
Proof.
  induction b as [|a b IH]; intros Hb H; [exact H|]. apply until_inv in H as [(_ & H)|(Ha & _)]; [apply IH; [|exact H]; intros y Hy; apply Hb; now right|].
  rewrite (Hb a) in Ha by now left. discriminate.
Qed.

(** where the next use is *)
Lemma until_find i l ws l' : is_empty_id i = false -> reads_until i l ws l' ->
  exists b a r, find_option_id i l = Some (b, a, r) /\ l = b ++ a :: r /\ looks_like i a = true /\ (forall y, In y b -> looks_like i y = false) /\
    ((ws = [] /\ l' = a :: r) \/ exists w mid r' ws', first_value i a r w mid r' /\ ws = w :: ws' /\ reads_until i r' ws' l').
Proof.
  intros Hi H. destruct (find_cases i l Hi) as [(E & Hr)|(b & a & r & E & -> & Ha & Hb)].
  - exfalso. clear E. induction H as [a l Ha|a l ws l' Ha H IH|w l ws l' Hc Hw He H IH|w l ws l' Hw H IH|w l ws l' H IH].
    + apply reads_first in Hr as (w & mid & r' & ws' & l'' & _ & E & _); [discriminate|exact Ha].
    + inversion Hr; subst. apply IH. assert (reads i l [] l) by (match goal with K : reads i l [] ?x |- _ => destruct (reads_nothing _ _ _ K) as [E _]; subst; exact K end). assumption.
    + apply reads_first in Hr as (w' & mid & r' & ws' & l'' & _ & E & _); [discriminate|destruct Hc as [c ->]; apply dashed_app_short].
    + apply reads_first in Hr as (w' & mid & r' & ws' & l'' & _ & E & _); [discriminate|apply dashed_app_equals].
    + apply reads_first in Hr as (w' & mid & r' & ws' & l'' & _ & E & _); [discriminate|apply dashed_like].
  - exists b, a, r. split; [exact E|]. split; [reflexivity|]. split; [exact Ha|]. split; [exact Hb|]. apply until_skip_inv in H; [|exact Hb].
    apply until_inv in H as [(Ha' & _)|(_ & H)]; [congruence|exact H].
Qed.

Lemma uses i n : forall l, List.length l <= n -> (exists ws l', reads i l ws l') \/ (exists ws l', reads_until i l ws l' /\ valueless i l').
Proof.
  induction n as [|n IH]; intros l Hl.
  - destruct l; [|cbn in Hl; lia]. left. exists [], []. constructor.
  - destruct l as [|a l]; [left; exists [], []; constructor|]. cbn in Hl. destruct (looks_like i a) eqn:Ha.
    + destruct (looks_cases i a l Ha) as [(w & mid & r' & Hf)|Hv].
      * pose proof (first_length _ _ _ _ _ _ Hf). destruct (IH r') as [(ws & l' & Hr)|(ws & l' & Hr & Hv)]; [lia| |].
        -- left. exists (w :: ws), (mid ++ "" :: l'). eapply first_reads; eauto.
        -- right. exists (w :: ws), l'. split; [eapply first_until; eauto|exact Hv].
      * right. exists [], (a :: l). split; [now constructor|exact Hv].
    + destruct (IH l) as [(ws & l' & Hr)|(ws & l' & Hr & Hv)]; [lia| |].
      * left. exists ws, (a :: l'). now apply reads_other.
      * right. exists ws, l'. split; [now apply until_other|exact Hv].
Qed.

(** a prefix of the texts *)
Lemma reads_prefix i l ws l' : reads i l ws l' -> forall ws1 w ws2, ws = ws1 ++ w :: ws2 -> exists l1, reads_until i l ws1 l1 /\ offers i l1 w.
Proof.
  induction 1 as [|a l ws l' Ha H IH|u l ws l' Hi Hw He H IH|u l ws l' Hw H IH|u l ws l' H IH]; intros ws1 w ws2 E.
  - destruct ws1; discriminate.
  - destruct (IH _ _ _ E) as (l1 & H1 & H2). exists l1. split; [now apply until_other|exact H2].
  - destruct ws1 as [|u' ws1]; injection E as <- E.
    + eexists. split; [apply until_here; destruct Hi as [c ->]; apply dashed_app_short|now apply offers_joined].
    + destruct (IH _ _ _ E) as (l1 & H1 & H2). exists l1. split; [now apply until_joined|exact H2].
  - destruct ws1 as [|u' ws1]; injection E as <- E.
    + eexists. split; [apply until_here; apply dashed_app_equals|now apply offers_equals].
    + destruct (IH _ _ _ E) as (l1 & H1 & H2). exists l1. split; [now apply until_equals|exact H2].
  - destruct ws1 as [|u' ws1]; injection E as <- E.
    + eexists. split; [apply until_here; apply dashed_like|apply offers_separate].
    + destruct (IH _ _ _ E) as (l1 & H1 & H2). exists l1. split; [now apply until_separate|exact H2].
Qed.
Lemma until_prefix i l ws l' : reads_until i l ws l' -> forall ws1 w ws2, ws = ws1 ++ w :: ws2 -> exists l1, reads_until i l ws1 l1 /\ offers i l1 w.
Proof.
  induction 1 as [a l Ha|a l ws l' Ha H IH|u l ws l' Hi Hw He H IH|u l ws l' Hw H IH|u l ws l' H IH]; intros ws1 w ws2 E.
  - destruct ws1; discriminate.
  - destruct (IH _ _ _ E) as (l1 & H1 & H2). exists l1. split; [now apply until_other|exact H2].
  - destruct ws1 as [|u' ws1]; injection E as <- E.
    + eexists. split; [apply until_here; destruct Hi as [c ->]; apply dashed_app_short|now apply offers_joined].
    + destruct (IH _ _ _ E) as (l1 & H1 & H2). exists l1. split; [now apply until_joined|exact H2].
  - destruct ws1 as [|u' ws1]; injection E as <- E.
    + eexists. split; [apply until_here; apply dashed_app_equals|now apply offers_equals].
    + destruct (IH _ _ _ E) as (l1 & H1 & H2). exists l1. split; [now apply until_equals|exact H2].
  - destruct ws1 as [|u' ws1]; injection E as <- E.
    + eexists. split; [apply until_here; apply dashed_like|apply offers_separate].
    + destruct (IH _ _ _ E) as (l1 & H1 & H2). exists l1. split; [now apply until_separate|exact H2].
Qed.

Lemma until_length i l ws l' : reads_until i l ws l' -> List.length ws < List.length l.
Proof. induction 1; cbn [List.length]; lia. Qed.

(** the loop over the uses, up to one of them *)
Lemma get_all_until i x t ws : is_empty_id i = false -> forall fuel done rest a r st, reads_until i rest ws (a :: r) -> List.length ws < fuel ->
  exists fuel' done', get_all ndebug fuel i x t done rest st =
    (do _ <- mapM_ (store_value ndebug x t (dashed i)) ws; do p <- retrieve ndebug i x t done' a r; get_all ndebug fuel' i x t (fst p) (snd p)) st.
Proof.
  intros Hi. induction ws as [|w ws IH]; intros fuel done rest a r st Hr Hf; (destruct fuel as [|fuel]; [lia|]);
    destruct (until_find i rest _ _ Hi Hr) as (b & a' & r' & E & -> & Ha & Hb & [(E1 & E2)|(w' & mid & r2 & ws' & Hfv & E1 & Hr')]); try discriminate.
  - injection E2 as <- <-. exists fuel, (done ++ b). cbn [get_all]. rewrite E. reflexivity.
  - injection E1 as <- <-. cbn [get_all mapM_]. rewrite E.
    destruct (store_value ndebug x t (dashed i) w st) as [s1 q] eqn:Es.
    destruct (IH fuel (done ++ b ++ mid) ("" :: r2) a r s1) as (fuel' & done' & Eg); [apply until_other; [apply empty_unlike|exact Hr']|cbn in Hf; lia|].
    exists fuel', done'. unfold bind. rewrite (retrieve_first _ _ _ _ _ _ _ _ _ _ Hfv). unfold bind. rewrite Es.
    destruct q as [[]|?|?| | |]; try reflexivity. cbn [ret fst snd]. rewrite <- app_assoc. rewrite Eg. reflexivity.
Qed.

(** ** One identifier *)

Lemma by_id_throw i x t st st' ex : enum_ok (elem_ty t) -> get_by_id ndebug i x t st = (st', Throw ex) ->
  is_empty_id i = false /\ exists v l, name_fails ndebug i (pre st) (vars st x) t (ekind ex) v /\ same_but x v l st st'.
Proof.
  intros Hok H. destruct (is_empty_id i) eqn:Hi; [rewrite by_id_nameless in H by exact Hi; discriminate|]. split; [reflexivity|].
  unfold get_by_id in H. destruct t as [e|e]; cbn [is_container elem_ty] in *.
  - unfold get_by_id_scalar in H. destruct (find_cases i (pre st) Hi) as [(E & _)|(b & a & r & E & El & Ha & Hb)]; rewrite E in H; [discriminate|].
    assert (Hu : reads_until i (pre st) [] (a :: r)) by (rewrite El; apply until_skip; [exact Hb|now constructor]).
    destruct (looks_cases i a r Ha) as [(w & mid & r' & Hf)|Hv].
    + unfold bind at 1 in H. rewrite (retrieve_first _ _ _ _ _ _ _ _ _ _ Hf) in H. unfold bind at 1 in H.
      destruct (store_value ndebug x (Scalar e) (dashed i) w st) as [s1 q] eqn:Es. destruct q as [[]|ex'|?| | |]; try discriminate.
      * cbn [ret fst snd] in H. unfold bind in H. cbn [modify] in H. apply store_scalar_ret in Es as (v & Hm & Hs); [|exact Hok].
        destruct (find_cases i ("" :: r') Hi) as [(E2 & _)|(b2 & a2 & r2 & E2 & El2 & Ha2 & Hb2)]; rewrite E2 in H; [discriminate|].
        injection H as <- <-. exists v. eexists. split.
        -- cbn [ekind]. eapply scalar_twice; [|exact Hm]. rewrite El. apply until_skip; [exact Hb|]. eapply first_until; [exact Hf|].
           assert (K : reads_until i ("" :: r') [] (a2 :: r2)) by (rewrite El2; apply until_skip; [exact Hb2|now constructor]).
           apply until_inv in K as [(_ & K)|(K & _)]; [exact K|]. rewrite empty_unlike in K. discriminate.
        -- eapply same_but_pre. exact Hs.
      * injection H as <- <-. apply store_scalar_throw in Es as (Ek & v & Hr & Hs); [|exact Hok]. exists v, (pre st). split; [|exact Hs].
        rewrite Ek. eapply scalar_refused; [exact Hu|eapply first_offers; exact Hf|exact Hr].
    + unfold bind at 1 in H. rewrite (retrieve_valueless _ _ _ _ _ _ _ Hv) in H. injection H as <- <-. exists (vars st x), (pre st). split.
      * eapply scalar_missing; eauto.
      * repeat split; auto.
  - unfold get_by_id_list in H. destruct (find_option_id i (pre st)) as [p|] eqn:E; [|discriminate].
    unfold bind at 1 in H. cbn [modify] in H. set (s0 := set_vars (set_var (vars st) x (VList [])) st) in *.
    assert (H0 : vars s0 x = VList []) by (cbn; unfold set_var; now rewrite Nat.eqb_refl).
    assert (Back : forall v l s', same_but x v l s0 s' -> same_but x v l st s').
    { intros v l s' (A & B & C & D & F). repeat split; auto; [apply F|]. intros y Hy. rewrite (proj2 F y Hy). cbn. now apply becomes_set. }
    destruct (uses i _ (pre st) (le_n _)) as [(ws & l' & Hr)|(ws & l' & Hr & Hv)].
    + unfold bind at 1 in H. rewrite (get_all_reads ndebug i x (ListOf e) ws Hi _ _ _ l') in H; [|exact Hr|apply reads_length in Hr; lia].
      unfold bind in H. destruct (mapM_ (store_value ndebug x (ListOf e) (dashed i)) ws s0) as [s1 q] eqn:Em. destruct q as [[]|ex'|?| | |]; try discriminate.
      injection H as <- <-. apply mapM_throw in Em as (ws1 & w & ws2 & s2 & -> & Em & Es).
      apply (store_list_ret ndebug x e _ ws1 Hok _ _ []) in Em as (vals & He & Hs); [|exact H0]. cbn [app] in Hs.
      pose proof (proj1 (proj2 (proj2 (proj2 (proj2 Hs))))) as Hx. apply (store_list_throw _ _ _ _ vals) in Es as (Ek & Hu & Hs2); [|exact Hok|exact Hx].
      destruct (reads_prefix _ _ _ _ Hr _ _ _ eq_refl) as (l1 & H1 & H2). exists (VList vals), (pre s2). split.
      * rewrite Ek. eapply list_refused; eauto.
      * apply Back. destruct Hs as (A1 & A2 & A3 & A4 & A5), Hs2 as (B1 & B2 & B3 & B4 & B5). repeat split; try congruence; [apply B5|].
        intros y Hy. rewrite (proj2 B5 y Hy). now apply A5.
    + destruct (valueless_like _ _ Hv) as (a & r & -> & Ha). pose proof (until_length _ _ _ _ Hr) as Hlen.
      destruct (get_all_until i x (ListOf e) ws Hi (S (List.length (pre st))) [] (pre st) a r s0 Hr) as (fuel' & done' & Eg); [lia|].
      unfold bind at 1 in H. rewrite Eg in H. unfold bind at 1 in H.
      destruct (mapM_ (store_value ndebug x (ListOf e) (dashed i)) ws s0) as [s1 q] eqn:Em. destruct q as [[]|ex'|?| | |]; try discriminate.
      * unfold bind in H. rewrite (retrieve_valueless _ _ _ _ _ _ _ Hv) in H. injection H as <- <-.
        apply (store_list_ret ndebug x e _ ws Hok _ _ []) in Em as (vals & He & Hs); [|exact H0]. cbn [app] in Hs.
        exists (VList vals). eexists. split; [|apply Back; exact Hs]. cbn [ekind]. eapply list_missing; eauto.
      * injection H as <- <-. apply mapM_throw in Em as (ws1 & w & ws2 & s2 & -> & Em & Es).
        apply (store_list_ret ndebug x e _ ws1 Hok _ _ []) in Em as (vals & He & Hs); [|exact H0]. cbn [app] in Hs.
        pose proof (proj1 (proj2 (proj2 (proj2 (proj2 Hs))))) as Hx. apply (store_list_throw _ _ _ _ vals) in Es as (Ek & Hu & Hs2); [|exact Hok|exact Hx].
        destruct (until_prefix _ _ _ _ Hr _ _ _ eq_refl) as (l1 & H1 & H2). exists (VList vals), (pre s2). split.
        -- rewrite Ek. eapply list_refused; eauto.
        -- apply Back. destruct Hs as (A1 & A2 & A3 & A4 & A5), Hs2 as (B1 & B2 & B3 & B4 & B5). repeat split; try congruence; [apply B5|].
           intros y Hy. rewrite (proj2 B5 y Hy). now apply A5.
Qed.

Lemma by_id_fails i x t k v st : enum_ok (elem_ty t) -> is_empty_id i = false -> name_fails ndebug i (pre st) (vars st x) t k v ->
  exists st' ex l, get_by_id ndebug i x t st = (st', Throw ex) /\ ekind ex = k /\ same_but x v l st st'.
Proof.
  intros Hok Hi H. unfold get_by_id. inversion H as [e l' Hu Hv|e l' w new Hu Ho Hr|e l' w new Hu Hm|e ws l' vals Hu Hv He|e ws l' w vals Hu Ho He Hr]; subst; cbn [is_container elem_ty] in *.
  - destruct (until_find _ _ _ _ Hi Hu) as (b & a & r & E & _ & Ha & _ & [(_ & ->)|(w & mid & r' & ws' & _ & F & _)]); [|discriminate].
    unfold get_by_id_scalar. rewrite E. unfold bind at 1. rewrite (retrieve_valueless _ _ _ _ _ _ _ Hv). do 3 eexists. split; [reflexivity|]. split; [reflexivity|]. repeat split; auto.
  - destruct (until_find _ _ _ _ Hi Hu) as (b & a & r & E & _ & Ha & _ & [(_ & ->)|(w' & mid & r' & ws' & _ & F & _)]); [|discriminate].
    destruct (offers_first _ _ _ Ho) as (a2 & r2 & mid & r' & [= <- <-] & Hf). unfold get_by_id_scalar. rewrite E. unfold bind at 1. rewrite (retrieve_first _ _ _ _ _ _ _ _ _ _ Hf).
    destruct (store_scalar_ruined x e (dashed i) w st v Hok Hr) as (s1 & ex & Es & Ek & Hs). unfold bind at 1. rewrite Es. exists s1, ex, (pre st). auto.
  - destruct (until_find _ _ _ _ Hi Hu) as (b & a & r & E & _ & Ha & _ & [(F & _)|(w' & mid & r' & ws' & Hf & F & Hu')]); [discriminate|]. injection F as <- <-.
    destruct (until_find _ ("" :: r') [] l' Hi) as (b2 & a2 & r2 & E2 & _); [apply until_other; [apply empty_unlike|exact Hu']|].
    destruct (store_scalar_means ndebug x e (dashed i) w st v Hok Hm) as (s1 & Es & Hs). unfold get_by_id_scalar. rewrite E. unfold bind at 1. rewrite (retrieve_first _ _ _ _ _ _ _ _ _ _ Hf).
    unfold bind at 1. rewrite Es. cbn [ret fst snd]. unfold bind. cbn [modify]. rewrite E2. do 3 eexists. split; [reflexivity|]. split; [reflexivity|]. eapply same_but_pre. exact Hs.
  - destruct (until_find _ _ _ _ Hi Hu) as (b & a & r & E & _). unfold get_by_id_list. rewrite E. unfold bind at 1. cbn [modify].
    set (s0 := set_vars (set_var (vars st) x (VList [])) st). destruct (valueless_like _ _ Hv) as (a' & r' & -> & _). pose proof (until_length _ _ _ _ Hu) as Hlen.
    destruct (get_all_until i x (ListOf e) ws Hi (S (List.length (pre st))) [] (pre st) a' r' s0 Hu) as (fuel' & done' & Eg); [lia|].
    destruct (store_list_elements ndebug x e (dashed i) ws vals Hok He s0 []) as (s1 & Em & Hs); [apply becomes_set|].
    unfold bind at 1. rewrite Eg. unfold bind at 1. rewrite Em. unfold bind. rewrite (retrieve_valueless _ _ _ _ _ _ _ Hv). do 3 eexists. split; [reflexivity|]. split; [reflexivity|].
    destruct Hs as (A & B & C & D & F). repeat split; eauto; [apply F|]. intros y Hy. rewrite (proj2 F y Hy). cbn. now apply becomes_set.
  - destruct (until_find _ _ _ _ Hi Hu) as (b & a & r & E & _). unfold get_by_id_list. rewrite E. unfold bind at 1. cbn [modify].
    set (s0 := set_vars (set_var (vars st) x (VList [])) st). destruct (offers_first _ _ _ Ho) as (a' & r' & mid & r2 & -> & Hf). pose proof (until_length _ _ _ _ Hu) as Hlen.
    destruct (get_all_until i x (ListOf e) ws Hi (S (List.length (pre st))) [] (pre st) a' r' s0 Hu) as (fuel' & done' & Eg); [lia|].
    destruct (store_list_elements ndebug x e (dashed i) ws vals Hok He s0 []) as (s1 & Em & Hs); [apply becomes_set|]. cbn [app] in Hs.
    destruct (store_list_unreadable x e (dashed i) w vals s1 Hok (proj1 (proj2 (proj2 (proj2 (proj2 Hs))))) Hr) as (s2 & ex & Es & Ek & Hs2).
    unfold bind at 1. rewrite Eg. unfold bind at 1. rewrite Em. unfold bind. rewrite (retrieve_first _ _ _ _ _ _ _ _ _ _ Hf). unfold bind. rewrite Es.
    exists s2, ex, (pre s2). split; [reflexivity|]. split; [exact Ek|].
    destruct Hs as (A1 & A2 & A3 & A4 & A5), Hs2 as (B1 & B2 & B3 & B4 & B5). repeat split; try congruence; [transitivity (post s1); auto|transitivity (count s1); auto|transitivity (fsys s1); auto|apply B5|].
    intros y Hy. rewrite (proj2 B5 y Hy), (proj2 A5 y Hy). cbn. now apply becomes_set.
Qed.
End failing.
