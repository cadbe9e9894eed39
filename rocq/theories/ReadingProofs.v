(** The scanner reads argument vectors as specified. *)
From Verif Require Import Base StrLib Fs Values Validators FormatParse Invocation InvocationProofs InvocationEffects ValuesSpec ValuesProofs
  ScanSpec ScanProofs ScanFlags ScanOutcomes DiagnosisSpec DiagnosisOptions DiagnosisProofs ReadingSpec.

(** ** Numbers outside the range *)

Lemma read_digits_app p : forall s acc, sall is_digit p = true ->
  read_digits (p +s+ s) acc = read_digits s (acc * 10 ^ Z.of_nat (String.length p) + weight p)%Z.
Proof.
  induction p as [|c p IH]; intros s acc H; cbn [append sall weight String.length] in *.
  - f_equal. cbn. lia.
  - apply andb_true_iff in H as [Hc H]. cbn [read_digits]. rewrite Hc, IH by exact H. f_equal. rewrite Nat2Z.inj_succ, Z.pow_succ_r by lia. ring.
Qed.

Lemma read_digits_grows s : forall acc n rest, (0 <= acc)%Z -> read_digits s acc = (n, rest) -> (acc <= n)%Z.
Proof.
  intros acc n rest Ha H. apply read_digits_split in H as (p & -> & Hp & _ & ->). pose proof (weight_nonneg p Hp).
  assert (1 <= 10 ^ Z.of_nat (String.length p))%Z by (apply (Z.pow_le_mono_r 10 0); lia). nia.
Qed.

Lemma starts_digit_app p s : digits p -> starts_digit (p +s+ s) = true.
Proof. intros [Hn Hp]. destruct p as [|c p]; [contradiction|]. cbn in *. now apply andb_true_iff in Hp as [Hp _]. Qed.

Lemma from_chars_too_large sg bits p q z : numeral sg p z -> ~ in_type sg bits z -> from_chars_int sg bits (p +s+ q) = FcRange.
Proof.
  intros Hn Ho. unfold from_chars_int.
  assert (Key : forall neg d, digits d -> (neg = true -> sg = true) -> z = (if neg then - weight d else weight d)%Z ->
    (if starts_digit (d +s+ q) then
       let '(n, rest) := read_digits (d +s+ q) 0 in
       let z := if neg then (- n)%Z else n in
       if ((int_min sg bits <=? z) && (z <=? int_max sg bits))%Z then FcOk (VInt z) rest else FcRange
     else FcInvalid) = FcRange).
  { intros neg d Hd Hneg Hz. rewrite starts_digit_app by exact Hd. destruct (read_digits (d +s+ q) 0) as [n rest] eqn:Er.
    rewrite read_digits_app in Er by apply Hd. cbn [Z.mul Z.add] in Er. pose proof (weight_nonneg d (proj2 Hd)) as Hw.
    pose proof (read_digits_grows _ _ _ _ Hw Er) as Hg. cbn zeta.
    destruct ((int_min sg bits <=? (if neg then - n else n)) && ((if neg then - n else n) <=? int_max sg bits))%Z eqn:Ein; [|reflexivity]. exfalso.
    apply in_type_bool in Ein. apply Ho. subst z. unfold in_type in *. destruct sg.
    - assert (0 <= 2 ^ (Z.of_N bits - 1))%Z by (apply Z.pow_nonneg; lia). destruct neg; lia.
    - destruct neg; [discriminate Hneg; reflexivity|]. lia. }
  destruct Hn as [d Hd|d Hsg Hd].
  - destruct (d +s+ q) as [|c s] eqn:E.
    + destruct Hd as [Hd _]. destruct d; [contradiction|discriminate].
    + assert (Hc : (sg && Ascii.eqb c "-") = false).
      { destruct Hd as [Hd Hs]. destruct d as [|c' d]; [contradiction|]. cbn in E, Hs. injection E as -> _. apply andb_true_iff in Hs as [Hs _].
        destruct (Ascii.eqb_spec c "-") as [->|_]; [discriminate|apply andb_false_r]. }
      rewrite Hc, <- E. apply (Key false d Hd); [discriminate|reflexivity].
  - subst sg. cbn [append]. rewrite Ascii.eqb_refl. cbn [andb]. apply (Key true d Hd); reflexivity.
Qed.

Lemma too_large_overflow e old w : too_large e w -> parse_elem e old w = POk old POverflow.
Proof.
  destruct e as [sg bits| | | | |n names|n mn mx rd|n rd pr]; cbn [too_large parse_elem]; try easy.
  - intros (p & q & z & -> & Hn & Ho). now rewrite (from_chars_too_large _ _ _ _ _ Hn Ho).
  - intros (p & q & z & -> & Hn & Ho). now rewrite (from_chars_too_large _ _ _ _ _ Hn Ho).
  - now intros ->.
Qed.

(** ** Storing values *)

Section reading.
Variable ndebug : bool.

Definition same_but (x : addr) (v : val) (l : list string) (st st' : pst) : Prop :=
  pre st' = l /\ post st' = post st /\ count st' = count st /\ fsys st' = fsys st /\ becomes x v (vars st) (vars st').

Lemma becomes_set x v vs : becomes x v vs (set_var vs x v).
Proof. split; [unfold set_var; now rewrite Nat.eqb_refl|]. intros y Hy. unfold set_var. destruct (Nat.eqb_spec x y); [congruence|reflexivity]. Qed.
Lemma becomes_self x vs : becomes x (vs x) vs vs.
Proof. now split. Qed.
Lemma becomes_trans x v w a b c : becomes x v a b -> becomes x w b c -> becomes x w a c.
Proof. intros [_ H1] [H2 H3]. split; [exact H2|]. intros y Hy. rewrite H3, H1; auto. Qed.

Lemma store_scalar_ret x e name w st st' : enum_ok e -> store_value ndebug x (Scalar e) name w st = (st', Ret tt) ->
  exists v, means e (vars st x) w v /\ same_but x v (pre st) st st'.
Proof.
  intros Hok. unfold store_value. cbn [parse_option_value]. destruct (parse_elem e (vars st x) w) as [v [| |]|ex] eqn:E; cbn [throw_on_input_error]; try discriminate.
  - intros [= <-]. exists v. split; [now apply parse_elem_means|]. repeat split; cbn; apply becomes_set || (intros; now apply becomes_set).
  - apply elem_overflow in E as [Hn _]. cbn [is_arithmetic]. destruct e; try discriminate.
Qed.
Lemma store_scalar_means x e name w st v : enum_ok e -> means e (vars st x) w v ->
  exists st', store_value ndebug x (Scalar e) name w st = (st', Ret tt) /\ same_but x v (pre st) st st'.
Proof.
  intros Hok Hm. apply parse_elem_means in Hm; [|exact Hok]. unfold store_value. cbn [parse_option_value]. rewrite Hm. cbn [throw_on_input_error].
  eexists. split; [reflexivity|]. repeat split; cbn; apply becomes_set || (intros; now apply becomes_set).
Qed.

Lemma store_list_ret x e name ws : enum_ok e -> forall st st' l, vars st x = VList l -> mapM_ (store_value ndebug x (ListOf e) name) ws st = (st', Ret tt) ->
  exists vals, elements ndebug e ws vals /\ same_but x (VList (l ++ vals)) (pre st) st st'.
Proof.
  intros Hok. induction ws as [|w ws IH]; intros st st' l Hl H; cbn [mapM_] in H.
  - injection H as <-. exists []. rewrite app_nil_r. split; [constructor|]. repeat split; auto.
  - apply bind_inv_p in H as (s1 & [] & H1 & H). unfold store_value in H1. cbn [parse_option_value] in H1. rewrite Hl in H1. cbn [elems] in H1.
    destruct (parse_elem e (default_val e) w) as [v [| |]|ex] eqn:E; cbn [throw_on_input_error is_arithmetic] in H1; try discriminate.
    + injection H1 as <-. apply (IH _ _ (l ++ [v])) in H as (vals & He & H1 & H2 & H3 & H4 & H5); [|apply becomes_set].
      exists (v :: vals). split; [apply elements_value; [now apply parse_elem_means|exact He]|]. cbn [pre post count fsys vars set_vars] in *.
      rewrite <- app_assoc in H5. repeat split; auto; [apply H5|]. intros y Hy. rewrite (proj2 H5 y Hy). now apply becomes_set.
    + destruct ndebug eqn:En; [|discriminate]. injection H1 as <-. apply (IH _ _ l) in H as (vals & He & H1 & H2 & H3 & H4 & H5); [|apply becomes_set].
      exists vals. split; [apply elements_skipped; [reflexivity|now apply elem_overflow in E|exact He]|]. cbn [pre post count fsys vars set_vars] in *.
      repeat split; auto; [apply H5|]. intros y Hy. rewrite (proj2 H5 y Hy). now apply becomes_set.
Qed.
Lemma store_list_elements x e name ws vals : enum_ok e -> elements ndebug e ws vals -> forall st l, vars st x = VList l ->
  exists st', mapM_ (store_value ndebug x (ListOf e) name) ws st = (st', Ret tt) /\ same_but x (VList (l ++ vals)) (pre st) st st'.
Proof.
  intros Hok. induction 1 as [|w v ws vals Hm He IH|w ws vals Hn Ht He IH]; intros st l Hl; cbn [mapM_].
  - exists st. split; [reflexivity|]. rewrite app_nil_r. repeat split; auto.
  - unfold bind at 1. unfold store_value at 1. cbn [parse_option_value]. rewrite Hl. cbn [elems]. apply parse_elem_means in Hm; [|exact Hok]. rewrite Hm. cbn [throw_on_input_error].
    destruct (IH (set_vars (set_var (vars st) x (VList (l ++ [v]))) st) (l ++ [v])) as (st' & E & H1 & H2 & H3 & H4 & H5); [apply becomes_set|].
    exists st'. split; [exact E|]. cbn [pre post count fsys vars set_vars] in *. rewrite <- app_assoc in H5. repeat split; auto; [apply H5|].
    intros y Hy. rewrite (proj2 H5 y Hy). now apply becomes_set.
  - unfold bind at 1. unfold store_value at 1. cbn [parse_option_value]. rewrite (too_large_overflow e _ _ Ht). cbn [throw_on_input_error is_arithmetic].
    replace (if ndebug then Ret tt else AssertFail) with (@Ret unit tt) by (now rewrite Hn).
    destruct (IH (set_vars (set_var (vars st) x (vars st x)) st) l) as (st' & E & H1 & H2 & H3 & H4 & H5); [cbn; unfold set_var; now rewrite Nat.eqb_refl|].
    exists st'. split; [exact E|]. cbn [pre post count fsys vars set_vars] in *. repeat split; auto; [apply H5|].
    intros y Hy. rewrite (proj2 H5 y Hy). now apply becomes_set.
Qed.

(** ** Reading one identifier *)

Lemma empty_unlike i : looks_like i "" = false.
Proof. apply looks_like_empty. Qed.

Inductive first_value (i : ident) : string -> list string -> string -> list string -> list string -> Prop :=
| first_joined w r : (exists c, i = IdShort c) -> w <> "" -> begins "=" w = false -> first_value i (dashed i +s+ w) r w [] r
| first_equals w r : w <> "" -> first_value i (dashed i +s+ "=" +s+ w) r w [] r
| first_separate w r : first_value i (dashed i) (w :: r) w [""] r.

Lemma first_reads i a r w mid r' ws l' : first_value i a r w mid r' -> reads i r' ws l' -> reads i (a :: r) (w :: ws) (mid ++ "" :: l').
Proof. intros H Hr. destruct H; cbn [app]; [apply reads_joined|apply reads_equals|apply reads_separate]; auto. Qed.

Lemma dashed_like i : looks_like i (dashed i) = true.
Proof. destruct i as [c|s]; cbn [looks_like]; [apply prefix_iff; exists ""; now rewrite app_nil_r_s|now rewrite String.eqb_refl]. Qed.
Lemma dashed_app_short c w : looks_like (IdShort c) (dashed (IdShort c) +s+ w) = true.
Proof. apply prefix_iff. now exists w. Qed.
Lemma dashed_app_equals i w : looks_like i (dashed i +s+ "=" +s+ w) = true.
Proof.
  destruct i as [c|s]; [apply dashed_app_short|]. cbn [looks_like]. apply orb_true_iff. right. apply prefix_iff. exists w. now rewrite app_assoc_s.
Qed.

Lemma reads_first i a r ws l' : looks_like i a = true -> reads i (a :: r) ws l' ->
  exists w mid r' ws' l'', first_value i a r w mid r' /\ ws = w :: ws' /\ l' = mid ++ "" :: l'' /\ reads i r' ws' l''.
Proof.
  intros Ha H. inversion H as [|? ? ? ? Hl|w l ws0 l0 Hi Hw Hb Hr|w l ws0 l0 Hw Hr|w l ws0 l0 Hr]; subst; [congruence| | |].
  - exists w, [], r, ws0, l0. split; [now apply first_joined|auto].
  - exists w, [], r, ws0, l0. split; [now apply first_equals|auto].
  - exists w, [""], l, ws0, l0. split; [apply first_separate|auto].
Qed.

Lemma first_length i a r w mid r' : first_value i a r w mid r' -> List.length r' <= List.length r.
Proof. destruct 1; cbn; lia. Qed.

Lemma sapp_nil_inv p s : p = p +s+ s -> s = "".
Proof. intros H. assert (E : p +s+ "" = p +s+ s) by (rewrite app_nil_r_s; exact H). apply app_inv_head_s in E. now symmetry. Qed.

Lemma retrieve_cases i a r : looks_like i a = true ->
  (exists w mid r', first_value i a r w mid r' /\
     forall x t b0 st, retrieve ndebug i x t b0 a r st = (do _ <- store_value ndebug x t (dashed i) w; ret (b0 ++ mid, "" :: r')) st) \/
  ((forall x t b0 st, retrieve ndebug i x t b0 a r st = (st, Throw (Exn KTooFew ("Missing value for option " +s+ dashed i)))) /\
   forall ws l', ~ reads i (a :: r) ws l').
Proof.
  intros Ha. destruct (looks_like_prefix _ _ Ha) as (u & -> & Hu).
  destruct u as [|e u].
  - rewrite app_nil_r_s in *. destruct r as [|v r].
    + right. split; [intros; unfold retrieve; rewrite !prepend_dash_dashed, Nat.ltb_irrefl; reflexivity|]. intros ws l' H. inversion H as [|? ? ? ? Hl|w l ws0 l0 Hi Hw Hb Hr E|w l ws0 l0 Hw Hr E|]; subst.
      * congruence.
      * symmetry in E. now apply sapp_nil_inv in E.
      * symmetry in E. now apply sapp_nil_inv in E.
    + left. exists v, [""], r. split; [apply first_separate|]. intros; unfold retrieve; rewrite !prepend_dash_dashed, Nat.ltb_irrefl; reflexivity.
  - assert (Hlt : (String.length (dashed i) <? String.length (dashed i +s+ String e u))%nat = true).
    { apply Nat.ltb_lt. rewrite length_app_s. cbn. lia. }
    assert (Hm : match snth (String.length (dashed i)) (dashed i +s+ String e u) with Some c => Ascii.eqb c "=" | None => false end = Ascii.eqb e "=")
      by (rewrite snth_app_len; reflexivity).
    destruct (Ascii.eqb_spec e "=") as [->|He].
    + destruct u as [|e' u].
      * right. assert (El : (String.length (dashed i +s+ "=") =? String.length (dashed i) + 1)%nat = true) by (apply Nat.eqb_eq; rewrite length_app_s; cbn; lia).
        split; [intros; unfold retrieve; rewrite !prepend_dash_dashed, Hlt, Hm, El; reflexivity|].
        intros ws l' H. inversion H as [|? ? ? ? Hl|w l ws0 l0 Hi Hw Hb Hr E|w l ws0 l0 Hw Hr E|w l ws0 l0 Hr E]; subst.
        -- congruence.
        -- apply app_inv_head_s in E. subst w. discriminate.
        -- apply app_inv_head_s in E. injection E as E. now subst w.
        -- apply sapp_nil_inv in E. discriminate.
      * left. exists (String e' u), [], r. split; [apply (first_equals i (String e' u)); discriminate|]. intros x t b0 st. unfold retrieve. rewrite !prepend_dash_dashed, Hlt, Hm, app_nil_r.
        assert (El : (String.length (dashed i +s+ String "=" (String e' u)) =? String.length (dashed i) + 1)%nat = false) by (apply Nat.eqb_neq; rewrite length_app_s; cbn; lia).
        rewrite El. replace (sdrop (String.length (dashed i) + 1) (dashed i +s+ String "=" (String e' u))) with (String e' u); [reflexivity|].
        change (dashed i +s+ String "=" (String e' u)) with (dashed i +s+ "=" +s+ String e' u). rewrite <- app_assoc_s.
        replace (String.length (dashed i) + 1) with (String.length (dashed i +s+ "=")) by (rewrite length_app_s; reflexivity). now rewrite sdrop_app.
    + left. exists (String e u), [], r. destruct Hu as [Hu|[Hu|Hu]]; [discriminate| |].
      * cbn in Hu. apply Ascii.eqb_eq in Hu. congruence.
      * split; [apply first_joined; [exact Hu|discriminate|cbn; destruct (Ascii.eqb_spec "=" e); [congruence|reflexivity]]|].
        intros x t b0 st. unfold retrieve. rewrite !prepend_dash_dashed, Hlt, Hm. now rewrite app_nil_r, sdrop_app.
Qed.

Lemma find_cases i l : is_empty_id i = false ->
  (find_option_id i l = None /\ reads i l [] l) \/
  (exists b a r, find_option_id i l = Some (b, a, r) /\ l = b ++ a :: r /\ looks_like i a = true /\ (forall y, In y b -> looks_like i y = false)).
Proof.
  intros Hi. unfold find_option_id. rewrite Hi. destruct (split_first (arg_matches i) l) as [[[b a] r]|] eqn:E.
  - right. exists b, a, r. apply split_first_some in E as (El & Ea & Hb). rewrite arg_matches_looks_like in Ea. repeat split; auto.
    intros y Hy. rewrite forallb_forall in Hb. specialize (Hb y Hy). apply negb_true_iff in Hb. now rewrite arg_matches_looks_like in Hb.
  - left. split; [reflexivity|]. pose proof (split_first_none_inv _ _ E) as N. clear E. induction l as [|a l IH]; [constructor|].
    apply reads_other; [rewrite <- arg_matches_looks_like; apply N; now left|]. apply IH. intros y Hy. apply N. now right.
Qed.

Lemma reads_skip i b l ws l' : (forall y, In y b -> looks_like i y = false) -> reads i l ws l' -> reads i (b ++ l) ws (b ++ l').
Proof. intros Hb H. induction b as [|a b IH]; cbn [app]; [exact H|]. apply reads_other; [apply Hb; now left|]. apply IH. intros y Hy. apply Hb. now right. Qed.
Lemma reads_skip_inv i b l ws l' : (forall y, In y b -> looks_like i y = false) -> reads i (b ++ l) ws l' -> exists l1, l' = b ++ l1 /\ reads i l ws l1.
Proof.
  revert l'; induction b as [|a b IH]; intros l' Hb H; cbn [app] in *; [eauto|].
  assert (Ha : looks_like i a = false) by (apply Hb; now left).
  inversion H as [|? ? ? l0 Hl Hr|w ? ? ? Hi Hw He Hr|w ? ? ? Hw Hr|w ? ? ? Hr]; subst.
  - apply IH in Hr as (l1 & -> & Hr); [|intros y Hy; apply Hb; now right]. eauto.
  - destruct Hi as [c ->]. now rewrite dashed_app_short in Ha.
  - pose proof (eq_trans (eq_sym (dashed_app_equals i w)) Ha). discriminate.
  - now rewrite dashed_like in Ha.
Qed.

(** ** All values of an identifier *)

Lemma get_all_reads i x t ws : is_empty_id i = false -> forall fuel done rest l' st, reads i rest ws l' -> List.length ws < fuel ->
  get_all ndebug fuel i x t done rest st = (do _ <- mapM_ (store_value ndebug x t (dashed i)) ws; modify (set_pre (done ++ l'))) st.
Proof.
  intros Hi. induction ws as [|w ws IH]; intros fuel done rest l' st Hr Hf.
  - destruct (find_cases i rest Hi) as [(E & _)|(b & a & r & E & El & Ha & Hb)].
    + assert (rest = l').
      { clear -Hr. remember [] as ws eqn:Ew. induction Hr; try discriminate; [reflexivity|]. now rewrite IHHr. }
      subst l'. destruct fuel; cbn [get_all]; rewrite E; reflexivity.
    + subst rest. apply reads_skip_inv in Hr as (l1 & -> & Hr); [|exact Hb]. apply reads_first in Hr as (w & mid & r' & ws' & l'' & _ & E' & _); [discriminate|exact Ha].
  - destruct (find_cases i rest Hi) as [(_ & E)|(b & a & r & E & El & Ha & Hb)].
    { exfalso. assert (K : forall l l1 l2 u us, reads i l [] l1 -> reads i l (u :: us) l2 -> False).
      { clear. intros l l1 l2 u us H. revert l2. remember [] as ws eqn:Ew. induction H as [|a l ws l' Ha H IH|w l ws l' Hi Hw He H IH|w l ws l' Hw H IH|w l ws l' H IH]; intros l2 G; try discriminate.
        - inversion G.
        - inversion G; subst; [eapply IH; eauto|..].
          + match goal with K : exists c, _ |- _ => destruct K as [c ->] end. now rewrite dashed_app_short in Ha.
          + match goal with K : ?w <> "" |- _ => pose proof (eq_trans (eq_sym (dashed_app_equals i w)) Ha) end. discriminate.
          + now rewrite dashed_like in Ha. }
      eapply K; eauto. }
    subst rest. apply reads_skip_inv in Hr as (l1 & -> & Hr); [|exact Hb]. apply reads_first in Hr as (w' & mid & r' & ws' & l'' & Hfv & E' & -> & Hr); [|exact Ha].
    injection E' as <- <-. destruct fuel as [|fuel]; [lia|]. cbn [get_all]. rewrite E.
    destruct (retrieve_cases i a r Ha) as [(w2 & mid2 & r2 & Hfv2 & Eq)|(_ & N)].
    2:{ exfalso. eapply N. eapply first_reads; eauto. }
    assert (Hsame : w2 = w /\ mid2 = mid /\ r2 = r').
    { clear -Hfv Hfv2. destruct Hfv as [w r Hi Hw He|w r Hw|w r]; inversion Hfv2; subst; auto.
      - match goal with K : dashed i +s+ _ = dashed i +s+ _ |- _ => apply app_inv_head_s in K; now subst end.
      - match goal with K : dashed i +s+ _ = dashed i +s+ _ |- _ => apply app_inv_head_s in K; subst w; discriminate end.
      - match goal with K : dashed i = dashed i +s+ _ |- _ => apply sapp_nil_inv in K; contradiction end.
      - match goal with K : dashed i +s+ _ = dashed i +s+ _ |- _ => apply app_inv_head_s in K; subst; discriminate end.
      - match goal with K : dashed i +s+ _ = dashed i +s+ _ |- _ => apply app_inv_head_s in K; injection K as ->; auto end.
      - match goal with K : dashed i = dashed i +s+ _ |- _ => apply sapp_nil_inv in K; discriminate end.
      - match goal with K : _ = dashed i |- _ => symmetry in K; apply sapp_nil_inv in K; contradiction end.
      - match goal with K : _ = dashed i |- _ => symmetry in K; apply sapp_nil_inv in K; discriminate end. }
    destruct Hsame as (-> & -> & ->). cbn [mapM_]. unfold bind. rewrite Eq. unfold bind.
    destruct (store_value ndebug x t (dashed i) w st) as [s1 q]. destruct q; try reflexivity. cbn [ret fst snd].
    rewrite (IH fuel _ ("" :: r') ("" :: l'')); [|apply reads_other; [apply empty_unlike|exact Hr]|cbn in Hf; lia].
    unfold bind. rewrite <- !app_assoc. reflexivity.
Qed.

Lemma reads_length i l ws l' : reads i l ws l' -> List.length ws <= List.length l.
Proof. induction 1; cbn [List.length]; lia. Qed.

Lemma get_all_ret i x t : is_empty_id i = false -> forall fuel done rest st st', get_all ndebug fuel i x t done rest st = (st', Ret tt) ->
  exists ws l', reads i rest ws l'.
Proof.
  intros Hi. induction fuel as [|fuel IH]; intros done rest st st' H; cbn [get_all] in H.
  - destruct (find_cases i rest Hi) as [(E & Hr)|(b & a & r & E & _)]; [eauto|]. rewrite E in H. discriminate.
  - destruct (find_cases i rest Hi) as [(E & Hr)|(b & a & r & E & -> & Ha & Hb)]; [eauto|]. rewrite E in H.
    apply bind_inv_p in H as (s1 & p & H1 & H). destruct (retrieve_cases i a r Ha) as [(w & mid & r' & Hfv & Eq)|(Eq & _)]; rewrite Eq in H1; [|discriminate].
    apply bind_inv_p in H1 as (s2 & [] & _ & H1). injection H1 as _ <-. cbn [fst snd] in H. apply IH in H as (ws & l' & Hr).
    change ("" :: r') with ([""] ++ r') in Hr. apply reads_skip_inv in Hr as (l1 & -> & Hr); [|intros y [<-|[]]; apply empty_unlike].
    exists (w :: ws), (b ++ mid ++ "" :: l1). apply reads_skip; [exact Hb|]. eapply first_reads; eauto.
Qed.

(** ** One identifier *)

Definition id_value (t : vty) (ws : list string) (old new : val) : Prop :=
  match t with
  | Scalar e => (ws = [] /\ new = old) \/ (exists w, ws = [w] /\ means e old w new)
  | ListOf e => list_given ndebug e [ws] old new
  end.

Lemma reads_det i l ws l' ws2 l2 : reads i l ws l' -> reads i l ws2 l2 -> ws = ws2 /\ l' = l2.
Proof.
  intros H. revert ws2 l2. induction H as [|a l ws l' Ha H IH|w l ws l' Hi Hw He H IH|w l ws l' Hw H IH|w l ws l' H IH]; intros ws2 l2 G.
  - inversion G. auto.
  - inversion G as [|? ? ? ? Hl Hr|w0 ? ? ? Hi0 Hw0 He0 Hr|w0 ? ? ? Hw0 Hr|w0 ? ? ? Hr]; subst.
    + destruct (IH _ _ Hr) as [-> ->]. auto.
    + destruct Hi0 as [c ->]. now rewrite dashed_app_short in Ha.
    + pose proof (eq_trans (eq_sym (dashed_app_equals i w0)) Ha). discriminate.
    + now rewrite dashed_like in Ha.
  - inversion G as [|? ? ? ? Hl Hr|w0 ? ? ? Hi0 Hw0 He0 Hr E|w0 ? ? ? Hw0 Hr E|w0 ? ? ? Hr E]; subst.
    + destruct Hi as [c ->]. now rewrite dashed_app_short in Hl.
    + apply app_inv_head_s in E as ->. destruct (IH _ _ Hr) as [-> ->]. auto.
    + apply app_inv_head_s in E. subst w. discriminate.
    + apply sapp_nil_inv in E. contradiction.
  - inversion G as [|? ? ? ? Hl Hr|w0 ? ? ? Hi0 Hw0 He0 Hr E|w0 ? ? ? Hw0 Hr E|w0 ? ? ? Hr E]; subst.
    + pose proof (eq_trans (eq_sym (dashed_app_equals i w)) Hl). discriminate.
    + apply app_inv_head_s in E. subst w0. discriminate.
    + apply app_inv_head_s in E. injection E as ->. destruct (IH _ _ Hr) as [-> ->]. auto.
    + apply sapp_nil_inv in E. discriminate.
  - inversion G as [|? ? ? ? Hl Hr|w0 ? ? ? Hi0 Hw0 He0 Hr E|w0 ? ? ? Hw0 Hr E|w0 ? ? ? Hr E]; subst.
    + now rewrite dashed_like in Hl.
    + symmetry in E. apply sapp_nil_inv in E. contradiction.
    + symmetry in E. apply sapp_nil_inv in E. discriminate.
    + destruct (IH _ _ Hr) as [-> ->]. auto.
Qed.

Lemma reads_nothing i l l' : reads i l [] l' -> l' = l /\ find_option_id i l = None.
Proof.
  intros H. destruct (is_empty_id i) eqn:Hi.
  - split; [|unfold find_option_id; now rewrite Hi]. remember [] as ws eqn:Ew. induction H; try discriminate; [reflexivity|]. now rewrite IHreads.
  - destruct (find_cases i l Hi) as [(E & Hr)|(b & a & r & E & -> & Ha & Hb)].
    + split; [|exact E]. now destruct (reads_det _ _ _ _ _ _ H Hr) as [_ ->].
    + exfalso. apply reads_skip_inv in H as (l1 & -> & H); [|exact Hb]. apply reads_first in H as (w & mid & r' & ws' & l'' & _ & E' & _); [discriminate|exact Ha].
Qed.

Lemma by_id_scalar_reads i x t ws l' st : is_empty_id i = false -> reads i (pre st) ws l' -> List.length ws <= 1 ->
  get_by_id_scalar ndebug i x t st =
    (do _ <- mapM_ (store_value ndebug x t (dashed i)) ws; do _ <- match ws with [] => ret tt | _ => modify (set_pre l') end; ret (given ws)) st.
Proof.
  intros Hi Hr Hw. unfold get_by_id_scalar. destruct ws as [|w [|? ?]]; [| |cbn in Hw; lia].
  - destruct (reads_nothing _ _ _ Hr) as [-> ->]. reflexivity.
  - destruct (find_cases i (pre st) Hi) as [(_ & G)|(b & a & r & -> & El & Ha & Hb)]; [destruct (reads_det _ _ _ _ _ _ Hr G); discriminate|].
    rewrite El in Hr. apply reads_skip_inv in Hr as (l1 & -> & Hr); [|exact Hb]. pose proof Hr as Hr0.
    apply reads_first in Hr as (w' & mid & r' & ws' & l'' & Hfv & E' & -> & Hr); [|exact Ha]. injection E' as <- <-.
    destruct (retrieve_cases i a r Ha) as [(w2 & mid2 & r2 & Hfv2 & Eq)|(_ & N)]; [|exfalso; eapply N; exact Hr0].
    assert (Hsame : w2 = w /\ mid2 ++ "" :: r2 = mid ++ "" :: r' /\ r2 = r').
    { assert (T : forall r3, exists l3, reads i r3 [] l3 \/ True) by (intros; exists []; now right). clear T.
      clear -Hfv Hfv2. destruct Hfv as [w r Hi Hw He|w r Hw|w r]; inversion Hfv2; subst; auto.
      - match goal with K : dashed i +s+ _ = dashed i +s+ _ |- _ => apply app_inv_head_s in K; now subst end.
      - match goal with K : dashed i +s+ _ = dashed i +s+ _ |- _ => apply app_inv_head_s in K; subst w; discriminate end.
      - match goal with K : dashed i = dashed i +s+ _ |- _ => apply sapp_nil_inv in K; contradiction end.
      - match goal with K : dashed i +s+ _ = dashed i +s+ _ |- _ => apply app_inv_head_s in K; subst; discriminate end.
      - match goal with K : dashed i +s+ _ = dashed i +s+ _ |- _ => apply app_inv_head_s in K; injection K as ->; auto end.
      - match goal with K : dashed i = dashed i +s+ _ |- _ => apply sapp_nil_inv in K; discriminate end.
      - match goal with K : _ = dashed i |- _ => symmetry in K; apply sapp_nil_inv in K; contradiction end.
      - match goal with K : _ = dashed i |- _ => symmetry in K; apply sapp_nil_inv in K; discriminate end. }
    destruct Hsame as (-> & Em & ->). cbn [mapM_]. unfold bind. rewrite Eq. unfold bind.
    destruct (store_value ndebug x t (dashed i) w st) as [s1 q]. destruct q; try reflexivity. cbn [ret fst snd modify].
    destruct (reads_nothing _ _ _ Hr) as [-> N].
    assert (N' : find_option_id i ("" :: r') = None).
    { apply (reads_nothing i ("" :: r') ("" :: r')). apply reads_other; [apply empty_unlike|exact Hr]. }
    rewrite N'. rewrite <- app_assoc, Em. reflexivity.
Qed.

Lemma by_id_scalar_ret i x t st st' q : is_empty_id i = false -> get_by_id_scalar ndebug i x t st = (st', Ret q) ->
  exists ws l', reads i (pre st) ws l' /\ List.length ws <= 1.
Proof.
  intros Hi H. unfold get_by_id_scalar in H. destruct (find_cases i (pre st) Hi) as [(E & Hr)|(b & a & r & E & El & Ha & Hb)]; rewrite E in H.
  - exists [], (pre st). split; [exact Hr|cbn; lia].
  - apply bind_inv_p in H as (s1 & p & H1 & H). apply bind_inv_p in H as (s2 & [] & _ & H).
    destruct (retrieve_cases i a r Ha) as [(w & mid & r' & Hfv & Eq)|(Eq & _)]; rewrite Eq in H1; [|discriminate].
    apply bind_inv_p in H1 as (s3 & [] & _ & H1). injection H1 as _ <-. cbn [snd] in H.
    destruct (find_cases i ("" :: r') Hi) as [(E2 & Hr)|(b2 & a2 & r2 & E2 & _)]; rewrite E2 in H; [|discriminate].
    change ("" :: r') with ([""] ++ r') in Hr. apply reads_skip_inv in Hr as (l1 & _ & Hr); [|intros y [<-|[]]; apply empty_unlike].
    rewrite El. exists [w], (b ++ mid ++ "" :: l1). split; [|cbn; lia]. apply reads_skip; [exact Hb|]. eapply first_reads; eauto.
Qed.

Lemma by_id_list_reads i x e ws l' st : is_empty_id i = false -> reads i (pre st) ws l' ->
  get_by_id_list ndebug i x (ListOf e) st =
    match ws with
    | [] => (st, Ret false)
    | _ => (do _ <- modify (fun s => set_vars (set_var (vars s) x (VList [])) s); do _ <- mapM_ (store_value ndebug x (ListOf e) (dashed i)) ws;
            do _ <- modify (set_pre l'); ret true) st
    end.
Proof.
  intros Hi Hr. unfold get_by_id_list. destruct ws as [|w ws].
  - now destruct (reads_nothing _ _ _ Hr) as [_ ->].
  - destruct (find_cases i (pre st) Hi) as [(_ & G)|(b & a & r & -> & El & Ha & Hb)]; [destruct (reads_det _ _ _ _ _ _ Hr G); discriminate|].
    unfold bind at 1. cbn [modify]. unfold bind at 1.
    rewrite (get_all_reads i x (ListOf e) (w :: ws) Hi _ [] (pre st) l'); [|exact Hr|apply reads_length in Hr; lia].
    cbn [app]. unfold bind. cbn [modify].
    destruct (mapM_ (store_value ndebug x (ListOf e) (dashed i)) (w :: ws) (set_vars (set_var (vars st) x (VList [])) st)) as [s1 q]. now destruct q.
Qed.

Lemma by_id_list_ret i x e st st' q : is_empty_id i = false -> get_by_id_list ndebug i x (ListOf e) st = (st', Ret q) ->
  exists ws l', reads i (pre st) ws l'.
Proof.
  intros Hi H. unfold get_by_id_list in H. destruct (find_cases i (pre st) Hi) as [(E & Hr)|(b & a & r & E & _)]; rewrite E in H; [eauto|].
  apply bind_inv_p in H as (s1 & [] & _ & H). apply bind_inv_p in H as (s2 & [] & H & _). now apply get_all_ret in H.
Qed.

Lemma same_but_pre x v l l' st st' : same_but x v l st st' -> same_but x v l' st (set_pre l' st').
Proof. intros (_ & H). split; [reflexivity|exact H]. Qed.

Lemma by_id_ret i x t st st' q : enum_ok (elem_ty t) -> is_empty_id i = false -> get_by_id ndebug i x t st = (st', Ret q) ->
  exists ws l' v, reads i (pre st) ws l' /\ q = given ws /\ id_value t ws (vars st x) v /\ same_but x v l' st st'.
Proof.
  intros Hok Hi H. unfold get_by_id in H. destruct t as [e|e]; cbn [is_container elem_ty] in *.
  - pose proof H as H0. apply by_id_scalar_ret in H as (ws & l' & Hr & Hw); [|exact Hi]. exists ws, l'.
    rewrite (by_id_scalar_reads i x _ ws l' st Hi Hr Hw) in H0. destruct ws as [|w [|? ?]]; [| |cbn in Hw; lia].
    + injection H0 as <- <-. exists (vars st x). split; [exact Hr|]. split; [reflexivity|]. split; [now left|].
      apply reads_nothing in Hr as [-> _]. repeat split.
    + cbn [mapM_] in H0. apply bind_inv_p in H0 as (s1 & [] & H1 & H0). apply bind_inv_p in H1 as (s0 & [] & H1 & H2). injection H2 as <-.
      injection H0 as <- <-. apply store_scalar_ret in H1 as (v & Hm & Hs); [|exact Hok]. exists v. split; [exact Hr|]. split; [reflexivity|].
      split; [right; eauto|]. eapply same_but_pre; exact Hs.
  - pose proof H as H0. apply by_id_list_ret in H as (ws & l' & Hr); [|exact Hi]. exists ws, l'.
    rewrite (by_id_list_reads i x _ ws l' st Hi Hr) in H0. destruct ws as [|w ws].
    + injection H0 as <- <-. exists (vars st x). split; [exact Hr|]. split; [reflexivity|]. split; [apply list_unused, list_end|].
      apply reads_nothing in Hr as [-> _]. repeat split.
    + apply bind_inv_p in H0 as (s0 & [] & H1 & H0). injection H1 as <-. apply bind_inv_p in H0 as (s1 & [] & H1 & H0).
      injection H0 as <- <-. apply (store_list_ret x e _ (w :: ws) Hok _ _ []) in H1 as (vals & He & Hs); [|apply becomes_set].
      exists (VList vals). split; [exact Hr|]. split; [reflexivity|]. split; [eapply list_used; [discriminate|exact He|apply list_end]|].
      destruct Hs as (_ & H2 & H3 & H4 & H5). cbn [app] in H5. repeat split; auto; [apply H5|]. intros y Hy. cbn. rewrite (proj2 H5 y Hy). cbn. now apply becomes_set.
Qed.

Lemma by_id_reads i x t st ws l' v : enum_ok (elem_ty t) -> is_empty_id i = false -> reads i (pre st) ws l' -> id_value t ws (vars st x) v ->
  exists st', get_by_id ndebug i x t st = (st', Ret (given ws)) /\ same_but x v l' st st'.
Proof.
  intros Hok Hi Hr Hv. unfold get_by_id. destruct t as [e|e]; cbn [is_container elem_ty id_value] in *.
  - assert (Hw : List.length ws <= 1) by (destruct Hv as [[-> _]|(w & -> & _)]; cbn; lia). rewrite (by_id_scalar_reads i x _ ws l' st Hi Hr Hw).
    destruct Hv as [[-> ->]|(w & -> & Hm)].
    + exists st. split; [reflexivity|]. apply reads_nothing in Hr as [-> _]. repeat split.
    + destruct (store_scalar_means x e (dashed i) w st v Hok Hm) as (s1 & E & Hs). exists (set_pre l' s1). split; [|eapply same_but_pre; exact Hs].
      cbn [mapM_]. unfold bind. rewrite E. reflexivity.
  - rewrite (by_id_list_reads i x _ ws l' st Hi Hr). inversion Hv as [|wss old new G|ws0 vals wss old new Hne He G]; subst.
    + inversion G; subst. exists st. split; [reflexivity|]. apply reads_nothing in Hr as [-> _]. repeat split.
    + inversion G; subst. destruct (store_list_elements x e (dashed i) ws vals Hok He (set_vars (set_var (vars st) x (VList [])) st) [] (proj1 (becomes_set _ _ _))) as (s1 & E & Hs).
      exists (set_pre l' s1). split.
      * destruct ws as [|w ws]; [contradiction|]. unfold bind. cbn [modify]. rewrite E. reflexivity.
      * destruct Hs as (_ & H2 & H3 & H4 & H5). cbn [app] in H5. repeat split; auto; [apply H5|]. intros y Hy. cbn. rewrite (proj2 H5 y Hy). cbn. now apply becomes_set.
Qed.

Lemma by_id_nameless i x t st : is_empty_id i = true -> get_by_id ndebug i x t st = (st, Ret false).
Proof. intros Hi. unfold get_by_id, get_by_id_list, get_by_id_scalar, find_option_id. rewrite Hi. now destruct (is_container t). Qed.

(** ** One option *)

Definition id_read (i : ident) (l ws l' : list string) : Prop :=
  if is_empty_id i then ws = [] /\ l' = l else reads i l ws l'.

Lemma id_value_nothing t old : id_value t [] old old.
Proof. destruct t; [now left|]. apply list_unused, list_end. Qed.
Lemma id_value_nothing_inv t old new : id_value t [] old new -> new = old.
Proof.
  destruct t; cbn [id_value].
  - intros [[_ H]|(w & H & _)]; [exact H|discriminate].
  - intros H. inversion H as [|? ? ? G|? ? ? ? ? Hne]; subst; [now inversion G|contradiction].
Qed.

Lemma by_id_ret' i x t st st' q : enum_ok (elem_ty t) -> get_by_id ndebug i x t st = (st', Ret q) ->
  exists ws l' v, id_read i (pre st) ws l' /\ q = given ws /\ id_value t ws (vars st x) v /\ same_but x v l' st st'.
Proof.
  intros Hok H. unfold id_read. destruct (is_empty_id i) eqn:Hi; [|now apply by_id_ret].
  rewrite by_id_nameless in H by exact Hi. injection H as <- <-. exists [], (pre st), (vars st x). split; [auto|]. split; [reflexivity|].
  split; [apply id_value_nothing|]. repeat split.
Qed.
Lemma by_id_reads' i x t st ws l' v : enum_ok (elem_ty t) -> id_read i (pre st) ws l' -> id_value t ws (vars st x) v ->
  exists st', get_by_id ndebug i x t st = (st', Ret (given ws)) /\ same_but x v l' st st'.
Proof.
  intros Hok Hr Hv. unfold id_read in Hr. destruct (is_empty_id i) eqn:Hi; [|now apply by_id_reads].
  destruct Hr as [-> ->]. apply id_value_nothing_inv in Hv as ->. exists st. split; [now rewrite by_id_nameless|]. repeat split.
Qed.

Definition short_id (c : config) : ident := IdShort (c_short c).
Definition long_id (c : config) : ident := IdLong (c_long c).

Lemma list_given_two e ws1 ws2 old new : list_given ndebug e [ws1; ws2] old new <->
  exists mid, list_given ndebug e [ws1] old mid /\ list_given ndebug e [ws2] mid new.
Proof.
  split.
  - intros H. inversion H as [|? ? ? G|? vals ? ? ? Hne He G]; subst.
    + exists old. split; [apply list_unused, list_end|exact G].
    + exists (VList vals). split; [eapply list_used; eauto; apply list_end|exact G].
  - intros (mid & H1 & H2). inversion H1 as [|? ? ? G|? vals ? ? ? Hne He G]; subst; inversion G; subst; [now apply list_unused|eapply list_used; eauto].
Qed.

Lemma option_parts c t l wss l' old v : reads_each (config_idents c) l wss l' -> option_value ndebug t wss old v ->
  exists ws1 l1 ws2 v1, id_read (short_id c) l ws1 l1 /\ id_read (long_id c) l1 ws2 l' /\ id_value t ws1 old v1 /\ id_value t ws2 v1 v /\
    List.concat wss = ws1 ++ ws2 /\ (is_container t = false -> given ws1 && given ws2 = false).
Proof.
  intros Hr Hv. unfold config_idents, id_read, short_id, long_id, is_empty_id in *.
  destruct (Ascii.eqb (c_short c) nul); destruct (is_empty (c_long c)); cbn [app] in Hr.
  - inversion Hr; subst. exists [], l', [], old. repeat split; auto using id_value_nothing.
    destruct t; cbn [option_value] in Hv; [destruct Hv as [[_ ->]|(w & H & _)]; [apply id_value_nothing|discriminate]|]. inversion Hv; subst. apply id_value_nothing.
  - inversion Hr as [|? ? ? ws l1 wss' ? Hi Hn]; subst. inversion Hn; subst. exists [], l, ws, old. cbn [List.concat]. rewrite app_nil_r.
    repeat split; auto using id_value_nothing. destruct t; cbn [option_value id_value List.concat] in *; [now rewrite app_nil_r in Hv|exact Hv].
  - inversion Hr as [|? ? ? ws l1 wss' ? Hi Hn]; subst. inversion Hn; subst. exists ws, l', [], v. cbn [List.concat].
    repeat split; auto using id_value_nothing; [|now destruct ws]. destruct t; cbn [option_value id_value List.concat] in *; [now rewrite app_nil_r in Hv|exact Hv].
  - inversion Hr as [|? ? ? ws1 l1 wss' ? Hi Hn]; subst. inversion Hn as [|? ? ? ws2 l2 wss2 ? Hi2 Hn2]; subst. inversion Hn2; subst.
    cbn [List.concat] in *. destruct t as [e|e]; cbn [option_value id_value is_container List.concat] in *.
    + rewrite app_nil_r in *. destruct Hv as [[Hc ->]|(w & Hc & Hm)].
      * apply app_eq_nil in Hc as [-> ->]. exists [], l1, [], old. repeat split; auto.
      * destruct ws1 as [|w1 ws1].
        -- cbn in Hc. subst ws2. exists [], l1, [w], old. repeat split; eauto.
        -- injection Hc as -> Hc. apply app_eq_nil in Hc as [-> ->]. exists [w], l1, [], v. repeat split; eauto.
    + apply list_given_two in Hv as (mid & H1 & H2). exists ws1, l1, ws2, mid. rewrite app_nil_r. repeat split; auto. discriminate.
Qed.

Lemma option_whole c t l l' ws1 l1 ws2 v1 old v : id_read (short_id c) l ws1 l1 -> id_read (long_id c) l1 ws2 l' -> id_value t ws1 old v1 -> id_value t ws2 v1 v ->
  (is_container t = false -> given ws1 && given ws2 = false) ->
  exists wss, reads_each (config_idents c) l wss l' /\ option_value ndebug t wss old v /\ List.concat wss = ws1 ++ ws2.
Proof.
  intros H1 H2 H3 H4 H5. unfold config_idents, id_read, short_id, long_id, is_empty_id in *.
  destruct (Ascii.eqb (c_short c) nul); destruct (is_empty (c_long c)); cbn [app].
  - destruct H1 as [-> ->], H2 as [-> ->]. apply id_value_nothing_inv in H3 as ->. apply id_value_nothing_inv in H4 as ->.
    exists []. split; [constructor|]. split; [|reflexivity]. destruct t; [now left|apply list_end].
  - destruct H1 as [-> ->]. apply id_value_nothing_inv in H3 as ->. exists [ws2]. split; [eapply reads_name; [eassumption|constructor]|].
    cbn [List.concat]. rewrite app_nil_r. split; [|reflexivity]. destruct t; cbn [option_value List.concat] in *; [now rewrite app_nil_r|exact H4].
  - destruct H2 as [-> ->]. apply id_value_nothing_inv in H4 as ->. exists [ws1]. split; [eapply reads_name; [eassumption|constructor]|].
    cbn [List.concat]. split; [|reflexivity]. destruct t; cbn [option_value List.concat] in *; [now rewrite app_nil_r|exact H3].
  - exists [ws1; ws2]. split; [eapply reads_name; [eassumption|]; eapply reads_name; [eassumption|constructor]|]. cbn [List.concat]. rewrite app_nil_r.
    split; [|reflexivity]. destruct t as [e|e]; cbn [option_value id_value is_container List.concat] in *.
    + rewrite app_nil_r. specialize (H5 eq_refl). destruct H3 as [[-> ->]|(w1 & -> & Hm1)]; [exact H4|].
      destruct H4 as [[-> ->]|(w2 & -> & Hm2)]; [|discriminate]. right. exists w1. auto.
    + apply list_given_two. eauto.
Qed.

Definition option_step (x : addr) (t : vty) (c : config) (l : list string) (vs : store) (f : fs) (l1 : list string) (vs1 : store) (f1 : fs) : Prop :=
  exists wss v, reads_each (config_idents c) l wss l1 /\ (c_required c = true -> List.concat wss <> []) /\ option_value ndebug t wss (vs x) v /\ becomes x v vs vs1 /\
    match List.concat wss with [] => f1 = f | _ => c_validator c f v = (f1, VOk) end.

Lemma becomes_ext x v a a' b b' : (forall y, a y = a' y) -> (forall y, b y = b' y) -> becomes x v a b -> becomes x v a' b'.
Proof. intros Ha Hb [H1 H2]. split; [now rewrite <- Hb|]. intros y Hy. rewrite <- Ha, <- Hb. auto. Qed.

Lemma given_app {A} (a b : list A) : given (a ++ b) = given a || given b.
Proof. now destruct a. Qed.

Lemma validator_ok v x p st st' : run_validator v x p st = (st', Ret tt) <-> v (fsys st) (vars st x) = (fsys st', VOk) /\ st' = set_fsys (fsys st') st.
Proof.
  unfold run_validator. destruct (v (fsys st) (vars st x)) as [f' r] eqn:E. split.
  - intros H. injection H as <- Hr. destruct r; try discriminate. auto.
  - intros [H ->]. injection H as -> ->. reflexivity.
Qed.

Lemma get_option_ret x t c st st' : enum_ok (elem_ty t) -> get_option ndebug x t c st = (st', Ret tt) ->
  option_step x t c (pre st) (vars st) (fsys st) (pre st') (vars st') (fsys st') /\ post st' = post st /\ count st' = count st.
Proof.
  intros Hok H. unfold get_option in H. apply bind_inv_p in H as (s1 & q1 & H1 & H). apply bind_inv_p in H as (s2 & q2 & H2 & H).
  apply by_id_ret' in H1 as (ws1 & l1 & v1 & A1 & -> & A2 & A3 & A4 & A5 & A6 & A7); [|exact Hok].
  apply by_id_ret' in H2 as (ws2 & l2 & v2 & B1 & -> & B2 & B3 & B4 & B5 & B6 & B7); [|exact Hok].
  destruct (given ws1 && given ws2 && negb (is_container t)) eqn:Em; [discriminate|].
  rewrite A3 in B1. rewrite (proj1 A7) in B2.
  destruct (option_whole c t _ _ _ _ _ _ _ _ A1 B1 A2 B2) as (wss & W1 & W2 & W3).
  { intros Hc. rewrite Hc, andb_true_r in Em. exact Em. }
  pose proof (becomes_trans _ _ _ _ _ _ A7 B7) as Hb. rewrite <- given_app, <- W3 in H. destruct (List.concat wss) as [|w ws] eqn:Ec; cbn [given] in H.
  - destruct (c_required c) eqn:Er; [discriminate|]. injection H as <-. split; [|split; congruence]. exists wss, v2. rewrite B3, Ec. repeat split; auto; try apply Hb; congruence.
  - apply validator_ok in H as [Hv E]. rewrite E. cbn [pre vars post count set_fsys]. split; [|split; congruence]. exists wss, v2. rewrite B3, Ec. repeat split; auto; try apply Hb; try discriminate.
    rewrite (proj1 Hb) in Hv. now rewrite B6, A6 in Hv.
Qed.

Lemma get_option_step x t c st l1 vs1 f1 : enum_ok (elem_ty t) -> option_step x t c (pre st) (vars st) (fsys st) l1 vs1 f1 ->
  exists st', get_option ndebug x t c st = (st', Ret tt) /\ pre st' = l1 /\ (forall y, vars st' y = vs1 y) /\ fsys st' = f1 /\ post st' = post st /\ count st' = count st.
Proof.
  intros Hok (wss & v & H1 & H2 & H3 & H4 & H5).
  destruct (option_parts c t _ _ _ _ _ H1 H3) as (ws1 & l & ws2 & v1 & P1 & P2 & P3 & P4 & P5 & P6).
  destruct (by_id_reads' (short_id c) x t st ws1 l v1 Hok P1 P3) as (s1 & E1 & A3 & A4 & A5 & A6 & A7).
  destruct (by_id_reads' (long_id c) x t s1 ws2 l1 v Hok) as (s2 & E2 & B3 & B4 & B5 & B6 & B7); [now rewrite A3|now rewrite (proj1 A7)|].
  unfold get_option, bind. fold (short_id c) (long_id c). rewrite E1, E2.
  assert (Em : given ws1 && given ws2 && negb (is_container t) = false) by (destruct (is_container t); [apply andb_false_r|rewrite P6 by reflexivity; reflexivity]).
  rewrite Em, <- given_app, <- P5. pose proof (becomes_trans _ _ _ _ _ _ A7 B7) as Hb.
  assert (Hvs : forall y, vars s2 y = vs1 y).
  { intros y. destruct (Nat.eq_dec y x) as [->|Hy]; [now rewrite (proj1 Hb), (proj1 H4)|]. now rewrite (proj2 Hb y Hy), (proj2 H4 y Hy). }
  destruct (List.concat wss) as [|w ws]; cbn [given].
  - destruct (c_required c); [now destruct H2|]. exists s2. repeat split; auto; congruence.
  - exists (set_fsys f1 s2). split; [|repeat split; cbn; auto; congruence]. apply validator_ok. split; [|reflexivity].
    rewrite B6, A6, (proj1 Hb). exact H5.
Qed.

(** ** All options *)

Lemma elems_ok_cons d ds : elems_ok (d :: ds) -> elems_ok ds.
Proof. intros H t Ht. apply H. cbn. apply in_app_iff. auto. Qed.

Lemma options_ext l vs f l' vs' f' vs2 vs2' ds : (forall y, vs y = vs2 y) -> (forall y, vs' y = vs2' y) ->
  options_read ndebug ds l vs f l' vs' f' -> options_read ndebug ds l vs2 f l' vs2' f'.
Proof.
  intros H1 H2 H. revert vs2 vs2' H1 H2. induction H as [l vs vs' f He|d ds l vs f l' vs' f' Hd H IH|x t c ds l vs f wss l1 v vs1 f1 l' vs' f' A B C D E H IH]; intros vs2 vs2' H1 H2.
  - constructor. intros y. now rewrite <- H2, He.
  - constructor; auto.
  - eapply options_one with (v := v) (vs1 := vs1); eauto; [now rewrite <- H1|]. eapply becomes_ext; [exact H1|reflexivity|exact D].
Qed.

Lemma options_ret ds : elems_ok ds -> forall st st', mapM_ (option_call ndebug) ds st = (st', Ret tt) ->
  options_read ndebug ds (pre st) (vars st) (fsys st) (pre st') (vars st') (fsys st') /\ post st' = post st /\ count st' = count st.
Proof.
  induction ds as [|d ds IH]; intros Hok st st' H; cbn [mapM_] in H.
  - injection H as <-. split; [now constructor|auto].
  - apply bind_inv_p in H as (s1 & [] & H1 & H). apply IH in H as (H & Hp & Hc); [|eapply elems_ok_cons; eauto]. destruct d as [x t c|x c|x t c]; cbn [option_call] in H1.
    + apply get_option_ret in H1 as ((wss & v & A & B & C & D & E) & P1 & P2); [|apply Hok; now left]. split; [|split; congruence]. eapply options_one; eauto.
    + injection H1 as <-. split; [|auto]. now constructor.
    + injection H1 as <-. split; [|auto]. now constructor.
Qed.

Lemma options_do ds l vs f l' vs' f' : options_read ndebug ds l vs f l' vs' f' -> elems_ok ds -> forall st, pre st = l -> (forall y, vars st y = vs y) -> fsys st = f ->
  exists st', mapM_ (option_call ndebug) ds st = (st', Ret tt) /\ pre st' = l' /\ (forall y, vars st' y = vs' y) /\ fsys st' = f' /\ post st' = post st /\ count st' = count st.
Proof.
  induction 1 as [l vs vs' f He|d ds l vs f l' vs' f' Hd H IH|x t c ds l vs f wss l1 v vs1 f1 l' vs' f' A B C D E H IH]; intros Hok st Hp Hv Hf; cbn [mapM_].
  - exists st. repeat split; auto. intros y. now rewrite Hv, He.
  - assert (E : option_call ndebug d st = (st, Ret tt)) by (destruct d; [exfalso; eapply Hd; reflexivity|reflexivity|reflexivity]).
    unfold bind. rewrite E. apply IH; auto. eapply elems_ok_cons; eauto.
  - cbn [option_call]. destruct (get_option_step x t c st l1 vs1 f1) as (s1 & E1 & F1 & F2 & F3 & F4 & F5); [apply Hok; now left| |].
    + exists wss, v. rewrite Hp, Hf, Hv. repeat split; auto; try apply D. intros y Hy. rewrite Hv. now apply D.
    + destruct (IH (elems_ok_cons _ _ Hok) s1 F1 F2 F3) as (s2 & E2 & G1 & G2 & G3 & G4 & G5). exists s2. unfold bind. rewrite E1. repeat split; auto; congruence.
Qed.
End reading.

(** ** Flags *)

Lemma cluster_iff c a : c <> "-"%char -> looks_like_cluster_of c a = is_cluster a && scontains c a.
Proof.
  intros Hc. destruct a as [|d [|e a]]; try reflexivity. cbn [looks_like_cluster_of is_cluster].
  destruct (Ascii.eqb_spec d "-") as [->|_]; [|reflexivity]. cbn [andb]. f_equal. symmetry. cbn [scontains].
  destruct (Ascii.eqb_spec c "-"); [contradiction|reflexivity].
Qed.

Lemma first_unique c p q p' q' : p +s+ String c q = p' +s+ String c q' -> ~ In c (chars p) -> ~ In c (chars p') -> p = p' /\ q = q'.
Proof.
  revert p'; induction p as [|d p IH]; intros [|d' p'] H H1 H2; cbn in *.
  - injection H as ->. auto.
  - injection H as -> _. exfalso. apply H2. now left.
  - injection H as -> _. exfalso. apply H1. now left.
  - injection H as -> H. destruct (IH _ H) as [-> ->]; auto.
Qed.

Lemma scan_takes c l l' : c <> "-"%char -> flag_scan c l = Some l' -> takes_short c l l'.
Proof.
  intros Hc. revert l'; induction l as [|a l IH]; intros l' H; cbn [flag_scan] in H; [discriminate|].
  pose proof (cluster_iff c a Hc) as Ha. destruct (is_cluster a) eqn:Ea; cbn [andb] in Ha.
  - destruct (sfind c a) as [n|] eqn:Es.
    + destruct (sfind_Some _ _ _ Es) as (p & q & -> & -> & Hp & He). rewrite He in H. injection H as <-. apply takes_here.
      * rewrite Ha. apply scontains_In. rewrite chars_app. apply in_app_iff. right. now left.
      * rewrite <- scontains_In, Hp. discriminate.
    + destruct (flag_scan c l); [|discriminate]. injection H as <-. apply takes_later; [|auto]. rewrite Ha. now apply sfind_None.
  - destruct (flag_scan c l); [|discriminate]. injection H as <-. apply takes_later; auto.
Qed.
Lemma scan_none c l : c <> "-"%char -> flag_scan c l = None -> no_cluster c l.
Proof.
  intros Hc. induction l as [|a l IH]; intros H; cbn [flag_scan] in H; [intros ? []|].
  pose proof (cluster_iff c a Hc) as Ha. destruct (is_cluster a) eqn:Ea; cbn [andb] in Ha.
  - destruct (sfind c a) as [n|] eqn:Es; [discriminate|]. destruct (flag_scan c l); [discriminate|]. intros b [<-|Hb]; [rewrite Ha; now apply sfind_None|now apply IH].
  - destruct (flag_scan c l); [discriminate|]. intros b [<-|Hb]; [exact Ha|now apply IH].
Qed.

Lemma takes_det c l l1 l2 : takes_short c l l1 -> takes_short c l l2 -> l1 = l2.
Proof.
  intros H. revert l2; induction H as [p q l Hl Hp|a l l' Ha H IH]; intros l2 G.
  - inversion G as [p' q' ? Hl' Hp' E|? ? ? Ha]; subst; [|congruence]. apply first_unique in E as [-> ->]; auto.
  - inversion G; subst; [congruence|]. f_equal. auto.
Qed.
Lemma takes_some c l l' : takes_short c l l' -> ~ no_cluster c l.
Proof.
  induction 1 as [p q l Hl Hp|a l l' Ha H IH]; intros N.
  - rewrite (N _ (or_introl eq_refl)) in Hl. discriminate.
  - apply IH. intros b Hb. apply N. now right.
Qed.

Lemma takes_scan c l l' : c <> "-"%char -> takes_short c l l' -> flag_scan c l = Some l'.
Proof.
  intros Hc H. destruct (flag_scan c l) as [l2|] eqn:E.
  - apply scan_takes in E; [|exact Hc]. f_equal. eapply takes_det; eauto.
  - apply scan_none in E; [|exact Hc]. now apply takes_some in H.
Qed.
Lemma none_scan c l : c <> "-"%char -> no_cluster c l -> flag_scan c l = None.
Proof. intros Hc H. destruct (flag_scan c l) eqn:E; [|reflexivity]. apply scan_takes in E; [|exact Hc]. now apply takes_some in E. Qed.

Lemma split_first_here p b a r : p a = true -> (forall y, In y b -> p y = false) -> split_first p (b ++ a :: r) = Some (b, a, r).
Proof.
  intros Ha. induction b as [|y b IH]; intros Hb; cbn [app split_first]; [now rewrite Ha|]. rewrite (Hb y) by now left. rewrite IH; [reflexivity|].
  intros z Hz. apply Hb. now right.
Qed.
Lemma split_first_nowhere p l : (forall y, In y l -> p y = false) -> split_first p l = None.
Proof. induction l as [|y l IH]; intros Hb; cbn; [reflexivity|]. rewrite (Hb y) by now left. rewrite IH; [reflexivity|]. intros z Hz. apply Hb. now right. Qed.

Lemma set_args_self st : set_args (pre st) (post st) st = st.
Proof. now destruct st. Qed.

Lemma get_flag_read x c st b r g : c_short c <> "-"%char -> flag_read c (pre st) (post st) b r g ->
  get_flag x c st = (set_vars (set_var (vars st) x (if g then VBool true else VBool (was_true (vars st x)))) (set_args b r st), Ret tt).
Proof.
  intros Hc H. rewrite <- as_bool_true. destruct st as [p q vs n f]. cbn [pre post vars] in *. unfold get_flag, bind, flag_is_set_short.
  inversion H as [b0 r0 b' Ht|b0 r0 r' Hn Ht|b1 b2 r0 Hn Hn' Hi Eb|b0 r0 Hn Hn' Hi]; subst; cbn [pre post].
  - rewrite (takes_scan _ _ _ Hc Ht). reflexivity.
  - rewrite (none_scan _ _ Hc Hn), (takes_scan _ _ _ Hc Ht). reflexivity.
  - rewrite (none_scan _ _ Hc Hn), (none_scan _ _ Hc Hn'). unfold flag_is_set_long. cbn [pre]. rewrite split_first_here; [reflexivity|apply String.eqb_refl|].
    intros y Hy. apply String.eqb_neq. intros <-. contradiction.
  - rewrite (none_scan _ _ Hc Hn), (none_scan _ _ Hc Hn'). unfold flag_is_set_long. cbn [pre]. rewrite split_first_nowhere; [reflexivity|].
    intros y Hy. apply String.eqb_neq. intros <-. contradiction.
Qed.

Lemma flag_exists c b r : c_short c <> "-"%char -> exists b' r' g, flag_read c b r b' r' g.
Proof.
  intros Hc. destruct (flag_scan (c_short c) b) as [b'|] eqn:E1; [apply scan_takes in E1; [|exact Hc]; exists b', r, true; apply flag_short; exact E1|].
  apply scan_none in E1; [|exact Hc]. destruct (flag_scan (c_short c) r) as [r'|] eqn:E2; [apply scan_takes in E2; [|exact Hc]; exists b, r', true; apply flag_behind; assumption|].
  apply scan_none in E2; [|exact Hc]. destruct (in_dec string_dec ("--" +s+ c_long c) b) as [Hi|Hi].
  - assert (Hs : exists b1 b2, b = b1 ++ ("--" +s+ c_long c) :: b2 /\ ~ In ("--" +s+ c_long c) b1).
    { clear -Hi. induction b as [|y b IH]; [destruct Hi|]. destruct (string_dec y ("--" +s+ c_long c)) as [->|Hy]; [exists [], b; now split|].
      destruct Hi as [->|Hi]; [contradiction|]. destruct (IH Hi) as (b1 & b2 & -> & Hn). exists (y :: b1), b2. split; [reflexivity|]. intros [E|E]; [now apply Hy|now apply Hn]. }
    destruct Hs as (b1 & b2 & -> & Hb). exists (b1 ++ "" :: b2), r, true. now apply flag_long.
  - exists b, r, false. now apply flag_absent.
Qed.

Definition flags_ok (decls : list decl) : Prop := forall x c, In (DFlag x c) decls -> c_short c <> "-"%char.

Lemma flags_do ds b r vs b' r' vs' : flags_read ds b r vs b' r' vs' -> flags_ok ds -> forall st, pre st = b -> post st = r -> (forall y, vars st y = vs y) ->
  exists st', mapM_ flag_call ds st = (st', Ret tt) /\ pre st' = b' /\ post st' = r' /\ (forall y, vars st' y = vs' y) /\ fsys st' = fsys st /\ count st' = count st.
Proof.
  induction 1 as [b r vs vs' He|d ds b r vs b' r' vs' Hd H IH|x c ds b r vs b1 r1 g vs1 b' r' vs' Hf Hb H IH]; intros Hok st Hp Hr Hv; cbn [mapM_].
  - exists st. repeat split; auto. intros y. now rewrite Hv, He.
  - assert (E : flag_call d st = (st, Ret tt)) by (destruct d; [reflexivity|exfalso; eapply Hd; reflexivity|reflexivity]).
    unfold bind. rewrite E. apply IH; auto. intros x c Hx. eapply Hok. right. exact Hx.
  - unfold bind. cbn [flag_call]. rewrite (get_flag_read x c st b1 r1 g); [|eapply Hok; now left|now rewrite Hp, Hr].
    match goal with |- context [mapM_ flag_call ds ?s] => destruct (IH (fun x c Hx => Hok x c (or_intror Hx)) s) as (s2 & E2 & G1 & G2 & G3 & G4 & G5) end.
    + reflexivity.
    + reflexivity.
    + intros y. cbn [vars set_vars set_args]. destruct (Nat.eq_dec y x) as [->|Hy].
      * rewrite (proj1 Hb), <- Hv. apply becomes_set.
      * rewrite (proj2 Hb y Hy), <- Hv. now apply becomes_set.
    + exists s2. rewrite E2. repeat split; auto.
Qed.

Lemma flags_ret ds : flags_ok ds -> forall st st', mapM_ flag_call ds st = (st', Ret tt) ->
  flags_read ds (pre st) (post st) (vars st) (pre st') (post st') (vars st') /\ fsys st' = fsys st /\ count st' = count st.
Proof.
  induction ds as [|d ds IH]; intros Hok st st' H; cbn [mapM_] in H.
  - injection H as <-. split; [now constructor|auto].
  - apply bind_inv_p in H as (s1 & [] & H1 & H). apply IH in H as (H & Hp & Hc); [|intros x c Hx; eapply Hok; right; exact Hx]. destruct d as [x t c|x c|x t c]; cbn [flag_call] in H1.
    + injection H1 as <-. split; [|auto]. now constructor.
    + destruct (flag_exists c (pre st) (post st)) as (b & r & g & Hf); [eapply Hok; now left|].
      rewrite (get_flag_read x c st b r g) in H1; [|eapply Hok; now left|exact Hf]. injection H1 as <-. cbn [pre post vars fsys count set_vars set_args] in *.
      split; [|auto]. eapply flags_one; [exact Hf|apply becomes_set|exact H].
    + injection H1 as <-. split; [|auto]. now constructor.
Qed.

(** ** Words *)

Lemma unknown_ret l : (forall a, In a l -> a = "" \/ ScanSpec.plain_word a) -> check_unknown_in l = Ret tt.
Proof.
  induction l as [|a l IH]; intros H; [reflexivity|]. cbn [check_unknown_in]. assert (Hl : check_unknown_in l = Ret tt) by (apply IH; intros; apply H; now right).
  destruct (H a (or_introl eq_refl)) as [->|[Hne [->|Hb]]]; [exact Hl|exact Hl|]. destruct a as [|c s]; [contradiction|].
  cbn [begins] in Hb. rewrite Ascii.eqb_sym in Hb. now rewrite Hb.
Qed.

Section words.
Variable ndebug : bool.

Definition shifts (x : addr) (v : val) (s s' : sst) : Prop := becomes x v (s_vars s) (s_vars s') /\ s_fs s' = s_fs s.

Lemma assign_ret x e w s s' : enum_ok e -> s_assign ndebug x (Scalar e) w s = (s', Ret tt) -> exists v, means e (s_vars s x) w v /\ shifts x v s s'.
Proof.
  intros Hok. unfold s_assign. cbn [parse_option_value]. destruct (parse_elem e (s_vars s x) w) as [v [| |]|ex] eqn:E; try discriminate.
  - intros [= <-]. exists v. split; [now apply parse_elem_means|]. split; [apply becomes_set|reflexivity].
  - apply elem_overflow in E as [Hn _]. cbn [is_arithmetic]. destruct e; try discriminate.
Qed.
Lemma assign_means x e w s v : enum_ok e -> means e (s_vars s x) w v -> exists s', s_assign ndebug x (Scalar e) w s = (s', Ret tt) /\ shifts x v s s'.
Proof.
  intros Hok Hm. apply parse_elem_means in Hm; [|exact Hok]. unfold s_assign. cbn [parse_option_value]. rewrite Hm. eexists. split; [reflexivity|].
  split; [apply becomes_set|reflexivity].
Qed.

Lemma assign_all_ret x e ws : enum_ok e -> forall s s' l, s_vars s x = VList l -> mapM_ (s_assign ndebug x (ListOf e)) ws s = (s', Ret tt) ->
  exists vals, elements ndebug e ws vals /\ shifts x (VList (l ++ vals)) s s'.
Proof.
  intros Hok. induction ws as [|w ws IH]; intros s s' l Hl H; cbn [mapM_] in H.
  - injection H as <-. exists []. rewrite app_nil_r. split; [constructor|]. repeat split; auto.
  - apply bind_inv in H as (s1 & [] & H1 & H). unfold s_assign in H1. cbn [parse_option_value] in H1. rewrite Hl in H1. cbn [elems] in H1.
    destruct (parse_elem e (default_val e) w) as [v [| |]|ex] eqn:E; try discriminate.
    + injection H1 as <-. apply (IH _ _ (l ++ [v])) in H as (vals & He & H5 & H2); [|apply becomes_set].
      exists (v :: vals). split; [apply elements_value; [now apply parse_elem_means|exact He]|]. rewrite <- app_assoc in H5. split; [|exact H2].
      eapply becomes_trans; [apply becomes_set|exact H5].
    + cbn [is_arithmetic] in H1. destruct ndebug eqn:En; [|discriminate]. injection H1 as <-. apply (IH _ _ l) in H as (vals & He & H5 & H2); [|apply becomes_set].
      exists vals. split; [apply elements_skipped; [reflexivity|now apply elem_overflow in E|exact He]|]. split; [|exact H2].
      eapply becomes_trans; [apply becomes_set|exact H5].
Qed.
Lemma assign_all_elements x e ws vals : enum_ok e -> elements ndebug e ws vals -> forall s l, s_vars s x = VList l ->
  exists s', mapM_ (s_assign ndebug x (ListOf e)) ws s = (s', Ret tt) /\ shifts x (VList (l ++ vals)) s s'.
Proof.
  intros Hok. induction 1 as [|w v ws vals Hm He IH|w ws vals Hn Ht He IH]; intros s l Hl; cbn [mapM_].
  - exists s. split; [reflexivity|]. rewrite app_nil_r. repeat split; auto.
  - unfold bind at 1. unfold s_assign at 1. cbn [parse_option_value]. rewrite Hl. cbn [elems]. apply parse_elem_means in Hm; [|exact Hok]. rewrite Hm.
    cbn [s_set modify]. match goal with |- context [mapM_ _ ws ?s1] => destruct (IH s1 (l ++ [v])) as (s' & E & H1 & H2); [apply becomes_set|] end.
    exists s'. split; [exact E|]. rewrite <- app_assoc in H1. split; [|exact H2]. eapply becomes_trans; [apply becomes_set|exact H1].
  - unfold bind at 1. unfold s_assign at 1. cbn [parse_option_value]. rewrite (too_large_overflow e _ _ Ht). unfold bind at 1. cbn [s_set modify is_arithmetic].
    match goal with |- context [if ndebug then ?a else ?b] => replace (if ndebug then a else b) with a by (now rewrite Hn) end. cbn [ret].
    match goal with |- context [mapM_ _ ws ?s1] => destruct (IH s1 l) as (s' & E & H1 & H2); [cbn; unfold set_var; now rewrite Nat.eqb_refl|] end.
    exists s'. split; [exact E|]. split; [|exact H2]. eapply becomes_trans; [apply becomes_set|exact H1].
Qed.

Lemma s_validate_ok v x s s' : s_validate v x s = (s', Ret tt) <-> v (s_fs s) (s_vars s x) = (s_fs s', VOk) /\ s' = {| s_vars := s_vars s; s_fs := s_fs s' |}.
Proof.
  unfold s_validate. destruct (v (s_fs s) (s_vars s x)) as [f' r] eqn:E. split.
  - intros H. injection H as <- Hr. destruct r; try discriminate. auto.
  - intros [H ->]. injection H as -> ->. reflexivity.
Qed.

Lemma words_ret ds : elems_ok ds -> forall ws s s', s_positionals ndebug ds ws s = (s', Ret tt) ->
  words_read ndebug ds ws (s_vars s) (s_fs s) (s_vars s') (s_fs s').
Proof.
  induction ds as [|d ds IH]; intros Hok ws s s' H; cbn [s_positionals] in H.
  - destruct ws; [|discriminate]. injection H as <-. now constructor.
  - pose proof (elems_ok_cons _ _ Hok) as Hok'. destruct d as [x t c|x c|x t c]; [constructor; [discriminate|auto]|constructor; [discriminate|auto]|].
    destruct ws as [|w ws]; [discriminate|]. assert (He : enum_ok (elem_ty t)) by (apply Hok; now left). destruct t as [e|e]; cbn [is_container elem_ty] in *.
    + apply bind_inv in H as (s1 & [] & H1 & H). apply bind_inv in H as (s2 & [] & H2 & H). apply assign_ret in H1 as (v & Hm & [Hb Hf]); [|exact He].
      apply s_validate_ok in H2 as [Hv E]. apply IH in H; [|exact Hok']. rewrite E in H. cbn [s_vars s_fs] in H.
      eapply words_one; eauto. now rewrite <- Hf, <- (proj1 Hb).
    + apply bind_inv in H as (s0 & [] & H0 & H). injection H0 as <-. apply bind_inv in H as (s1 & [] & H1 & H). apply bind_inv in H as (s2 & [] & H2 & H).
      apply (assign_all_ret x e (w :: ws) He _ _ []) in H1 as (vals & Hm & [Hb Hf]); [|apply becomes_set]. cbn [app] in Hb.
      apply s_validate_ok in H2 as [Hv E]. apply IH in H; [|exact Hok']. rewrite E in H. cbn [s_vars s_fs] in H. rewrite Hf, (proj1 Hb) in Hv. cbn [s_fs] in Hv.
      eapply words_list; eauto; [discriminate|]. eapply becomes_trans; [apply becomes_set|exact Hb].
Qed.

Lemma words_do ds ws vs f vs' f' : words_read ndebug ds ws vs f vs' f' -> elems_ok ds -> forall s, (forall y, s_vars s y = vs y) -> s_fs s = f ->
  exists s', s_positionals ndebug ds ws s = (s', Ret tt) /\ (forall y, s_vars s' y = vs' y) /\ s_fs s' = f'.
Proof.
  assert (Same : forall x v a b a' b', becomes x v a b -> becomes x v a' b' -> (forall y : addr, a y = a' y) -> forall y, b y = b' y).
  { intros x v a b a' b' [H1 H2] [H3 H4] H y. destruct (Nat.eq_dec y x) as [->|Hy]; [congruence|]. now rewrite H2, H4. }
  induction 1 as [vs vs' f He|d ds ws vs f vs' f' Hd H IH|x e c ds w ws vs f v vs1 f1 vs' f' Hm Hb Hv H IH|x e c ds ws vals vs f vs1 f1 vs' f' Hne Hm Hb Hv H IH];
    intros Hok s Hs Hf; cbn [s_positionals].
  - exists s. repeat split; auto. intros y. now rewrite Hs, He.
  - pose proof (elems_ok_cons _ _ Hok) as Hok'. destruct d; [apply IH; auto|apply IH; auto|exfalso; eapply Hd; reflexivity].
  - cbn [is_container]. assert (He : enum_ok e) by (apply (Hok (Scalar e)); now left). rewrite <- Hs in Hm.
    destruct (assign_means x e w s v He Hm) as (s1 & E1 & B1 & F1). unfold bind. rewrite E1.
    assert (E2 : s_validate (c_validator c) x s1 = ({| s_vars := s_vars s1; s_fs := f1 |}, Ret tt)) by (apply s_validate_ok; rewrite F1, Hf, (proj1 B1); auto).
    rewrite E2. apply IH; [eapply elems_ok_cons; eauto| |reflexivity]. cbn [s_vars]. eapply Same; eauto.
  - cbn [is_container]. destruct ws as [|w ws]; [contradiction|]. assert (He : enum_ok e) by (apply (Hok (ListOf e)); now left).
    unfold bind. cbn [s_set modify]. match goal with |- context [mapM_ _ (w :: ws) ?s0] => destruct (assign_all_elements x e (w :: ws) vals He Hm s0 []) as (s1 & E1 & B1 & F1); [apply becomes_set|] end.
    rewrite E1. cbn [app] in B1.
    assert (E2 : s_validate (c_validator c) x s1 = ({| s_vars := s_vars s1; s_fs := f1 |}, Ret tt)) by (apply s_validate_ok; rewrite F1, (proj1 B1); cbn [s_fs]; rewrite Hf; auto).
    rewrite E2. apply IH; [eapply elems_ok_cons; eauto| |reflexivity]. cbn [s_vars]. eapply Same; [|exact Hb|exact Hs]. eapply becomes_trans; [apply becomes_set|exact B1].
Qed.

(** ** The whole vector *)

Lemma filter_nonempty l : filter nonempty l = filter (fun a => negb (is_empty a)) l.
Proof. reflexivity. Qed.

Lemma wf_flags_ok decls : wf_decls decls = true -> flags_ok decls.
Proof.
  intros H x c Hx. destruct (Ascii.eqb_spec (c_short c) nul) as [E|E]; [rewrite E; discriminate|].
  apply (good_flags_nodash decls H). apply in_flat_map. exists (DFlag x c). split; [exact Hx|]. cbn [flag_idents]. unfold config_idents.
  apply Ascii.eqb_neq in E. rewrite E. apply in_app_iff. left. now left.
Qed.

Lemma meaning_lemma decls args vs f vs' f' : wf_decls decls = true -> elems_ok decls ->
  understood ndebug decls args vs f vs' f' <->
  exists st', parse_args ndebug decls args vs f = (st', Ret tt) /\ (forall y, vars st' y = vs' y) /\ fsys st' = f'.
Proof.
  intros Hwf Hok. assert (Hl : list_last (pos_types decls) = true) by (unfold wf_decls in Hwf; now apply andb_true_iff in Hwf as [_ Hwf]).
  pose proof (wf_flags_ok _ Hwf) as Hfl. split.
  - intros (b & r & b1 & vs1 & f1 & b2 & r2 & vs2 & Hc & Ho & Hf & Hu & Hw).
    destruct (options_do ndebug _ _ _ _ _ _ _ Ho Hok {| pre := b; post := r; vars := vs; count := 0; fsys := f |}) as (s1 & E1 & A1 & A2 & A3 & A4 & A5); try reflexivity.
    destruct (flags_do _ _ _ _ _ _ _ Hf Hfl s1 A1 A4 A2) as (s2 & E2 & B1 & B2 & B3 & B4 & B5).
    assert (Ef : front ndebug decls {| pre := b; post := r; vars := vs; count := 0; fsys := f |} = (s2, Ret tt)).
    { unfold front, bind. rewrite E1, E2. unfold check_for_unknown_ids. rewrite unknown_ret; [reflexivity|]. now rewrite B1. }
    destruct (parse_split ndebug decls args b r vs f Hl Hc) as [(st1 & q & E & Hq & _)|(st1 & E & V1 & V2 & V3)].
    + rewrite Ef in E. injection E as _ <-. contradiction.
    + rewrite Ef in E. injection E as <-. rewrite B1, B2, filter_nonempty in V1, V2, V3.
      destruct (words_do _ _ _ _ _ _ Hw Hok (abs s2)) as (s' & E3 & C1 & C2); [exact B3|cbn; congruence|]. rewrite E3 in V1, V2, V3.
      destruct (parse_args ndebug decls args vs f) as [st' q]. cbn [fst snd] in *. exists st'. split; [|split; [intros y; rewrite V1; apply C1|congruence]].
      f_equal. destruct q as [[]|[]|?| | |]; try discriminate. reflexivity.
  - intros (st' & E & Hv & Hf). destruct (cut_exists args) as (b & r & Hc).
    destruct (parse_split ndebug decls args b r vs f Hl Hc) as [(st1 & q & _ & Hq & E')|(st1 & Ef & V1 & V2 & V3)]; [rewrite E in E'; injection E' as _ <-; contradiction|].
    rewrite E in V1, V2, V3. cbn [fst snd okind_of] in V1, V2, V3.
    match type of V1 with _ = s_vars (fst ?e) => destruct e as [s' q] eqn:Es end. cbn [fst snd] in *. destruct q as [[]|[]|?| | |]; try discriminate V3.
    unfold front in Ef. apply bind_inv_p in Ef as (s1 & [] & H1 & Ef). apply bind_inv_p in Ef as (s2 & [] & H2 & Ef). unfold check_for_unknown_ids in Ef.
    injection Ef as <- Hu. apply options_ret in H1 as (O1 & O2 & O3); [|exact Hok]. apply flags_ret in H2 as (F1 & F2 & F3); [|exact Hfl]. cbn [pre post vars fsys] in *.
    apply words_ret in Es; [|exact Hok]. cbn [abs s_vars s_fs] in Es. rewrite O2 in F1. 
    exists b, r, (pre s1), (vars s1), (fsys s1), (pre s2), (post s2), (vars s2). split; [exact Hc|]. split; [exact O1|]. split; [exact F1|].
    split; [now apply check_unknown_ret|]. rewrite <- filter_nonempty, <- F2.
    assert (Ext : forall vs1 vs2 f1 f2, (forall y, vs1 y = vs2 y) -> f1 = f2 -> forall ds ws a g, words_read ndebug ds ws a g vs1 f1 -> words_read ndebug ds ws a g vs2 f2).
    { clear. intros vs1 vs2 f1 f2 H <- ds ws a g W. induction W; [constructor; intros y; rewrite <- H; auto|constructor; auto|eapply words_one; eauto|eapply words_list; eauto]. }
    eapply Ext; [| |exact Es]; [intros y; rewrite <- V1; apply Hv|congruence].
Qed.

Lemma unique_lemma decls args vs f vs1 f1 vs2 f2 : wf_decls decls = true -> elems_ok decls ->
  understood ndebug decls args vs f vs1 f1 -> understood ndebug decls args vs f vs2 f2 -> (forall y, vs1 y = vs2 y) /\ f1 = f2.
Proof.
  intros Hwf Hok H1 H2. apply meaning_lemma in H1 as (s1 & E1 & V1 & F1); auto. apply meaning_lemma in H2 as (s2 & E2 & V2 & F2); auto.
  rewrite E1 in E2. injection E2 as <-. split; [|congruence]. intros y. now rewrite <- V1.
Qed.

Lemma refused_lemma decls args vs f : wf_decls decls = true -> elems_ok decls ->
  (forall vs' f', ~ understood ndebug decls args vs f vs' f') <-> snd (parse_args ndebug decls args vs f) <> Ret tt.
Proof.
  intros Hwf Hok. split.
  - intros H E. destruct (parse_args ndebug decls args vs f) as [st q] eqn:Ep. cbn in E. subst q. apply (H (vars st) (fsys st)). apply meaning_lemma; auto. exists st. auto.
  - intros H vs' f' U. apply meaning_lemma in U as (st & E & _); auto. rewrite E in H. now apply H.
Qed.
End words.
