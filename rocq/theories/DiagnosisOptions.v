(** Every error found while the options are processed is justified. *)
From Verif Require Import Base StrLib Fs Values Validators FormatParse Invocation InvocationProofs InvocationEffects ValuesSpec ValuesProofs
  ScanSpec ScanProofs ScanFlags ScanOutcomes ValuesRun DiagnosisSpec.
From Coq Require Import Permutation Sorted.

(** ** Arguments used up by options, with the reason

    Like [eaten], but an argument that is used up as the value of an option follows a name that is
    used up as well.  [p], [p']: the argument before the list, then and now. *)
Inductive taken (ids : list ident) : string -> string -> list string -> list string -> Prop :=
| taken_nil p p' : taken ids p p' [] []
| taken_cons p p' a a' l l' :
    a' = a \/ (a' = "" /\ exists i, In i ids /\ (looks_like i a = true \/ (p = dashed i /\ p' = ""))) ->
    taken ids a a' l l' -> taken ids p p' (a :: l) (a' :: l').

Lemma taken_refl ids l : forall p p', taken ids p p' l l.
Proof. induction l as [|a l IH]; intros p p'; constructor; auto. Qed.

Lemma taken_eaten ids p p' l l' : taken ids p p' l l' -> eaten ids p l l'.
Proof.
  induction 1 as [|p p' a a' l l' Ha _ IH]; constructor; [|exact IH].
  destruct Ha as [->|(-> & i & Hi & [H|[H _]])]; [now left|right..]; (split; [reflexivity|]); exists i; auto.
Qed.

Lemma taken_trans ids l : forall p p' p'' l' l'', taken ids p p' l l' -> p' = p \/ p' = "" -> p'' = p' \/ p'' = "" ->
  taken ids p' p'' l' l'' -> taken ids p p'' l l''.
Proof.
  induction l as [|a l IH]; intros p p' p'' l' l'' H1 Hp Hp' H2; inversion H1 as [|? ? ? a' ? m Ha Hl]; subst; inversion H2 as [|? ? ? a'' ? m' Ha' Hl']; subst; constructor.
  - destruct Ha as [->|(-> & i & Hi & Hr)].
    + destruct Ha' as [->|(-> & i & Hi & [Hr|[Hr Hr']])]; [now left|right..]; (split; [reflexivity|]); exists i; (split; [exact Hi|]); [now left|right].
      split; [|exact Hr']. destruct Hp as [<-|Hp]; [exact Hr|]. exfalso. apply (dashed_nonempty i). congruence.
    + right. split; [destruct Ha' as [->|[-> _]]; reflexivity|]. exists i. split; [exact Hi|].
      destruct Hr as [Hr|[Hr Hr']]; [now left|right]. split; [exact Hr|]. destruct Hp' as [->| ->]; auto.
  - eapply IH; [exact Hl| | |exact Hl'].
    + destruct Ha as [->|[-> _]]; auto.
    + destruct Ha' as [->|[-> _]]; auto.
Qed.

Lemma taken_mono ids ids' p p' l l' : incl ids ids' -> taken ids p p' l l' -> taken ids' p p' l l'.
Proof.
  intros Hi H. induction H as [|p p' a a' l l' Ha Hl IH]; constructor; [|exact IH].
  destruct Ha as [->|(-> & i & H1 & H2)]; [now left|right]. split; [reflexivity|]. exists i. auto.
Qed.

Lemma taken_app ids b l l' : forall p p', (forall q q', taken ids q q' l l') -> taken ids p p' (b ++ l) (b ++ l').
Proof. induction b as [|x b IH]; intros p p' H; cbn; [apply H|]. constructor; auto. Qed.

(** an argument that is still there was there *)
Lemma taken_split ids m : forall p p' l a n, taken ids p p' l (m ++ a :: n) -> a <> "" ->
  exists l1 l2, l = l1 ++ a :: l2 /\ List.length l1 = List.length m /\ taken ids a a l2 n.
Proof.
  induction m as [|x m IH]; intros p p' l a n H Ha; cbn in H; inversion H as [|? ? y y' l0 l0' Hy Hl]; subst.
  - destruct Hy as [->|[-> _]]; [|contradiction]. exists [], l0. auto.
  - destruct (IH _ _ _ _ _ Hl Ha) as (l1 & l2 & -> & Hlen & Ht). exists (y :: l1), l2. cbn. auto.
Qed.

Lemma taken_two ids p p' l m a n a2 o : taken ids p p' l (m ++ a :: n ++ a2 :: o) -> a <> "" -> a2 <> "" ->
  exists l1 l2 l3, l = l1 ++ a :: l2 ++ a2 :: l3.
Proof.
  intros H Ha Ha2. destruct (taken_split _ _ _ _ _ _ _ H Ha) as (l1 & l2 & -> & _ & H2).
  destruct (taken_split _ _ _ _ _ _ _ H2 Ha2) as (l3 & l4 & -> & _ & _). eauto.
Qed.

(** an argument is still there, or there is a reason *)
Lemma taken_at ids p0 p0' m : forall p l a n, taken ids p p0' (m ++ a :: n) l -> p = p0 ->
  exists l1 a' l2, l = l1 ++ a' :: l2 /\
    (a' = a \/ (a' = "" /\ exists i, In i ids /\ (looks_like i a = true \/ (exists m', m = m' ++ [dashed i]) \/ (m = [] /\ p0 = dashed i)))).
Proof.
  revert p0 p0'. induction m as [|x m IH]; intros p0 p0' p l a n H ->; cbn in H; inversion H as [|? ? y y' l0 l0' Hy Hl]; subst.
  - exists [], y', l0'. split; [reflexivity|]. destruct Hy as [->|(-> & i & Hi & [Hr|[Hr _]])]; [now left|right..]; (split; [reflexivity|]); exists i; auto.
  - destruct (IH x y' x _ _ _ Hl eq_refl) as (l1 & a' & l2 & -> & Hr). exists (y' :: l1), a', l2. split; [reflexivity|].
    destruct Hr as [->|(-> & i & Hi & Hr)]; [now left|right]. split; [reflexivity|]. exists i. split; [exact Hi|].
    destruct Hr as [Hr|[[m' ->]|[-> ->]]]; [now left|right; left..].
    + exists (x :: m'). reflexivity.
    + exists []. reflexivity.
Qed.

Lemma looks_like_nonempty i a : looks_like i a = true -> a <> "".
Proof. intros H ->. now rewrite looks_like_empty in H. Qed.

(** an argument that mentions an option and is no longer than its name is the name *)
Lemma looks_like_short i a : looks_like i a = true -> String.length a <= String.length (dashed i) -> a = dashed i.
Proof.
  intros Ha Hl. destruct i as [c|s]; cbn [looks_like] in Ha.
  - apply prefix_iff in Ha as [u ->]. rewrite length_app_s in Hl. destruct u; [apply app_nil_r_s|cbn in Hl; lia].
  - apply orb_true_iff in Ha as [Ha|Ha]; [now apply String.eqb_eq in Ha|].
    apply prefix_iff in Ha as [u ->]. rewrite !length_app_s in Hl. cbn in Hl. lia.
Qed.

Lemma looks_like_prefix i a : looks_like i a = true -> exists u, a = dashed i +s+ u /\ (u = "" \/ begins "=" u = true \/ exists c, i = IdShort c).
Proof.
  destruct i as [c|s]; cbn [looks_like]; intros Ha.
  - apply prefix_iff in Ha as [u ->]. exists u. eauto.
  - apply orb_true_iff in Ha as [Ha|Ha].
    + apply String.eqb_eq in Ha as ->. exists "". rewrite app_nil_r_s. auto.
    + apply prefix_iff in Ha as [u ->]. exists ("=" +s+ u). rewrite app_assoc_s. auto.
Qed.

Lemma snth_app_len s u : snth (String.length s) (s +s+ u) = snth 0 u.
Proof. induction s as [|c s IH]; [reflexivity|exact IH]. Qed.
Lemma sdrop_one_more n s : sdrop (n + 1) s = sdrop 1 (sdrop n s).
Proof. revert s; induction n as [|n IH]; intros s; [reflexivity|]. destruct s as [|c s]; [reflexivity|apply IH]. Qed.

Section diagnosis.
Variable ndebug : bool.

Lemma retrieve_shape i x t b a r st st' b' r' : looks_like i a = true ->
  retrieve ndebug i x t b a r st = (st', Ret (b', r')) ->
  (b' ++ r' = b ++ "" :: r /\ r' = "" :: r) \/ (a = dashed i /\ exists v r1, r = v :: r1 /\ b' ++ r' = b ++ "" :: "" :: r1 /\ r' = "" :: r1).
Proof.
  intros Ha. unfold retrieve.
  assert (K : forall name w p, (store_value ndebug x t name w ;; ret p) st = (st', Ret (b', r')) -> p = (b', r')).
  { intros name w p. unfold bind. destruct (store_value ndebug x t name w st) as [? []]; try discriminate. now intros [= _ ->]. }
  destruct (Nat.ltb_spec (String.length (prepend_dash i)) (String.length a)) as [Hl|Hl].
  - destruct (match snth _ _ with Some _ => _ | None => _ end); [destruct (_ =? _)%nat; [discriminate|]|];
      intros H; apply K in H; injection H as <- <-; now left.
  - destruct r as [|v r]; [discriminate|]. intros H; apply K in H; injection H as <- <-. right.
    rewrite prepend_dash_dashed in Hl. split; [now apply looks_like_short|]. exists v, r. rewrite <- app_assoc. auto.
Qed.

Lemma retrieve_taken i x t b a r st st' b' r' p p' : looks_like i a = true ->
  retrieve ndebug i x t b a r st = (st', Ret (b', r')) -> taken [i] p p' (b ++ a :: r) (b' ++ r').
Proof.
  intros Ha H. destruct (retrieve_shape _ _ _ _ _ _ _ _ _ _ Ha H) as [[-> _]|(-> & v & r1 & -> & -> & _)]; apply taken_app; intros q q'.
  - constructor; [|apply taken_refl]. right. split; [reflexivity|]. exists i. split; [now left|now left].
  - constructor; [right; split; [reflexivity|]; exists i; split; [now left|now left]|].
    constructor; [|apply taken_refl]. right. split; [reflexivity|]. exists i. split; [now left|right; auto].
Qed.

(** ** Why an occurrence of an option is rejected *)

(** storing the text failed *)
Definition store_fails (t : vty) (name w : string) (e : exn) : Prop :=
  exists x st st', store_value ndebug x t name w st = (st', Throw e).

(** as [hands], with the options seen so far *)
Definition handed (ids : list ident) (b : list string) (i : ident) (w : string) : Prop :=
  (w <> "" /\ begins "=" w = false /\ (exists c, i = IdShort c) /\ In (dashed i +s+ w) b) \/
  (w <> "" /\ In (dashed i +s+ "=" +s+ w) b) \/
  (exists p q, b = p ++ dashed i :: w :: q) \/
  (exists p v q j, b = p ++ dashed i :: v :: q /\ In j ids /\ looks_like j v = true /\ w = "").

Definition bad_occurrence (ids : list ident) (b : list string) (i : ident) (t : vty) (e : exn) : Prop :=
  (lacks_value i b /\ e = Exn KTooFew ("Missing value for option " +s+ dashed i)) \/
  (exists w, handed ids b i w /\ store_fails t (dashed i) w e).

Lemma retrieve_throw ids b0 i x t b a r st st' e p p' : looks_like i a = true -> taken ids p p' b0 (b ++ a :: r) ->
  retrieve ndebug i x t b a r st = (st', Throw e) -> bad_occurrence ids b0 i t e.
Proof.
  intros Ha Ht. pose proof (looks_like_nonempty _ _ Ha) as Hne.
  destruct (taken_split _ _ _ _ _ _ _ Ht Hne) as (l1 & l2 & -> & _ & Ht2).
  assert (Hin : In a (l1 ++ a :: l2)) by (rewrite in_app_iff; right; now left).
  unfold retrieve. rewrite prepend_dash_dashed.
  assert (K : forall w q, (store_value ndebug x t (dashed i) w ;; ret q : M pst (list string * list string)) st = (st', Throw e) -> store_fails t (dashed i) w e).
  { intros w q. unfold bind. destruct (store_value ndebug x t (dashed i) w st) as [s1 []] eqn:E; try discriminate. intros [= <- <-]. exists x, st, s1. exact E. }
  destruct (Nat.ltb_spec (String.length (dashed i)) (String.length a)) as [Hl|Hl].
  - destruct (looks_like_prefix _ _ Ha) as (u & -> & Hu). rewrite length_app_s in *. rewrite snth_app_len.
    destruct u as [|d u]; [cbn in Hl; lia|]. cbn [snth String.get]. destruct (Ascii.eqb_spec d "=") as [->|Hd].
    + destruct (Nat.eqb_spec (String.length (dashed i) + String.length (String "=" u)) (String.length (dashed i) + 1)) as [E|E].
      * destruct u; [|cbn in E; lia]. intros [= _ <-]. left. split; [now left|reflexivity].
      * rewrite sdrop_one_more, sdrop_app. cbn [sdrop]. intros H. right. exists u. split; [|eapply K; exact H].
        right. left. split; [intros ->; cbn in E; lia|exact Hin].
    + rewrite sdrop_app. intros H. right. exists (String d u). split; [|eapply K; exact H]. left.
      split; [discriminate|]. assert (Hb : begins "=" (String d u) = false) by (cbn; apply Ascii.eqb_neq; congruence).
      split; [exact Hb|]. split; [|exact Hin]. destruct Hu as [Hu|[Hu|Hu]]; [discriminate|congruence|exact Hu].
  - apply looks_like_short in Ha as ->; [|exact Hl]. destruct r as [|v r].
    + intros [= _ <-]. left. inversion Ht2; subst. split; [|reflexivity]. right. exists l1. reflexivity.
    + intros H. right. exists v. split; [|eapply K; exact H]. inversion Ht2 as [|? ? v0 ? l0 ? Hv _]; subst.
      destruct Hv as [->|(-> & j & Hj & [Hr|[_ Hr]])].
      * right. right. left. eauto.
      * right. right. right. exists l1, v0, l0, j. auto.
      * exfalso. exact (dashed_nonempty i Hr).
Qed.

Lemma get_all_throw ids b0 i x t : In i ids -> forall fuel done rest st st' e, taken ids "" "" b0 (done ++ rest) ->
  get_all ndebug fuel i x t done rest st = (st', Throw e) -> bad_occurrence ids b0 i t e.
Proof.
  intros Hi. induction fuel as [|fuel IH]; intros done rest st st' e Ht; cbn [get_all].
  - destruct (find_option_id i rest) as [[[b a] r]|]; discriminate.
  - destruct (find_option_id i rest) as [[[b a] r]|] eqn:E; [|discriminate].
    destruct (find_some _ _ _ _ _ E) as (-> & Ha & _). unfold bind.
    destruct (retrieve ndebug i x t (done ++ b) a r st) as [s1 q] eqn:Er. destruct q as [[b' r']|e1|o| | |]; try discriminate.
    + cbn [fst snd]. apply IH. eapply taken_trans; [exact Ht|now left|now left|].
      eapply taken_mono; [|rewrite app_assoc; eapply retrieve_taken; [exact Ha|exact Er]]. intros j [<-|[]]. exact Hi.
    + intros [= <- <-]. eapply retrieve_throw; [exact Ha| |exact Er]. rewrite <- app_assoc. exact Ht.
Qed.

Lemma find_nonempty i l b a r : find_option_id i l = Some (b, a, r) -> a <> "".
Proof. intros H. apply find_some in H as (_ & H & _). eapply looks_like_nonempty; exact H. Qed.

Lemma get_by_id_throw ids b0 i x t st st' e : In i ids -> taken ids "" "" b0 (pre st) -> get_by_id ndebug i x t st = (st', Throw e) ->
  bad_occurrence ids b0 i t e \/
  (is_container t = false /\ set_twice i i b0 /\ e = Exn KMultiple ("Option " +s+ dashed i +s+ " is no list/container but declared multiple times.")).
Proof.
  intros Hi Ht. unfold get_by_id. destruct (is_container t).
  - unfold get_by_id_list. destruct (find_option_id i (pre st)) as [[[b a] r]|]; [|discriminate].
    unfold bind at 1. cbn [modify]. unfold bind at 1.
    match goal with |- context [get_all ndebug ?n i x t [] ?l ?s] => destruct (get_all ndebug n i x t [] l s) as [s1 q] eqn:E end.
    destruct q; try discriminate. intros [= <- <-]. left. eapply get_all_throw; [exact Hi| |exact E]. exact Ht.
  - unfold get_by_id_scalar. destruct (find_option_id i (pre st)) as [[[b a] r]|] eqn:Ef; [|discriminate].
    destruct (find_some _ _ _ _ _ Ef) as (Hpre & Ha & _). unfold bind at 1.
    destruct (retrieve ndebug i x t b a r st) as [s1 q] eqn:Er. destruct q as [[b' r']|e1|o| | |]; try discriminate.
    + unfold bind. cbn [modify fst snd]. destruct (find_option_id i r') as [[[m a2] n]|] eqn:E2; [|discriminate].
      intros [= _ <-]. right. split; [reflexivity|]. split; [|now rewrite prepend_dash_dashed].
      destruct (find_some _ _ _ _ _ E2) as (Hr' & Ha2 & _).
      assert (H : exists q o, r = q ++ a2 :: o).
      { assert (K : forall r0, r' = "" :: r0 -> exists q o, r0 = q ++ a2 :: o).
        { intros r0 E0. rewrite E0 in Hr'. destruct m as [|y m]; cbn in Hr'.
          - injection Hr' as <- _. now rewrite looks_like_empty in Ha2.
          - injection Hr' as _ ->. eauto. }
        destruct (retrieve_shape _ _ _ _ _ _ _ _ _ _ Ha Er) as [[_ E0]|(_ & v & r1 & -> & _ & E0)]; destruct (K _ E0) as (q0 & o0 & Hq).
        - eauto.
        - exists (v :: q0), o0. now rewrite Hq. }
      destruct H as (q & o & ->). rewrite Hpre in Ht.
      destruct (taken_two _ _ _ _ _ _ _ _ _ Ht) as (l1 & l2 & l3 & ->); [eapply looks_like_nonempty; eauto..|].
      exists l1, a, l2, a2, l3. auto.
    + intros [= <- <-]. left. eapply retrieve_throw; [exact Ha| |exact Er]. rewrite <- Hpre. exact Ht.
Qed.

(** ** After an identifier has been processed *)

Lemma split_first_app p b l : forallb (fun x => negb (p x)) b = true -> split_first p (b ++ l) =
  match split_first p l with Some (b', e, r) => Some (b ++ b', e, r) | None => None end.
Proof.
  induction b as [|a b IH]; cbn; [intros _; now destruct (split_first p l) as [[[? ?] ?]|]|].
  intros H. apply andb_true_iff in H as [Ha Hb]. apply negb_true_iff in Ha. rewrite Ha, IH by exact Hb.
  now destruct (split_first p l) as [[[? ?] ?]|].
Qed.

Lemma find_some_before i l b a r : find_option_id i l = Some (b, a, r) -> forall y, In y b -> looks_like i y = false.
Proof.
  unfold find_option_id. destruct (is_empty_id i); [discriminate|]. intros H y Hy. apply split_first_some in H as (_ & _ & H).
  rewrite forallb_forall in H. specialize (H y Hy). rewrite arg_matches_looks_like in H. now apply negb_true_iff in H.
Qed.
Lemma find_none_all i l : is_empty_id i = false -> find_option_id i l = None -> forall y, In y l -> looks_like i y = false.
Proof.
  unfold find_option_id. intros -> H y Hy. rewrite <- arg_matches_looks_like. eapply split_first_none_inv; eauto.
Qed.

Definition clear_of (i : ident) (l : list string) : Prop := is_empty_id i = false -> forall y, In y l -> looks_like i y = false.

Lemma clear_taken ids p p' l l' i : taken ids p p' l l' -> clear_of i l -> clear_of i l'.
Proof.
  intros H Hc He y Hy. destruct (eaten_In _ _ _ _ _ (taken_eaten _ _ _ _ _ H) Hy) as [->|Hin]; [apply looks_like_empty|now apply Hc].
Qed.

Lemma get_all_ret i x t : forall fuel done rest st st', (forall y, In y done -> looks_like i y = false) ->
  get_all ndebug fuel i x t done rest st = (st', Ret tt) ->
  taken [i] "" "" (done ++ rest) (pre st') /\ clear_of i (pre st').
Proof.
  induction fuel as [|fuel IH]; intros done rest st st' Hd; cbn [get_all].
  - destruct (find_option_id i rest) as [[[b a] r]|] eqn:E; [discriminate|]. intros [= <-]. split; [apply taken_refl|].
    intros He y. cbn [pre set_pre]. rewrite in_app_iff. intros [Hy|Hy]; [auto|]. eapply find_none_all; eauto.
  - destruct (find_option_id i rest) as [[[b a] r]|] eqn:E.
    2:{ intros [= <-]. split; [apply taken_refl|]. intros He y. cbn [pre set_pre]. rewrite in_app_iff. intros [Hy|Hy]; [auto|]. eapply find_none_all; eauto. }
    destruct (find_some _ _ _ _ _ E) as (-> & Ha & He). intros H. apply bind_inv_p in H as (s1 & [b' r'] & H1 & H). cbn [fst snd] in H.
    pose proof (retrieve_taken _ _ _ _ _ _ _ _ _ _ "" "" Ha H1) as Ht. rewrite <- app_assoc in Ht.
    apply IH in H as [H2 H3].
    + split; [|exact H3]. eapply taken_trans; [exact Ht|now left|now left|exact H2].
    + assert (Hb : forall y, In y (done ++ b) -> looks_like i y = false).
      { intros y. rewrite in_app_iff. intros [Hy|Hy]; [auto|]. eapply find_some_before; eauto. }
      intros y Hy.
      assert (Hb' : b' = done ++ b \/ b' = (done ++ b) ++ [""]).
      { destruct (retrieve_shape _ _ _ _ _ _ _ _ _ _ Ha H1) as [[E0 ->]|(_ & v & r1 & -> & E0 & ->)].
        - left. now apply app_inv_tail in E0.
        - right. rewrite <- (app_inv_tail ("" :: r1) b' ((done ++ b) ++ [""])); [reflexivity|]. now rewrite <- app_assoc. }
      destruct Hb' as [->| ->]; [auto|]. apply in_app_iff in Hy as [Hy|[<-|[]]]; [auto|apply looks_like_empty].
Qed.

Lemma get_by_id_ret i x t st st' s : get_by_id ndebug i x t st = (st', Ret s) ->
  taken [i] "" "" (pre st) (pre st') /\ clear_of i (pre st') /\
  (s = false -> st' = st) /\
  (s = true -> is_empty_id i = false /\ exists p a q, pre st = p ++ a :: q /\ looks_like i a = true /\
     (is_container t = false -> exists q', pre st' = p ++ "" :: q' /\ forall y, In y q' -> y = "" \/ In y q)).
Proof.
  unfold get_by_id. destruct (is_container t).
  - unfold get_by_id_list. destruct (find_option_id i (pre st)) as [[[b a] r]|] eqn:Ef.
    + intros H. apply bind_inv_p in H as (s1 & [] & H1 & H). injection H1 as <-. apply bind_inv_p in H as (s2 & [] & H2 & H). injection H as <- <-.
      apply get_all_ret in H2 as [H2 H3]; [|intros y []]. split; [exact H2|]. split; [exact H3|]. split; [discriminate|intros _].
      destruct (find_some _ _ _ _ _ Ef) as (Hp & Ha & He). split; [exact He|]. exists b, a, r. split; [exact Hp|]. split; [exact Ha|]. discriminate.
    + intros [= <- <-]. split; [apply taken_refl|]. split; [|split; [auto|discriminate]].
      intros He. now apply find_none_all.
  - unfold get_by_id_scalar. destruct (find_option_id i (pre st)) as [[[b a] r]|] eqn:Ef.
    + destruct (find_some _ _ _ _ _ Ef) as (Hpre & Ha & He).
      intros H. apply bind_inv_p in H as (s1 & [b' r'] & H1 & H). apply bind_inv_p in H as (s2 & [] & H2 & H). injection H2 as <-. cbn [fst snd] in H.
      destruct (find_option_id i r') as [[[? ?] ?]|] eqn:E2; [discriminate|]. injection H as <- <-. cbn [pre set_pre].
      split; [rewrite Hpre; eapply retrieve_taken; eauto|].
      destruct (retrieve_shape _ _ _ _ _ _ _ _ _ _ Ha H1) as [[E0 ->]|(_ & v & r1 & -> & E0 & ->)]; rewrite E0.
      * split; [|split; [discriminate|]].
        -- intros _ y. rewrite in_app_iff. intros [Hy|[<-|Hy]]; [eapply find_some_before; eauto|apply looks_like_empty|].
           eapply find_none_all; [exact He|exact E2|]. now right.
        -- intros _. split; [exact He|]. exists b, a, r. split; [exact Hpre|]. split; [exact Ha|]. intros _. exists r. auto.
      * split; [|split; [discriminate|]].
        -- intros _ y. rewrite in_app_iff. intros [Hy|[<-|[<-|Hy]]]; [eapply find_some_before; eauto|apply looks_like_empty..|].
           eapply find_none_all; [exact He|exact E2|]. now right.
        -- intros _. split; [exact He|]. exists b, a, (v :: r1). split; [exact Hpre|]. split; [exact Ha|]. intros _.
           exists ("" :: r1). split; [reflexivity|]. intros y [<-|Hy]; [now left|right; now right].
    + intros [= <- <-]. split; [apply taken_refl|]. split; [|split; [auto|discriminate]]. intros He. now apply find_none_all.
Qed.

(** ** One option *)

Definition idents_of (c : config) : list ident := [IdShort (c_short c); IdLong (c_long c)].
Lemma idents_of_In c i : In i (idents_of c) -> is_empty_id i = false -> In i (config_idents c).
Proof.
  intros [<-|[<-|[]]] He; apply config_idents_In; [left|right]; (split; [reflexivity|]).
  - intros E. cbn in He. rewrite E, Ascii.eqb_refl in He. discriminate.
  - intros E. cbn in He. now rewrite E in He.
Qed.

Lemma empty_not_found i x t st : is_empty_id i = true -> get_by_id ndebug i x t st = (st, Ret false).
Proof. intros H. apply get_by_id_unmentioned. unfold find_option_id. now rewrite H. Qed.

(** [ids]: the options before; [b0]: the arguments before "--" *)
Definition bad_option (earlier : list decl) (b0 : list string) (t : vty) (c : config) (e : exn) : Prop :=
  (exists i, In i (config_idents c) /\ bad_occurrence (flat_map option_idents earlier ++ config_idents c) b0 i t e) \/
  (is_container t = false /\
     ((exists i, In i (config_idents c) /\ set_twice i i b0 /\ e = Exn KMultiple ("Option " +s+ dashed i +s+ " is no list/container but declared multiple times.")) \/
      (exists i j, config_idents c = [i; j] /\ set_twice i j b0 /\ e = Exn KMultiple ("Option " +s+ shown_names c +s+ " is no list/container but specified multiple times")))) \/
  (c_required c = true /\ never_set earlier c b0 /\ e = Exn KRequiredMissing ("Option " +s+ shown_names c +s+ " is required but not set.")) \/
  ekind e = KValidation.

Lemma get_option_throw earlier b0 x t c st st' e : config_idents c <> [] -> taken (flat_map option_idents earlier) "" "" b0 (pre st) ->
  get_option ndebug x t c st = (st', Throw e) -> bad_option earlier b0 t c e.
Proof.
  intros Hc Ht. set (ids := flat_map option_idents earlier) in *.
  assert (Hids : incl ids (ids ++ config_idents c)) by apply incl_appl, incl_refl.
  assert (Hnames : shown_names c = combine_option_names (c_short c) (c_long c)).
  { apply shown_names_eq. unfold config_idents in Hc. cbn [is_empty_id]. destruct (Ascii.eqb (c_short c) nul); [|now left].
    destruct (is_empty (c_long c)); [now contradict Hc|now right]. }
  (* an identifier that throws *)
  assert (G : forall i st0 st1, In i (idents_of c) -> taken (ids ++ config_idents c) "" "" b0 (pre st0) -> get_by_id ndebug i x t st0 = (st1, Throw e) -> bad_option earlier b0 t c e).
  { intros i st0 st1 Hi Ht0 H. destruct (is_empty_id i) eqn:He; [rewrite empty_not_found in H by exact He; discriminate|].
    pose proof (idents_of_In c i Hi He) as Hin.
    destruct (get_by_id_throw _ _ _ _ _ _ _ _ (in_or_app _ _ _ (or_intror Hin)) Ht0 H) as [B|(B1 & B2 & B3)].
    - left. exists i. auto.
    - right. left. split; [exact B1|]. left. exists i. auto. }
  unfold get_option, bind at 1. destruct (get_by_id ndebug (IdShort (c_short c)) x t st) as [st1 q1] eqn:E1. destruct q1 as [s|e1|o| | |]; try discriminate.
  2:{ intros [= <- <-]. eapply G; [now left|eapply taken_mono; [exact Hids|exact Ht]|exact E1]. }
  destruct (get_by_id_ret _ _ _ _ _ _ E1) as (T1 & C1 & F1 & S1).
  assert (Ht1 : taken (ids ++ config_idents c) "" "" b0 (pre st1)).
  { destruct (is_empty_id (IdShort (c_short c))) eqn:He.
    - rewrite empty_not_found in E1 by exact He. injection E1 as <- _. eapply taken_mono; [exact Hids|exact Ht].
    - eapply taken_trans; [eapply taken_mono; [exact Hids|exact Ht]|now left|now left|].
      eapply taken_mono; [|exact T1]. intros j [<-|[]]. apply in_or_app. right. apply idents_of_In; [now left|exact He]. }
  unfold bind at 1. destruct (get_by_id ndebug (IdLong (c_long c)) x t st1) as [st2 q2] eqn:E2. destruct q2 as [l|e1|o| | |]; try discriminate.
  2:{ intros [= <- <-]. eapply G; [right; now left|exact Ht1|exact E2]. }
  destruct (get_by_id_ret _ _ _ _ _ _ E2) as (T2 & C2 & F2 & S2).
  destruct (s && l && negb (is_container t)) eqn:Em.
  - intros [= _ <-]. right. left. apply andb_true_iff in Em as [Em Hct]. apply andb_true_iff in Em as [-> ->]. apply negb_true_iff in Hct.
    split; [exact Hct|]. right. destruct (S1 eq_refl) as (He1 & p1 & a1 & q1 & Hp1 & Ha1 & HS1). destruct (S2 eq_refl) as (He2 & p2 & a2 & q2 & Hp2 & Ha2 & _).
    exists (IdShort (c_short c)), (IdLong (c_long c)). split; [|split; [|now rewrite Hnames]].
    { unfold config_idents. cbn [is_empty_id] in He1, He2. rewrite He1, He2. reflexivity. }
    destruct (HS1 Hct) as (q' & Hq' & Hsub). rewrite Hp1 in Ht.
    assert (N1 : a1 <> "") by (eapply looks_like_nonempty; exact Ha1). assert (N2 : a2 <> "") by (eapply looks_like_nonempty; exact Ha2).
    assert (Hin : In a2 (p1 ++ "" :: q')) by (rewrite <- Hq', Hp2; apply in_or_app; right; now left).
    apply in_app_iff in Hin as [Hin|[Hin|Hin]]; [|congruence|].
    + apply in_split in Hin as (p3 & p4 & ->). rewrite <- app_assoc in Ht. cbn [app] in Ht.
      destruct (taken_two _ _ _ _ _ _ _ _ _ Ht N2 N1) as (l1 & l2 & l3 & ->). exists l1, a2, l2, a1, l3. auto.
    + destruct (Hsub _ Hin) as [|Hin']; [contradiction|]. apply in_split in Hin' as (p3 & p4 & ->).
      destruct (taken_two _ _ _ _ _ _ _ _ _ Ht N1 N2) as (l1 & l2 & l3 & ->). exists l1, a1, l2, a2, l3. auto.
  - destruct (s || l) eqn:Esl.
    + unfold run_validator. destruct (c_validator c (fsys st2) (vars st2 x)) as [f' [|m| |]]; try discriminate. intros [= _ <-]. right. right. right. reflexivity.
    + destruct (c_required c) eqn:Er; [|discriminate]. intros [= _ <-]. right. right. left. split; [exact Er|]. split; [|now rewrite Hnames].
      apply orb_false_iff in Esl as [-> ->]. assert (st1 = st) as -> by (apply F1; reflexivity). assert (st2 = st) as -> by (apply F2; reflexivity).
      intros p a q i -> Hi Ha. destruct (taken_at _ _ _ _ _ _ _ _ Ht eq_refl) as (l1 & a' & l2 & Hpre & Hr).
      destruct Hr as [->|(-> & j & Hj & [Hr|[Hr|[_ Hr]]])].
      * exfalso. assert (Hin : In a (pre st)) by (rewrite Hpre; apply in_or_app; right; now left).
        apply config_idents_In in Hi. destruct Hi as [[-> Hne]|[-> Hne]].
        -- rewrite (C1 (proj2 (Ascii.eqb_neq _ _) Hne) _ Hin) in Ha. discriminate.
        -- rewrite (C2 (proj2 (is_empty_false _) Hne) _ Hin) in Ha. discriminate.
      * exists j. auto.
      * exists j. auto.
      * exfalso. exact (dashed_nonempty j (eq_sym Hr)).
Qed.

Lemma get_option_ret ids b0 x t c st st' : taken ids "" "" b0 (pre st) -> get_option ndebug x t c st = (st', Ret tt) ->
  taken (ids ++ config_idents c) "" "" b0 (pre st') /\ (forall i y, In i (config_idents c) -> In y (pre st') -> looks_like i y = false) /\
  taken (config_idents c) "" "" (pre st) (pre st').
Proof.
  intros Ht H. unfold get_option in H. apply bind_inv_p in H as (st1 & s & H1 & H). apply bind_inv_p in H as (st2 & l & H2 & H).
  assert (Hp : pre st' = pre st2).
  { destruct (s && l && negb (is_container t)); [discriminate|]. destruct (s || l); [|destruct (c_required c); [discriminate|now injection H as <-]].
    unfold run_validator in H. destruct (c_validator c (fsys st2) (vars st2 x)) as [f' [|m| |]]; try discriminate. now injection H as <-. }
  destruct (get_by_id_ret _ _ _ _ _ _ H1) as (T1 & C1 & _ & _). destruct (get_by_id_ret _ _ _ _ _ _ H2) as (T2 & C2 & _ & _).
  assert (T : forall i m m', In i (idents_of c) -> taken [i] "" "" m m' -> (is_empty_id i = true -> m' = m) -> taken (config_idents c) "" "" m m').
  { intros i m m' Hi T He. destruct (is_empty_id i) eqn:E; [rewrite He by reflexivity; apply taken_refl|].
    eapply taken_mono; [|exact T]. intros j [<-|[]]. now apply idents_of_In. }
  assert (T3 : taken (config_idents c) "" "" (pre st) (pre st')).
  { rewrite Hp. eapply taken_trans; [eapply T; [now left|exact T1|]|now left|now left|eapply T; [right; now left|exact T2|]].
    - intros He. rewrite empty_not_found in H1 by exact He. injection H1 as <- _. reflexivity.
    - intros He. rewrite empty_not_found in H2 by exact He. injection H2 as <- _. reflexivity. }
  split; [|split; [|exact T3]].
  - eapply taken_trans; [eapply taken_mono; [apply incl_appl, incl_refl|exact Ht]|now left|now left|].
    eapply taken_mono; [apply incl_appr, incl_refl|exact T3].
  - intros i y Hi. rewrite Hp. apply config_idents_In in Hi. destruct Hi as [[-> Hne]|[-> Hne]].
    + apply (clear_taken _ _ _ _ _ _ T2 C1). now apply Ascii.eqb_neq.
    + apply C2. now apply is_empty_false.
Qed.

(** ** All options *)

Lemma options_throw decls : forall earlier b0 st st' e, (forall x t c, In (DOption x t c) decls -> config_idents c <> []) ->
  taken (flat_map option_idents earlier) "" "" b0 (pre st) ->
  mapM_ (option_call ndebug) decls st = (st', Throw e) ->
  exists l1 x t c l2, decls = l1 ++ DOption x t c :: l2 /\ bad_option (earlier ++ l1) b0 t c e.
Proof.
  induction decls as [|d ds IH]; intros earlier b0 st st' e Hn Ht H; [discriminate|]. cbn [mapM_] in H. unfold bind in H.
  assert (J : forall st1, taken (flat_map option_idents (earlier ++ [d])) "" "" b0 (pre st1) -> mapM_ (option_call ndebug) ds st1 = (st', Throw e) ->
    exists l1 x t c l2, d :: ds = l1 ++ DOption x t c :: l2 /\ bad_option (earlier ++ l1) b0 t c e).
  { intros st1 Ht1 H1. apply (IH (earlier ++ [d]) b0 st1 st' e) in H1 as (l1 & x & t & c & l2 & -> & Hb); [|intros; eapply Hn; right; eauto|exact Ht1].
    exists (d :: l1), x, t, c, l2. split; [reflexivity|]. now rewrite <- app_assoc in Hb. }
  destruct d as [x t c|x c|x t c]; cbn [option_call] in H.
  - destruct (get_option ndebug x t c st) as [st1 q] eqn:E. destruct q as [[]|e1|o| | |]; try discriminate.
    + apply (J st1); [|exact H]. rewrite flat_map_app. cbn [flat_map option_idents]. rewrite app_nil_r. eapply get_option_ret; eauto.
    + injection H as <- <-. exists [], x, t, c, ds. split; [reflexivity|]. rewrite app_nil_r.
      eapply get_option_throw; [eapply Hn; now left|exact Ht|exact E].
  - apply (J st); [|exact H]. rewrite flat_map_app. cbn. rewrite app_nil_r. exact Ht.
  - apply (J st); [|exact H]. rewrite flat_map_app. cbn. rewrite app_nil_r. exact Ht.
Qed.

Lemma options_ret decls : forall st st', mapM_ (option_call ndebug) decls st = (st', Ret tt) ->
  taken (flat_map option_idents decls) "" "" (pre st) (pre st') /\
  (forall i y, In i (flat_map option_idents decls) -> In y (pre st') -> looks_like i y = false).
Proof.
  induction decls as [|d ds IH]; intros st st' H; cbn [mapM_ flat_map] in *.
  - injection H as <-. split; [apply taken_refl|intros i y []].
  - apply bind_inv_p in H as (st1 & [] & H1 & H). destruct (IH _ _ H) as [T2 C2].
    assert (K : taken (option_idents d) "" "" (pre st) (pre st1) /\ (forall i y, In i (option_idents d) -> In y (pre st1) -> looks_like i y = false)).
    { destruct d as [x t c|x c|x t c]; cbn [option_call option_idents] in *; try (injection H1 as <-; split; [apply taken_refl|intros i y []]).
      destruct (get_option_ret [] (pre st) x t c st st1 (taken_refl _ _ _ _) H1) as (_ & C & T). auto. }
    destruct K as [T1 C1]. split.
    + eapply taken_trans; [eapply taken_mono; [apply incl_appl, incl_refl|exact T1]|now left|now left|eapply taken_mono; [apply incl_appr, incl_refl|exact T2]].
    + intros i y Hi Hy. apply in_app_iff in Hi as [Hi|Hi]; [|now apply C2].
      destruct (eaten_In _ _ _ _ _ (taken_eaten _ _ _ _ _ T2) Hy) as [->|Hy']; [apply looks_like_empty|now apply C1].
Qed.

(** ** Conversion errors *)

Lemma read_digits_split s : forall acc n rest, read_digits s acc = (n, rest) ->
  exists p, s = p +s+ rest /\ sall is_digit p = true /\ starts_digit rest = false /\ n = (acc * 10 ^ Z.of_nat (String.length p) + weight p)%Z.
Proof.
  induction s as [|c s IH]; intros acc n rest H; cbn [read_digits] in H.
  - injection H as <- <-. exists "". cbn. repeat split. lia.
  - destruct (is_digit c) eqn:Hc.
    + apply IH in H as (p & -> & Hp & Hr & ->). exists (String c p). cbn [append sall weight String.length]. rewrite Hc, Hp.
      repeat split; [exact Hr|]. rewrite Nat2Z.inj_succ, Z.pow_succ_r by lia. ring.
    + injection H as <- <-. exists "". cbn. repeat split; [exact Hc|lia].
Qed.

Lemma from_chars_range sg bits s : from_chars_int sg bits s = FcRange -> exists p q z, s = p +s+ q /\ numeral sg p z /\ ~ in_type sg bits z.
Proof.
  unfold from_chars_int. change (match s with
                      | EmptyString => (false, s)
                      | String c s' => if sg && Ascii.eqb c "-" then (true, s') else (false, s)
                      end) with (split_sign sg s).
  destruct (split_sign sg s) as [neg body] eqn:Es. destruct (starts_digit body) eqn:Ed; [|discriminate].
  destruct (read_digits body 0) as [n rest] eqn:Er. destruct (_ && _) eqn:Ein; [discriminate|]. intros _.
  apply read_digits_split in Er as (p & -> & Hp & Hr & ->). cbn [Z.mul Z.add] in Ein.
  assert (Hd : digits p) by (split; [intros ->; cbn [append] in Ed; congruence|exact Hp]).
  exists (if neg then String "-" p else p), rest, (if neg then - weight p else weight p)%Z.
  split; [|split].
  - unfold split_sign in Es. destruct s as [|c s]; [injection Es as <- <-; reflexivity|].
    destruct (sg && Ascii.eqb c "-") eqn:E; injection Es as <- E2; [|exact E2].
    apply andb_true_iff in E as [_ E]. apply Ascii.eqb_eq in E as ->. cbn. now rewrite E2.
  - unfold split_sign in Es. destruct s as [|c s]; [injection Es as <- _; now constructor|].
    destruct (sg && Ascii.eqb c "-") eqn:E; injection Es as <- E2; [|now constructor].
    apply andb_true_iff in E as [-> _]. now constructor.
  - rewrite <- in_type_bool, Ein. discriminate.
Qed.

Lemma limits_shown e : numeric e = true -> "[" +s+ fst (limits e) +s+ "," +s+ snd (limits e) +s+ "]" = range_shown e.
Proof.
  destruct e as [sg bits| | | | |n names|n mn mx rd|n rd pr]; try discriminate; intros _; cbn [limits range_shown fst snd]; [|reflexivity..].
  unfold int_min, int_max. destruct sg; reflexivity.
Qed.

Lemma elem_overflow e old w v : parse_elem e old w = POk v POverflow -> numeric e = true /\ too_large e w.
Proof.
  destruct e as [sg bits| | | | |n names|n mn mx rd|n rd pr]; cbn [parse_elem too_large numeric].
  - destruct (from_chars_int sg bits w) as [| |v' rest] eqn:E; cbn [of_fc]; try discriminate; [|destruct (is_empty rest); discriminate].
    intros _. split; [reflexivity|]. now apply from_chars_range.
  - destruct (from_chars_int true 8 w) as [| |v' rest] eqn:E; cbn [of_fc]; try discriminate; [|destruct (is_empty rest); discriminate].
    intros _. split; [reflexivity|]. now apply from_chars_range.
  - repeat (destruct (String.eqb _ _); [discriminate|]). discriminate.
  - discriminate.
  - unfold of_stream. destruct (read_path old w) as [[? fl] eo]. destruct (fl || negb eo); discriminate.
  - destruct (assoc w names); [discriminate|]. destruct (enum_keys names); discriminate.
  - destruct (rd w) as [| |v' rest]; cbn [of_fc]; try discriminate; [auto|destruct (is_empty rest); discriminate].
  - unfold of_stream. destruct (rd old w) as [[? fl] eo]. destruct (fl || negb eo); discriminate.
Qed.

Lemma elem_throw e old w ex : enum_ok e -> parse_elem e old w = PThrow ex -> exists n names sorted, e = TEnum n names /\
  Permutation names sorted /\ LocallySorted entry_lt sorted /\
  ex = Exn KUserInput ("You have chosen an invalid input value: " +s+ w +s+ ". Please use one of: " +s+ bracket (map fst sorted)).
Proof.
  intros Hok. destruct e as [sg bits| | | | |n names|n mn mx rd|n rd pr]; cbn [parse_elem].
  - unfold of_fc. destruct (from_chars_int sg bits w); discriminate.
  - unfold of_fc. destruct (from_chars_int true 8 w); discriminate.
  - repeat (destruct (String.eqb _ _); [discriminate|]). discriminate.
  - discriminate.
  - unfold of_stream. destruct (read_path old w) as [[? fl] eo]. discriminate.
  - destruct (assoc w names); [discriminate|]. destruct Hok as [Hnd Hne]. rewrite enum_keys_bracket by exact Hne. intros [= <-].
    exists n, names, (sort_entries names). split; [reflexivity|]. split; [apply sort_perm|]. split; [now apply sort_sorted|reflexivity].
  - destruct (rd w); discriminate.
  - unfold of_stream. destruct (rd old w) as [[? fl] eo]. discriminate.
Qed.

(** an element that is not read successfully *)
Lemma elem_refused e old w : enum_ok e -> (forall v, parse_elem e old w <> POk v PSuccess) -> exists old, forall v, ~ means e old w v.
Proof. intros Hok H. exists old. intros v Hm. apply parse_elem_means in Hm; [|exact Hok]. exact (H v Hm). Qed.

Lemma refuses_intro t w name msg : (exists old, forall v, ~ means (elem_ty t) old w v) -> (forall n names, elem_ty t <> TEnum n names) ->
  msg = "Value parse failed for " +s+ name +s+ ": Argument " +s+ w +s+ " could not be parsed as type " +s+ type_name (elem_ty t) +s+ "." \/
  (is_container t = false /\ too_large (elem_ty t) w /\
   msg = "Value parse failed for " +s+ name +s+ ": Numeric argument " +s+ w +s+ " is not in the valid range " +s+ range_shown (elem_ty t) +s+ ".") ->
  refuses t w name msg.
Proof. intros H Hn Hm. split; [exact H|]. destruct (elem_ty t); try exact Hm. exfalso. eapply Hn. reflexivity. Qed.

Lemma enum_no_error e old w v r : parse_elem e old w = POk v r -> r <> PSuccess -> forall n names, e <> TEnum n names.
Proof. intros H Hr n names ->. cbn [parse_elem] in H. destruct (assoc w names); [congruence|]. destruct (enum_keys names); discriminate. Qed.

Lemma store_fails_refuses t name w e : enum_ok (elem_ty t) -> store_fails t name w e -> exists msg, e = Exn KUserInput msg /\ refuses t w name msg.
Proof.
  intros Hok (x & st & st' & H). unfold store_value in H.
  destruct t as [ety|ety]; cbn [parse_option_value elem_ty] in *.
  - destruct (parse_elem ety (vars st x) w) as [v [| |]|ex] eqn:E; cbn [throw_on_input_error] in H.
    + discriminate.
    + injection H as _ <-. eexists. split; [reflexivity|]. apply refuses_intro; cbn [elem_ty].
      * apply (elem_refused ety (vars st x)); [exact Hok|]. intros v'. rewrite E. discriminate.
      * eapply enum_no_error; [exact E|discriminate].
      * left. now rewrite !app_assoc_s.
    + rewrite (overflow_arithmetic _ _ _ _ E) in H. injection H as _ <-. eexists. split; [reflexivity|]. apply refuses_intro; cbn [elem_ty].
      * apply (elem_refused ety (vars st x)); [exact Hok|]. intros v'. rewrite E. discriminate.
      * eapply enum_no_error; [exact E|discriminate].
      * right. destruct (elem_overflow _ _ _ _ E) as [Hn Hl]. split; [reflexivity|]. split; [exact Hl|].
        rewrite <- limits_shown by exact Hn. now rewrite !app_assoc_s.
    + injection H as _ <-. destruct (elem_throw _ _ _ _ Hok E) as (n & names & sorted & -> & P & L & ->). eexists. split; [reflexivity|].
      split; [|cbn [elem_ty]; eauto]. apply (elem_refused (TEnum n names) (vars st x)); [exact Hok|]. intros v'. rewrite E. discriminate.
  - destruct (parse_elem ety (default_val ety) w) as [v [| |]|ex] eqn:E; cbn [throw_on_input_error] in H.
    + discriminate.
    + injection H as _ <-. eexists. split; [reflexivity|]. apply refuses_intro; cbn [elem_ty].
      * apply (elem_refused ety (default_val ety)); [exact Hok|]. intros v'. rewrite E. discriminate.
      * eapply enum_no_error; [exact E|discriminate].
      * left. now rewrite !app_assoc_s.
    + cbn [is_arithmetic] in H. destruct ndebug; discriminate.
    + injection H as _ <-. destruct (elem_throw _ _ _ _ Hok E) as (n & names & sorted & -> & P & L & ->). eexists. split; [reflexivity|].
      split; [|cbn [elem_ty]; eauto]. apply (elem_refused (TEnum n names) (default_val (TEnum n names))); [exact Hok|]. intros v'. rewrite E. discriminate.
Qed.

End diagnosis.
