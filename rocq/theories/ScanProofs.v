(** What the scanner does to arbitrary argument vectors. *)
From Verif Require Import Base StrLib Fs Values Validators FormatParse Invocation InvocationProofs InvocationEffects ScanSpec.

(** ** Cutting at "--" *)

Lemma cut_split args b r : cut args b r -> split_eoo args = (b, r).
Proof.
  intros (-> & Hb & Hr). destruct Hr as [->|(r' & ->)].
  - rewrite app_nil_r. rewrite <- (app_nil_r b) at 1. apply (split_eoo_app b None Hb).
  - apply (split_eoo_app b (Some r') Hb).
Qed.

Lemma cut_exists args : exists b r, cut args b r.
Proof.
  induction args as [|a args (b & r & -> & Hb & Hr)].
  - exists [], []. repeat split; auto.
  - destruct (String.eqb_spec a "--") as [->|Hne].
    + exists [], ("--" :: b ++ r). repeat split; eauto.
    + exists (a :: b), r. repeat split; auto. intros [H|H]; auto.
Qed.

(** ** Arguments blanked while options are processed *)

Lemma dashed_nonempty i : dashed i <> "".
Proof. destruct i; discriminate. Qed.

Lemma eaten_refl ids p l : eaten ids p l l.
Proof. revert p; induction l as [|a l IH]; intros p; constructor; auto. Qed.

Lemma eaten_trans ids l : forall p p' l' l'', eaten ids p l l' -> p' = p \/ p' = "" -> eaten ids p' l' l'' -> eaten ids p l l''.
Proof.
  induction l as [|a l IH]; intros p p' l' l'' H1 Hp H2; inversion H1 as [|? ? a' ? m Ha Hl]; subst; inversion H2 as [|? ? a'' ? m' Ha' Hl']; subst.
  - constructor.
  - constructor.
    + destruct Ha as [-> | [-> Hi]].
      * destruct Ha' as [-> | (-> & i & Hi & Hl2)]; [now left|]. right. split; [reflexivity|]. exists i. split; [exact Hi|].
        destruct Hl2 as [?|Hd]; [now left|]. right. destruct Hp as [<-|Hp]; [exact Hd|].
        exfalso. apply (dashed_nonempty i). congruence.
      * destruct Ha' as [-> | [-> _]]; right; auto.
    + eapply IH; [exact Hl| |exact Hl']. destruct Ha as [-> | [-> _]]; auto.
Qed.

Lemma eaten_mono ids ids' p l l' : incl ids ids' -> eaten ids p l l' -> eaten ids' p l l'.
Proof.
  intros Hi H. induction H as [|p a a' l l' Ha Hl IH]; constructor; [|exact IH].
  destruct Ha as [->|(-> & i & H1 & H2)]; [now left|right]. split; [reflexivity|]. exists i. auto.
Qed.

Lemma eaten_app ids b l l' : forall p, (forall q, eaten ids q l l') -> eaten ids p (b ++ l) (b ++ l').
Proof. induction b as [|x b IH]; intros p H; cbn; [apply H|]. constructor; auto. Qed.

(** nothing that does not look like an option appears or disappears *)
Lemma eaten_In ids l : forall p l' a, eaten ids p l l' -> In a l' -> a = "" \/ In a l.
Proof.
  induction l as [|x l IH]; intros p l' a H Hin; inversion H as [|? ? x' ? m Hx Hl]; subst; [destruct Hin|].
  destruct Hin as [->|Hin].
  - destruct Hx as [->|[-> _]]; [right; now left|now left].
  - destruct (IH _ _ _ Hl Hin) as [?|?]; [now left|right; now right].
Qed.

(** an argument that cannot be taken stays where it is *)
Lemma eaten_stays ids l1 a l2 : forall p l', eaten ids p (l1 ++ a :: l2) l' ->
  (forall i, In i ids -> looks_like i a = false) -> ~ may_be_value ids l1 -> (l1 = [] -> forall i, In i ids -> p <> dashed i) ->
  exists l1' l2', l' = l1' ++ a :: l2' /\ List.length l1' = List.length l1.
Proof.
  induction l1 as [|x l1 IH]; intros p l' H Ha Hv Hp; cbn in H; inversion H as [|? ? a' ? m Hx Hl]; subst.
  - exists [], m. split; [|reflexivity]. destruct Hx as [->|(-> & i & Hi & [H1|H1])]; [reflexivity| |].
    + rewrite Ha in H1 by exact Hi. discriminate.
    + exfalso. exact (Hp eq_refl i Hi H1).
  - destruct (IH x m Hl Ha) as (l1' & l2' & -> & Hlen).
    + intros (l & i & -> & Hi). apply Hv. exists (x :: l), i. auto.
    + intros -> i Hi ->. apply Hv. exists [], i. auto.
    + exists (a' :: l1'), l2'. cbn. auto.
Qed.

Lemma eaten_length ids p l l' : eaten ids p l l' -> List.length l' = List.length l.
Proof. induction 1; cbn; congruence. Qed.


Section scan.
Variable ndebug : bool.

(** ** Relations that hold between the states before and after, whatever the outcome *)

Definition always (P : pst -> pst -> Prop) {A} (m : M pst A) : Prop := forall st, P st (fst (m st)).

Lemma always_bind (P : pst -> pst -> Prop) {A B} (m : M pst A) (k : A -> M pst B) :
  (forall a b c, P a b -> P b c -> P a c) -> always P m -> (forall a, always P (k a)) -> always P (bind m k).
Proof.
  intros Ht Hm Hk st. unfold bind. specialize (Hm st). destruct (m st) as [st1 r]. cbn [fst] in Hm.
  destruct r; try exact Hm. eapply Ht; [exact Hm|apply Hk].
Qed.
Lemma always_mono (P Q : pst -> pst -> Prop) {A} (m : M pst A) : (forall a b, P a b -> Q a b) -> always P m -> always Q m.
Proof. intros H Hm st. apply H, Hm. Qed.

(** everything but the variables is as before, and the variables only differ at [x] *)
Definition stored_at (x : addr) (st st' : pst) : Prop :=
  pre st' = pre st /\ post st' = post st /\ count st' = count st /\ fsys st' = fsys st /\
  forall y, y <> x -> vars st' y = vars st y.

Lemma stored_at_refl x st : stored_at x st st.
Proof. repeat split. Qed.
Lemma stored_at_trans x a b c : stored_at x a b -> stored_at x b c -> stored_at x a c.
Proof.
  intros (H1 & H2 & H3 & H4 & H5) (G1 & G2 & G3 & G4 & G5). repeat split; try congruence.
  intros y Hy. now rewrite G5, H5.
Qed.

Lemma set_other (vs : store) x v y : y <> x -> set_var vs x v y = vs y.
Proof. intros H. unfold set_var. destruct (Nat.eqb_spec x y) as [->|_]; [congruence|reflexivity]. Qed.

Lemma store_value_at x t name w : always (stored_at x) (store_value ndebug x t name w).
Proof.
  intros st. unfold store_value. destruct (parse_option_value t (vars st x) w) as [v r|e]; cbn; [|apply stored_at_refl].
  repeat split. intros y Hy. cbn. now apply set_other.
Qed.

(** what options do: blank arguments before "--", change one variable, validate *)
Definition opt_rel (ids : list ident) (xs : list addr) (st st' : pst) : Prop :=
  eaten ids "" (pre st) (pre st') /\ post st' = post st /\ count st' = count st /\
  forall y, ~ In y xs -> vars st' y = vars st y.

Lemma opt_rel_refl ids xs st : opt_rel ids xs st st.
Proof. repeat split. apply eaten_refl. Qed.
Lemma opt_rel_trans ids xs a b c : opt_rel ids xs a b -> opt_rel ids xs b c -> opt_rel ids xs a c.
Proof.
  intros (H1 & H2 & H3 & H4) (G1 & G2 & G3 & G4). repeat split; try congruence.
  - eapply eaten_trans; [exact H1|now left|exact G1].
  - intros y Hy. now rewrite G4, H4.
Qed.
Lemma opt_rel_mono ids ids' xs xs' a b : incl ids ids' -> incl xs xs' -> opt_rel ids xs a b -> opt_rel ids' xs' a b.
Proof.
  intros Hi Hx (H1 & H2 & H3 & H4). repeat split; auto. eapply eaten_mono; eauto.
Qed.
Lemma stored_opt ids x a b : stored_at x a b -> opt_rel ids [x] a b.
Proof.
  intros (H1 & H2 & H3 & _ & H4). repeat split; auto; [rewrite H1; apply eaten_refl|].
  intros y Hy. apply H4. intros ->. apply Hy. now left.
Qed.

(** *** One occurrence *)

Lemma retrieve_at i x t b a r : always (stored_at x) (retrieve ndebug i x t b a r).
Proof.
  unfold retrieve.
  assert (K : forall name w (p : list string * list string), always (stored_at x) (store_value ndebug x t name w ;; ret p)).
  { intros name w p. apply always_bind; [apply stored_at_trans|apply store_value_at|intros ? st; apply stored_at_refl]. }
  destruct (_ <? _)%nat; [destruct (match snth _ _ with Some _ => _ | None => _ end); [destruct (_ =? _)%nat|]|destruct r as [|v r]];
    try apply K; intros st; apply stored_at_refl.
Qed.

Lemma retrieve_ret i x t b a r st st' b' r' : looks_like i a = true ->
  retrieve ndebug i x t b a r st = (st', Ret (b', r')) -> eaten [i] "" (b ++ a :: r) (b' ++ r') /\ exists n, r' = "" :: skipn n r.
Proof.
  intros Ha. unfold retrieve.
  assert (K : forall name w p, (store_value ndebug x t name w ;; ret p) st = (st', Ret (b', r')) -> p = (b', r')).
  { intros name w p. unfold bind. destruct (store_value ndebug x t name w st) as [? []]; try discriminate. now intros [= _ ->]. }
  assert (J : eaten [i] "" (b ++ a :: r) (b ++ "" :: r)).
  { apply eaten_app. intros q. constructor; [|apply eaten_refl]. right. split; [reflexivity|]. exists i. split; [now left|now left]. }
  destruct (Nat.ltb_spec (String.length (prepend_dash i)) (String.length a)) as [Hl|Hl].
  - destruct (match snth _ _ with Some _ => _ | None => _ end); [destruct (_ =? _)%nat; [discriminate|]|];
      intros H; apply K in H; injection H as <- <-; (split; [exact J|exists 0; reflexivity]).
  - destruct r as [|v r]; [discriminate|]. intros H; apply K in H; injection H as <- <-.
    split; [|exists 1; reflexivity]. rewrite <- app_assoc. cbn [app]. apply eaten_app. intros q.
    assert (a = dashed i) as ->.
    { rewrite prepend_dash_dashed in Hl. destruct i as [c|s]; cbn [looks_like] in Ha.
      - apply prefix_iff in Ha as [u ->]. rewrite length_app_s in Hl. destruct u; [apply app_nil_r_s|cbn in Hl; lia].
      - apply orb_true_iff in Ha as [Ha|Ha]; [now apply String.eqb_eq in Ha|].
        apply prefix_iff in Ha as [u ->]. rewrite !length_app_s in Hl. cbn in Hl. lia. }
    constructor; [right; split; [reflexivity|]; exists i; split; now left|].
    constructor; [right; split; [reflexivity|]; exists i; split; [now left|now right]|]. apply eaten_refl.
Qed.

Lemma split_first_some p l b a r : split_first p l = Some (b, a, r) -> l = b ++ a :: r /\ p a = true /\ forallb (fun x => negb (p x)) b = true.
Proof.
  revert b a r; induction l as [|y l IH]; intros b a r H; cbn in H; [discriminate|].
  destruct (p y) eqn:Hy.
  - injection H as <- <- <-. auto.
  - destruct (split_first p l) as [[[b1 a1] r1]|]; [|discriminate]. injection H as <- <- <-.
    destruct (IH _ _ _ eq_refl) as (-> & H1 & H2). cbn. rewrite Hy, H2. auto.
Qed.

Lemma split_first_none_inv p l : split_first p l = None -> forall a, In a l -> p a = false.
Proof.
  induction l as [|y l IH]; intros H a; cbn in *; [intros []|].
  destruct (p y) eqn:Hy; [discriminate|]. destruct (split_first p l) as [[[? ?] ?]|]; [discriminate|].
  intros [<-|Hin]; auto.
Qed.

Lemma find_some i l b a r : find_option_id i l = Some (b, a, r) -> l = b ++ a :: r /\ looks_like i a = true /\ is_empty_id i = false.
Proof.
  unfold find_option_id. destruct (is_empty_id i); [discriminate|]. intros H.
  apply split_first_some in H as (-> & H & _). rewrite arg_matches_looks_like in H. auto.
Qed.

(** *** One identifier *)

Lemma always_at (P : pst -> pst -> Prop) {A B} (m : M pst A) (k : A -> M pst B) st :
  (forall a b c, P a b -> P b c -> P a c) -> P st (fst (m st)) ->
  (forall a st', m st = (st', Ret a) -> P st' (fst (k a st'))) -> P st (fst (bind m k st)).
Proof.
  intros Ht Hm Hk. unfold bind. destruct (m st) as [st1 r] eqn:E. cbn [fst] in Hm. destruct r; try exact Hm.
  eapply Ht; [exact Hm|now apply Hk].
Qed.

Definition same_fsys (st st' : pst) : Prop := fsys st' = fsys st.
Definition id_rel (i : ident) (x : addr) (st st' : pst) : Prop := opt_rel [i] [x] st st' /\ fsys st' = fsys st.
Lemma id_rel_refl i x st : id_rel i x st st.
Proof. split; [apply opt_rel_refl|reflexivity]. Qed.
Lemma id_rel_trans i x a b c : id_rel i x a b -> id_rel i x b c -> id_rel i x a c.
Proof. intros [H1 H2] [G1 G2]. split; [eapply opt_rel_trans; eauto|congruence]. Qed.
Lemma stored_id i x a b : stored_at x a b -> id_rel i x a b.
Proof. intros H. split; [now apply stored_opt|apply H]. Qed.
Lemma set_pre_id i x l st : eaten [i] "" (pre st) l -> id_rel i x st (set_pre l st).
Proof. intros H. split; [|reflexivity]. repeat split. exact H. Qed.

Lemma get_by_id_scalar_rel i x t : always (id_rel i x) (get_by_id_scalar ndebug i x t).
Proof.
  intros st. unfold get_by_id_scalar. destruct (find_option_id i (pre st)) as [[[b a] r]|] eqn:E; [|apply id_rel_refl].
  destruct (find_some _ _ _ _ _ E) as (Hpre & Ha & _).
  apply always_at; [apply id_rel_trans|apply stored_id, retrieve_at|].
  intros [b' r'] st' Hr. pose proof (retrieve_at i x t b a r st) as Hat. rewrite Hr in Hat. cbn [fst] in Hat.
  destruct (retrieve_ret _ _ _ _ _ _ _ _ _ _ Ha Hr) as [He _]. rewrite <- Hpre in He.
  apply always_at; [apply id_rel_trans|cbn [fst modify]|].
  - apply set_pre_id. rewrite (proj1 Hat). exact He.
  - intros u st2 _. destruct (find_option_id i (snd (b', r'))); apply id_rel_refl.
Qed.

Lemma get_all_rel i x t : forall fuel done rest st, eaten [i] "" (pre st) (done ++ rest) -> id_rel i x st (fst (get_all ndebug fuel i x t done rest st)).
Proof.
  induction fuel as [|fuel IH]; intros done rest st He; cbn [get_all].
  - destruct (find_option_id i rest) as [[[b a] r]|]; [apply id_rel_refl|]. now apply set_pre_id.
  - destruct (find_option_id i rest) as [[[b a] r]|] eqn:E; [|now apply set_pre_id].
    destruct (find_some _ _ _ _ _ E) as (-> & Ha & _).
    apply always_at; [apply id_rel_trans|apply stored_id, retrieve_at|].
    intros [b' r'] st' Hr. pose proof (retrieve_at i x t (done ++ b) a r st) as Hat. rewrite Hr in Hat. cbn [fst] in Hat.
    apply IH. cbn [fst snd]. destruct (retrieve_ret _ _ _ _ _ _ _ _ _ _ Ha Hr) as [He' _].
    rewrite (proj1 Hat). eapply eaten_trans; [exact He|now left|]. now rewrite app_assoc.
Qed.

Lemma get_by_id_rel i x t : always (id_rel i x) (get_by_id ndebug i x t).
Proof.
  unfold get_by_id. destruct (is_container t); [|apply get_by_id_scalar_rel].
  intros st. unfold get_by_id_list. destruct (find_option_id i (pre st)); [|apply id_rel_refl].
  apply always_at; [apply id_rel_trans|cbn; apply stored_id|].
  - repeat split. intros y Hy. cbn. now apply set_other.
  - intros u st' [= <- _]. apply always_at; [apply id_rel_trans| |].
    + apply get_all_rel. apply eaten_refl.
    + intros; apply id_rel_refl.
Qed.

Lemma find_unmentioned i l : (is_empty_id i = false -> forall a, In a l -> looks_like i a = false) -> find_option_id i l = None.
Proof.
  intros H. unfold find_option_id. destruct (is_empty_id i) eqn:E; [reflexivity|]. apply split_first_none.
  apply forallb_forall. intros a Ha. rewrite arg_matches_looks_like, (H eq_refl a Ha). reflexivity.
Qed.

Lemma get_by_id_unmentioned i x t st : find_option_id i (pre st) = None -> get_by_id ndebug i x t st = (st, Ret false).
Proof. intros H. unfold get_by_id, get_by_id_list, get_by_id_scalar. destruct (is_container t); now rewrite H. Qed.

(** *** One option *)

Lemma run_validator_rel ids x v p : always (opt_rel ids [x]) (run_validator v x p).
Proof.
  intros st. unfold run_validator. destruct (v (fsys st) (vars st x)) as [f' r]. repeat split. cbn. apply eaten_refl.
Qed.

Lemma get_option_rel x t c : always (opt_rel (config_idents c) [x]) (get_option ndebug x t c).
Proof.
  assert (G : forall i, In i (config_idents c) \/ is_empty_id i = true -> always (opt_rel (config_idents c) [x]) (get_by_id ndebug i x t)).
  { intros i [Hi|Hi] st.
    - destruct (get_by_id_rel i x t st) as [H _]. eapply opt_rel_mono; [| |exact H]; [intros j [<-|[]]; exact Hi|apply incl_refl].
    - rewrite get_by_id_unmentioned; [apply opt_rel_refl|]. unfold find_option_id. now rewrite Hi. }
  unfold get_option. apply always_bind; [apply opt_rel_trans|apply G|].
  - destruct (Ascii.eqb_spec (c_short c) nul) as [E|E]; [right; cbn; now rewrite E, Ascii.eqb_refl|left]. apply config_idents_In. auto.
  - intros s. apply always_bind; [apply opt_rel_trans|apply G|].
    + destruct (is_empty (c_long c)) eqn:E; [right; exact E|left]. apply config_idents_In. right. split; [reflexivity|now apply is_empty_false].
    + intros l. destruct (_ && _ && _); [intros st; apply opt_rel_refl|]. destruct (_ || _); [apply run_validator_rel|].
      destruct (c_required c); intros st; apply opt_rel_refl.
Qed.

Lemma get_option_unmentioned x t c st : (forall a i, In a (pre st) -> In i (config_idents c) -> looks_like i a = false) ->
  get_option ndebug x t c st = (st, if c_required c then Throw (Exn KRequiredMissing ("Option " +s+ combine_option_names (c_short c) (c_long c) +s+ " is required but not set.")) else Ret tt).
Proof.
  intros H.
  assert (G : forall i, In i (config_idents c) \/ is_empty_id i = true -> get_by_id ndebug i x t st = (st, Ret false)).
  { intros i Hi. apply get_by_id_unmentioned, find_unmentioned. intros He a Ha. destruct Hi as [Hi|Hi]; [eauto|congruence]. }
  unfold get_option. unfold bind at 1. rewrite G. 2:{
    destruct (Ascii.eqb_spec (c_short c) nul) as [E|E]; [right; cbn; now rewrite E, Ascii.eqb_refl|left]. apply config_idents_In. auto. }
  unfold bind. rewrite G. 2:{
    destruct (is_empty (c_long c)) eqn:E; [right; exact E|left]. apply config_idents_In. right. split; [reflexivity|now apply is_empty_false]. }
  cbn [andb orb]. destruct (c_required c); reflexivity.
Qed.

Lemma option_call_rel d : always (opt_rel (option_idents d) [bound_addr d]) (option_call ndebug d).
Proof. destruct d; cbn [option_call option_idents]; [apply get_option_rel| |]; intros st; apply opt_rel_refl. Qed.

Lemma option_calls_rel ds : always (opt_rel (flat_map option_idents ds) (map bound_addr ds)) (mapM_ (option_call ndebug) ds).
Proof.
  induction ds as [|d ds IH]; cbn [mapM_ flat_map map]; [intros st; apply opt_rel_refl|].
  apply always_bind; [apply opt_rel_trans| |intros _].
  - eapply always_mono; [|apply option_call_rel]. intros a b. apply opt_rel_mono; [apply incl_appl, incl_refl|].
    intros y [<-|[]]. now left.
  - eapply always_mono; [|apply IH]. intros a b. apply opt_rel_mono; [apply incl_appr, incl_refl|apply incl_tl, incl_refl].
Qed.

Lemma eaten_unmentioned ids p l l' i : eaten ids p l l' -> (forall a, In a l -> looks_like i a = false) ->
  forall a, In a l' -> looks_like i a = false.
Proof. intros H Hl a Ha. destruct (eaten_In _ _ _ _ _ H Ha) as [->|]; [apply looks_like_empty|auto]. Qed.

(** ** C09: an option that is not mentioned might as well not be declared *)

Lemma mapM_app {A} (f : A -> M pst unit) l1 l2 st : mapM_ f (l1 ++ l2) st = (mapM_ f l1 ;; mapM_ f l2) st.
Proof.
  revert st; induction l1 as [|a l1 IH]; intros st; cbn [app mapM_]; [reflexivity|].
  unfold bind at 1 3. destruct (f a st) as [st1 r] eqn:E. unfold bind. rewrite E. destruct r; try reflexivity. rewrite IH. reflexivity.
Qed.

Lemma mapM_same_calls (f : decl -> M pst unit) d1 d d2 st : (forall st, f d st = (st, Ret tt)) -> mapM_ f (d1 ++ d :: d2) st = mapM_ f (d1 ++ d2) st.
Proof.
  intros H. rewrite !mapM_app. unfold bind. destruct (mapM_ f d1 st) as [st1 []]; try reflexivity. cbn [mapM_]. unfold bind. now rewrite H.
Qed.

Lemma bind_congr {A B} (m m' : M pst A) (k k' : A -> M pst B) st : m st = m' st -> (forall a st', k a st' = k' a st') -> bind m k st = bind m' k' st.
Proof. intros H Hk. unfold bind. rewrite H. destruct (m' st) as [st1 []]; auto. Qed.

Lemma filter_noposs d1 d d2 : is_positional d = false -> filter is_positional (d1 ++ d :: d2) = filter is_positional (d1 ++ d2).
Proof. intros H. rewrite !filter_app. cbn. now rewrite H. Qed.

Lemma unmentioned_lemma d1 x t c d2 args b r vs f :
  cut args b r -> ~ option_mentioned c b -> c_required c = false ->
  parse_args ndebug (d1 ++ DOption x t c :: d2) args vs f = parse_args ndebug (d1 ++ d2) args vs f.
Proof.
  intros Hc Hm Hr. unfold parse_args, parse_calls, init_pst. rewrite (cut_split _ _ _ Hc). cbn [fst snd].
  set (st := {| pre := b; post := r; vars := vs; count := 0; fsys := f |}).
  apply bind_congr.
  - rewrite !mapM_app. unfold bind. pose proof (option_calls_rel d1 st) as Hrel.
    destruct (mapM_ (option_call ndebug) d1 st) as [st1 q]. cbn [fst] in Hrel. destruct q; try reflexivity.
    cbn [mapM_ option_call]. unfold bind. rewrite get_option_unmentioned; [now rewrite Hr|].
    intros a0 i Ha Hi. destruct (looks_like i a0) eqn:El; [|reflexivity]. exfalso. apply Hm.
    destruct Hrel as (He & _). destruct (eaten_In _ _ _ _ _ He Ha) as [->|Hb]; [now rewrite looks_like_empty in El|].
    exists a0, i. auto.
  - intros _ st1. apply bind_congr; [now apply mapM_same_calls|]. intros _ st2.
    apply bind_congr; [reflexivity|]. intros _ st3. apply bind_congr; [reflexivity|]. intros _ st4.
    rewrite filter_noposs by reflexivity. apply bind_congr; [now apply mapM_same_calls|reflexivity].
Qed.

(** ** Variables that are not bound *)

Definition frame (xs : list addr) (st st' : pst) : Prop := forall y, ~ In y xs -> vars st' y = vars st y.
Lemma frame_trans xs a b c : frame xs a b -> frame xs b c -> frame xs a c.
Proof. intros H G y Hy. now rewrite G, H. Qed.
Lemma frame_same xs {A} (m : M pst A) : (forall st, vars (fst (m st)) = vars st) -> always (frame xs) m.
Proof. intros H st y _. now rewrite H. Qed.
Lemma frame_in xs x {A} (m : M pst A) : In x xs -> always (stored_at x) m -> always (frame xs) m.
Proof. intros Hx H st y Hy. apply (H st). intros ->. auto. Qed.
Lemma frame_mapM xs (f : decl -> M pst unit) ds : incl (map bound_addr ds) xs -> (forall d, In (bound_addr d) xs -> always (frame xs) (f d)) -> always (frame xs) (mapM_ f ds).
Proof.
  intros Hi Hf. induction ds as [|d ds IH]; cbn [mapM_]; [now apply frame_same|].
  apply always_bind; [apply frame_trans|apply Hf, Hi; now left|intros _]. apply IH. intros y Hy. apply Hi. now right.
Qed.

Lemma get_flag_frame x c xs : In x xs -> always (frame xs) (get_flag x c).
Proof.
  intros Hx. unfold get_flag. apply always_bind; [apply frame_trans| |intros s; apply always_bind; [apply frame_trans| |intros l]].
  - apply frame_same. intros st. unfold flag_is_set_short. destruct (flag_scan _ (pre st)); [reflexivity|]. now destruct (flag_scan _ (post st)).
  - apply frame_same. intros st. destruct s; [reflexivity|]. unfold flag_is_set_long. now destruct (split_first _ _) as [[[? ?] ?]|].
  - intros st y Hy. cbn. apply set_other. intros ->. auto.
Qed.

Lemma pos_value_at x t w : always (stored_at x) (pos_value ndebug x t w).
Proof. intros st. apply store_value_at. Qed.

Lemma pos_all_frame x t xs l : In x xs -> always (frame xs) (pos_all ndebug x t l).
Proof.
  intros Hx. induction l as [|a l IH]; cbn [pos_all]; [now apply frame_same|]. destruct (is_empty a).
  - apply always_bind; [apply frame_trans|exact IH|intros; now apply frame_same].
  - apply always_bind; [apply frame_trans|eapply frame_in; [exact Hx|apply pos_value_at]|intros _].
    apply always_bind; [apply frame_trans|now apply frame_same|intros _].
    apply always_bind; [apply frame_trans|exact IH|intros; now apply frame_same].
Qed.

Lemma get_positional_frame n x t v xs : In x xs -> always (frame xs) (get_positional_option ndebug n x t v).
Proof.
  intros Hx. unfold get_positional_option. apply always_bind; [apply frame_trans|now apply frame_same|intros _].
  apply always_bind; [apply frame_trans|now apply frame_same|intros st].
  destruct (split_first nonempty (pre st)) as [[[b a] r]|]; [|now apply frame_same].
  apply always_bind; [apply frame_trans| |intros _].
  - destruct (is_container t).
    + apply always_bind; [apply frame_trans|destruct ((count st =? n)%nat || ndebug); now apply frame_same|intros _].
      apply always_bind; [apply frame_trans| |intros _].
      * intros st1 y Hy. cbn. apply set_other. intros ->. auto.
      * apply always_bind; [apply frame_trans|now apply pos_all_frame|intros; now apply frame_same].
    + apply always_bind; [apply frame_trans|eapply frame_in; [exact Hx|apply pos_value_at]|intros _]. now apply frame_same.
  - apply always_bind; [apply frame_trans|now apply frame_same|intros st'].
    apply frame_same. intros st1. unfold run_validator. now destruct (v (fsys st1) (vars st1 x)).
Qed.

Lemma parse_frame decls args vs f y : ~ In y (map bound_addr decls) -> vars (fst (parse_args ndebug decls args vs f)) y = vs y.
Proof.
  intros Hy. set (xs := map bound_addr decls).
  assert (H : always (frame xs) (parse_calls ndebug decls)).
  { unfold parse_calls.
    apply always_bind; [apply frame_trans| |intros _].
    { intros st z Hz. pose proof (option_calls_rel decls st) as (_ & _ & _ & H). now apply H. }
    apply always_bind; [apply frame_trans| |intros _].
    { apply frame_mapM; [apply incl_refl|]. intros d Hd. destruct d; try now apply frame_same. now apply get_flag_frame. }
    apply always_bind; [apply frame_trans|now apply frame_same|intros _].
    apply always_bind; [apply frame_trans|now apply frame_same|intros _].
    apply always_bind; [apply frame_trans| |intros _].
    { apply frame_mapM; [apply incl_refl|]. intros d Hd. destruct d; try now apply frame_same. now apply get_positional_frame. }
    apply frame_same. intros st. unfold check_for_left_over_args. now destruct (existsb _ _). }
  exact (H (init_pst args vs f) y Hy).
Qed.

(** ** Required options *)

Lemma bind_inv_p {A B} (m : M pst A) (k : A -> M pst B) s s' b : bind m k s = (s', Ret b) ->
  exists s1 a, m s = (s1, Ret a) /\ k a s1 = (s', Ret b).
Proof. unfold bind. destruct (m s) as [s1 [a|e|o| | |]]; try discriminate. eauto. Qed.

Lemma required_mentioned decls args b r vs f x t c : cut args b r ->
  snd (parse_args ndebug decls args vs f) = Ret tt -> In (DOption x t c) decls -> c_required c = true -> option_mentioned c b.
Proof.
  intros Hc Hr Hin Hq. unfold parse_args, parse_calls, init_pst in Hr. rewrite (cut_split _ _ _ Hc) in Hr. cbn [fst snd] in Hr.
  apply in_split in Hin as (d1 & d2 & ->). revert Hr. set (st := {| pre := b; post := r; vars := vs; count := 0; fsys := f |}).
  intros Hr. match type of Hr with snd (?m st) = _ => destruct (m st) as [st' q] eqn:E end. cbn [snd] in Hr. subst q.
  apply bind_inv_p in E as (st1 & [] & E & _). rewrite mapM_app in E. apply bind_inv_p in E as (st2 & [] & E2 & E).
  cbn [mapM_ option_call] in E. apply bind_inv_p in E as (st3 & [] & E3 & _).
  pose proof (option_calls_rel d1 st) as (He & _). rewrite E2 in He. cbn [fst] in He. cbn [pre st] in He.
  destruct (existsb (fun a => existsb (fun i => looks_like i a) (config_idents c)) b) eqn:Ex.
  - apply existsb_exists in Ex as (a & Ha & Hi). apply existsb_exists in Hi as (i & Hi & Hl). exists a, i. auto.
  - exfalso. rewrite get_option_unmentioned in E3; [rewrite Hq in E3; discriminate|].
    intros a i Ha Hi. destruct (looks_like i a) eqn:El; [|reflexivity].
    destruct (eaten_In _ _ _ _ _ He Ha) as [->|Hb]; [now rewrite looks_like_empty in El|].
    exfalso. apply not_true_iff_false in Ex. apply Ex, existsb_exists. exists a. split; [exact Hb|]. apply existsb_exists. eauto.
Qed.

End scan.
