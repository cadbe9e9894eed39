(** Proofs about the time the version check takes. *)
From Coq Require Import ZArith Lia.
From Verif Require Import Base StrLib Fs Values FormatParse Parser VersionCheck VersionSpec VersionProofs Waiting WaitingSpec ParserSpec NestedSpec NestedProofs.
Local Open Scope N_scope.

(** ** the events of a check *)

Definition only_says {A} (n : M vstate A) : Prop := forall st, exists l, vs_log (fst (n st)) = (vs_log st ++ map Message l)%list.

Lemma says_ret {A} (a : A) : only_says (ret a).
Proof. intros st. exists []. cbn. now rewrite app_nil_r. Qed.
Lemma says_fail {A} (r : res A) : only_says (fail r).
Proof. intros st. exists []. cbn. now rewrite app_nil_r. Qed.
Lemma says_log s : only_says (log (Message s)).
Proof. intros st. exists [s]. reflexivity. Qed.
Lemma says_bind {A B} (n : M vstate A) (g : A -> M vstate B) : only_says n -> (forall a, only_says (g a)) -> only_says (bind n g).
Proof.
  intros H1 H2 st. unfold bind. destruct (H1 st) as (l & E). destruct (n st) as [st1 r]. cbn [fst] in E.
  destruct r; try (exists l; exact E). destruct (H2 a st1) as (l' & E'). exists (l ++ l')%list. rewrite E', E, map_app. now rewrite app_assoc.
Qed.
Lemma says_if {A} (b : bool) (x y : M vstate A) : only_says x -> only_says y -> only_says (if b then x else y).
Proof. destruct b; auto. Qed.
Lemma says_fs {A} (g : fs -> fs * A) : only_says (on_fs g).
Proof. intros st. exists []. rewrite on_fs_eq. cbn. now rewrite app_nil_r. Qed.

Lemma says_checker e name v url : only_says (version_checker e name v url).
Proof.
  unfold version_checker. apply says_bind.
  - intros st. exists []. rewrite (proj2 (get_path_spares e st)). cbn. now rewrite app_nil_r.
  - intros p. apply says_if; [apply says_fail|apply says_ret].
Qed.

Lemma says_cookie e k m : only_says (write_cookie e k m).
Proof. unfold write_cookie. apply says_bind; [apply says_fs|intros; apply says_ret]. Qed.

Lemma says_ask e k : only_says (ask_or_default e k).
Proof.
  unfold ask_or_default. apply says_bind; [apply says_cookie|]. intros _. apply says_if; [|apply says_ret].
  unfold ask_user. apply says_bind; [apply says_log|]. intros _.
  repeat (apply says_if; [try apply says_ret; (apply says_bind; [apply says_cookie|intros; apply says_ret])|]). apply says_ret.
Qed.

Lemma says_decide e k on user : only_says (decide e k on user).
Proof.
  unfold decide. apply says_if; [apply says_ret|]. apply says_if; [apply says_ret|]. destruct user; [apply says_ret|].
  intros st. destruct (if exists_ _ _ then _ else _) as [c|]; [|apply says_ask]. destruct (getline (Some c) "") as [s line].
  destruct (ve_recent e line (ve_now e)); [apply says_ret|]. destruct (getline s line) as [s2 line2].
  destruct (String.eqb line2 "NEVER"); [apply says_ret|]. destruct (String.eqb line2 "ALWAYS"); [apply says_ret|]. apply says_ask.
Qed.

Lemma says_messages e k : only_says (show_messages e k).
Proof.
  unfold show_messages. apply says_bind.
  - intros st. destruct (read_file (vs_fs st) _) as [c|]; [|apply says_ret]. destruct (getline (Some c) "") as [s line]. destruct (getline s line) as [s2 line2].
    revert st. apply says_bind; [|intros; apply says_ret]. apply says_if; [|apply says_ret].
    apply says_bind; [|intros; apply says_ret]. apply says_if; [apply says_ret|]. apply says_log.
  - intros [a s]. apply says_bind; [apply says_if; [apply says_log|apply says_ret]|]. intros _.
    repeat apply says_if; try apply says_ret; apply says_log.
Qed.

Lemma program_log e st : exists probes a, get_program e st = ({| vs_fs := vs_fs st; vs_log := (vs_log st ++ map Probe probes)%list |}, Ret a)
  /\ (probes = [wget] \/ probes = [wget; curl]).
Proof.
  unfold get_program, bind, log, modify. cbn [vs_fs vs_log]. destruct (ve_system e _).
  - exists [wget]. eexists. split; [reflexivity|]. now left.
  - cbn [vs_fs vs_log]. destruct (ve_system e _); (exists [wget; curl]; eexists; split; [cbn; rewrite <- app_assoc; reflexivity|now right]).
Qed.

Lemma check_log_lemma e m on user f : check_log (vs_log (fst (version_check e m on user {| vs_fs := f; vs_log := [] |}))).
Proof.
  unfold version_check. unfold bind at 1. destruct (says_checker e (m_app_name m) (m_version m) (m_url m) {| vs_fs := f; vs_log := [] |}) as (l1 & E1).
  destruct (version_checker _ _ _ _ _) as [st1 r1]. cbn [fst vs_log app] in E1. destruct r1 as [k| | | | |]; try (cbn; rewrite E1; apply said).
  unfold bind. destruct (says_decide e k on user st1) as (l2 & E2). destruct (decide _ _ _ _ _) as [st2 r2]. cbn [fst] in E2. rewrite E1, <- map_app in E2.
  destruct r2 as [y| | | | |]; try (cbn; rewrite E2; apply said). destruct y; [|cbn; rewrite E2; apply said].
  unfold check. unfold bind at 1. destruct (says_messages e k st2) as (l3 & E3). destruct (show_messages _ _ _) as [st3 r3]. cbn [fst] in E3. rewrite E2, <- map_app in E3.
  destruct r3 as [u| | | | |]; try (cbn; rewrite E3; apply said). unfold bind. destruct (program_log e st3) as (probes & a & -> & H).
  destruct (is_empty a).
  - cbn [fst ret vs_log]. rewrite E3. now apply searched.
  - cbn [fst log modify vs_log vs_fs]. rewrite E3, <- app_assoc. now apply requested.
Qed.

(** ** where the time goes *)

Definition ev_time (p : pace) (e : event) : N :=
  match e with
  | Message s => if String.eqb s question then wt_answer p else 0
  | Probe c => match wt_system p c with Some d => d | None => 0 end
  | Request _ => 0
  end.

Lemma total_app a b : total (a ++ b) = total a + total b.
Proof. induction a as [|x a IH]; cbn [app total fold_right]; [reflexivity|]. fold (total (a ++ b)) (total a). rewrite IH. lia. Qed.

Lemma hung_event p i e st : wt_hung st = true -> on_event p i st e = st.
Proof. destruct st as [a b c h x r]. cbn. now intros ->. Qed.
Lemma hung_events p i l : forall st, wt_hung st = true -> fold_left (on_event p i) l st = st.
Proof. induction l as [|e l IH]; cbn; [reflexivity|]. intros st H. rewrite hung_event; auto. Qed.
Lemma over_act p a st : wt_hung st || wt_exited st = true -> on_act p st a = st.
Proof. destruct st as [n g c h x r]. cbn. now intros ->. Qed.
Lemma over_acts p l : forall st, wt_hung st || wt_exited st = true -> live p l st = st.
Proof. unfold live. induction l as [|e l IH]; cbn; [reflexivity|]. intros st H. rewrite over_act; auto. Qed.

Lemma events_time p i l : forall st st', fold_left (on_event p i) l st = st' -> wt_hung st' = false ->
  wt_now st' = wt_now st + total (map (ev_time p) l) /\ wt_waited st' = wt_waited st /\ wt_exited st' = wt_exited st.
Proof.
  induction l as [|e l IH]; cbn [fold_left map total fold_right]; intros st st' <- H; [repeat split; lia|].
  destruct (wt_hung st) eqn:B.
  { rewrite hung_event, hung_events in H by auto. rewrite H in B. discriminate. }
  destruct (IH _ _ eq_refl H) as (-> & -> & ->). fold (total (map (ev_time p) l)).
  destruct st as [n g c h x r]. cbn in B. subst h.
  destruct e as [s|c'|c']; cbn [on_event ev_time wt_now wt_waited wt_exited].
  - destruct (String.eqb s question); cbn; repeat split; lia.
  - destruct (wt_system p c'); cbn; repeat split; lia.
  - repeat split; lia.
Qed.

Lemma ev_time_split p l : total (map (ev_time p) l) =
  total (map (fun e => match e with Message s => if String.eqb s question then wt_answer p else 0 | _ => 0 end) l)
  + total (map (fun e => match e with Probe c => match wt_system p c with Some d => d | None => 0 end | _ => 0 end) l).
Proof.
  induction l as [|e l IH]; [reflexivity|]. cbn [map total fold_right].
  change (fold_right N.add 0 (map (ev_time p) l)) with (total (map (ev_time p) l)). rewrite IH. unfold total.
  destruct e as [s|c|c]; cbn [ev_time]; lia.
Qed.

Lemma account_lemma p acts : forall st st', live p acts st = st' -> wt_hung st' = false -> wt_exited st' = false ->
  wt_now st' + wt_waited st = wt_now st + own_time acts + asked_time p acts + search_time p acts + wt_waited st'.
Proof.
  unfold live. induction acts as [|a acts IH]; intros st st' E H1 H2.
  - cbn in *. subst st'. unfold own_time, asked_time, search_time. cbn. lia.
  - cbn [fold_left] in E. destruct (wt_hung st || wt_exited st) eqn:B.
    { rewrite over_act in E by auto. change (live p acts st = st') in E. rewrite over_acts in E by auto. subst st'. rewrite H1, H2 in B. discriminate. }
    specialize (IH _ _ E H1 H2).
    assert (B1 : wt_hung (on_act p st a) = false).
    { destruct (wt_hung (on_act p st a)) eqn:C; [|reflexivity]. change (live p acts (on_act p st a) = st') in E. rewrite over_acts in E by now rewrite C. subst st'. congruence. }
    assert (D : wt_now (on_act p st a) + wt_waited st = wt_now st + wt_waited (on_act p st a) + own_time [a] + asked_time p [a] + search_time p [a]).
    { clear IH E. destruct st as [n g c h x r]. cbn [wt_hung wt_exited] in B. apply Bool.orb_false_iff in B as [-> ->].
      unfold own_time, asked_time, search_time, events_of. cbn [map flat_map app total fold_right].
      destruct a as [i l|d|i j|i|]; cbn [on_act orb wt_now wt_waited map total fold_right app] in *; try lia.
      destruct (events_time p i l _ _ eq_refl B1) as (-> & -> & _). cbn [wt_now wt_waited]. rewrite app_nil_r, ev_time_split. unfold total. lia. }
    unfold own_time, asked_time, search_time, events_of in *. cbn [map flat_map] in *. rewrite app_nil_r in D. rewrite !map_app, !total_app. cbn [total fold_right] in *.
    unfold total in *. cbn [fold_right] in *. lia.
Qed.

(** ** the waiting is bounded *)

Definition pending (now : N) (q : future) : N :=
  match q with None => 0 | Some (At t) => if t <=? now then 0 else 1 | Some Never => 1 end.

Definition pot (S : list nat) (now : N) (g : nat -> future) : N := total (map (fun i => pending now (g i)) S).

Lemma pending_later n n' q : n <= n' -> pending n' q <= pending n q.
Proof. intros H. destruct q as [[t|]|]; cbn; try lia. destruct (N.leb_spec t n), (N.leb_spec t n'); lia. Qed.

Lemma pot_later S n n' g : n <= n' -> pot S n' g <= pot S n g.
Proof.
  intros H. unfold pot. induction S as [|i S IH]; cbn [map total fold_right]; [lia|].
  pose proof (pending_later n n' (g i) H). unfold total in *. lia.
Qed.

Lemma pot_notin S n g i q : ~ In i S -> pot S n (set_future i q g) = pot S n g.
Proof.
  unfold pot. induction S as [|j S IH]; [reflexivity|]. intros H. cbn [map]. unfold set_future at 1.
  destruct (Nat.eqb_spec j i) as [->|N]; [exfalso; apply H; now left|]. cbn [total fold_right]. unfold total in *. rewrite IH; [reflexivity|]. intros G. apply H. now right.
Qed.

Lemma pot_in S n g i q : NoDup S -> In i S -> pot S n (set_future i q g) + pending n (g i) = pot S n g + pending n q.
Proof.
  induction 1 as [|j S H ND IH]; [intros []|]. intros [->|G].
  - unfold pot. cbn [map total fold_right]. unfold set_future at 1. rewrite Nat.eqb_refl.
    change (fold_right N.add 0 (map (fun i0 => pending n (set_future i q g i0)) S)) with (pot S n (set_future i q g)). rewrite pot_notin by auto. unfold pot, total. lia.
  - specialize (IH G). unfold pot in *. cbn [map total fold_right]. unfold set_future at 1.
    destruct (Nat.eqb_spec j i) as [->|N]; [contradiction|]. unfold total in *. lia.
Qed.

Definition reqs_in (l : list event) : nat := List.length (filter (fun e => match e with Request _ => true | _ => false end) l).

Lemma pending_le n q : pending n q <= 1.
Proof. destruct q as [[t|]|]; cbn; try lia. destruct (t <=? n); lia. Qed.

Lemma events_pot p i S (ND : NoDup S) (HI : In i S) l : forall st,
  wt_waited (fold_left (on_event p i) l st) = wt_waited st /\
  pot S (wt_now (fold_left (on_event p i) l st)) (wt_futures (fold_left (on_event p i) l st)) <= pot S (wt_now st) (wt_futures st) + N.of_nat (reqs_in l).
Proof.
  induction l as [|e l IH]; intros st; [cbn; lia|]. cbn [fold_left]. destruct (IH (on_event p i st e)) as [-> H]. clear IH.
  assert (A : wt_waited (on_event p i st e) = wt_waited st /\
              pot S (wt_now (on_event p i st e)) (wt_futures (on_event p i st e)) + N.of_nat (reqs_in l) <= pot S (wt_now st) (wt_futures st) + N.of_nat (reqs_in (e :: l))).
  { destruct st as [n g c h x r]. cbn [on_event]. destruct h. { cbn [wt_waited wt_now wt_futures]. split; [reflexivity|]. unfold reqs_in. cbn [filter]. destruct e; cbn [List.length]; lia. }
    destruct e as [s|c'|c']; unfold reqs_in; cbn [filter List.length].
    - destruct (String.eqb s question); cbn [wt_waited wt_now wt_futures]; (split; [reflexivity|]); [|lia].
      pose proof (pot_later S n (n + wt_answer p) g). lia.
    - destruct (wt_system p c') as [d|]; cbn [wt_waited wt_now wt_futures]; (split; [reflexivity|]); [|lia].
      pose proof (pot_later S n (n + d) g). pose proof (pot_in S (n + d) g i (Some (At (n + d))) ND HI) as Q. cbn [pending] in Q. rewrite N.leb_refl in Q. lia.
    - cbn [wt_waited wt_now wt_futures]. split; [reflexivity|]. match goal with |- context [Some ?q] => set (v := q) end.
      pose proof (pot_in S n g i (Some v) ND HI). pose proof (pending_le n (Some v)). lia. }
  destruct A as [-> A]. split; [reflexivity|lia].
Qed.

Definition addresses (acts : list act) : list nat :=
  flat_map (fun a => match a with ACheck i _ | ADestroy i => [i] | AMove i j => [i; j] | _ => [] end) acts.

Lemma wait_pending now q : waiting_time now q <= 3000 * pending now q.
Proof. destruct q as [[t|]|]; cbn; try lia. destruct (N.leb_spec t now); lia. Qed.

Lemma act_pot p S (ND : NoDup S) a (HS : incl (addresses [a]) S) st :
  wt_waited (on_act p st a) + 3000 * pot S (wt_now (on_act p st a)) (wt_futures (on_act p st a))
  <= wt_waited st + 3000 * pot S (wt_now st) (wt_futures st) + 3000 * N.of_nat (requests [a]).
Proof.
  destruct (wt_hung st || wt_exited st) eqn:B. { rewrite over_act by auto. lia. }
  destruct st as [n g c h x r]. cbn [wt_hung wt_exited] in B. apply Bool.orb_false_iff in B as [-> ->].
  unfold addresses in HS. cbn [flat_map] in HS. rewrite app_nil_r in HS.
  destruct a as [i l|d|i j|i|]; unfold requests, events_of; cbn [on_act orb flat_map app wt_waited wt_now wt_futures] in *; rewrite ?app_nil_r; cbn [filter List.length].
  - assert (HI : In i S) by (apply HS; now left).
    destruct (events_pot p i S ND HI l {| wt_now := n; wt_futures := g; wt_waited := c; wt_hung := false; wt_exited := false; wt_requests := r |}) as [-> H].
    unfold reqs_in in H. cbn [wt_waited wt_now wt_futures] in *. lia.
  - pose proof (pot_later S n (n + d) g). lia.
  - assert (Hi : In i S) by (apply HS; now left). assert (Hj : In j S) by (apply HS; right; now left).
    destruct (Nat.eqb_spec i j) as [->|NE]; [lia|].
    pose proof (pot_in S n (set_future j (g i) g) i None ND Hi) as Q1. pose proof (pot_in S n g j (g i) ND Hj) as Q2.
    assert (E : set_future j (g i) g i = g i) by (unfold set_future; destruct (Nat.eqb_spec i j); congruence). rewrite E in Q1. cbn [pending] in Q1. lia.
  - assert (Hi : In i S) by (apply HS; now left).
    pose proof (wait_pending n (g i)). set (w := waiting_time n (g i)) in *.
    pose proof (pot_in S n g i None ND Hi) as Q. cbn [pending] in Q. pose proof (pot_later S n (n + w) (set_future i None g)). lia.
  - lia.
Qed.

Lemma acts_pot p S (ND : NoDup S) acts : forall st, incl (addresses acts) S ->
  wt_waited (live p acts st) + 3000 * pot S (wt_now (live p acts st)) (wt_futures (live p acts st))
  <= wt_waited st + 3000 * pot S (wt_now st) (wt_futures st) + 3000 * N.of_nat (requests acts).
Proof.
  unfold live. induction acts as [|a acts IH]; intros st HS; [cbn [fold_left]; lia|]. cbn [fold_left].
  assert (H1 : incl (addresses [a]) S). { intros y Y. apply HS. unfold addresses in *. cbn [flat_map] in *. rewrite app_nil_r in Y. apply in_or_app. now left. }
  assert (H2 : incl (addresses acts) S). { intros y Y. apply HS. unfold addresses in *. cbn [flat_map]. apply in_or_app. now right. }
  specialize (IH (on_act p st a) H2). pose proof (act_pot p S ND a H1 st).
  assert (E : requests (a :: acts) = (requests [a] + requests acts)%nat).
  { unfold requests, events_of. cbn [flat_map]. rewrite app_nil_r, filter_app, app_length. reflexivity. }
  rewrite E. lia.
Qed.

Lemma bound_lemma p acts t : wt_waited (live p acts (begin_at t)) <= 3000 * N.of_nat (requests acts).
Proof.
  pose proof (acts_pot p (nodup Nat.eq_dec (addresses acts)) (NoDup_nodup _ _) acts (begin_at t)) as H.
  assert (P : pot (nodup Nat.eq_dec (addresses acts)) t (fun _ => None) = 0).
  { clear H. unfold pot. cbn [pending]. induction (nodup _ _) as [|x l IH]; [reflexivity|]. unfold total in *. cbn [map fold_right pending] in *. lia. }
  cbn [begin_at wt_waited wt_now wt_futures] in H. rewrite P in H. enough (incl (addresses acts) (nodup Nat.eq_dec (addresses acts))) by (specialize (H H0); lia).
  intros x X. now apply nodup_In.
Qed.

(** ** one check *)

Lemma says_events p i ms : forall st, let st' := fold_left (on_event p i) (map Message ms) st in
  wt_futures st' = wt_futures st /\ wt_requests st' = wt_requests st /\ wt_now st <= wt_now st' /\ wt_hung st' = wt_hung st.
Proof.
  induction ms as [|s ms IH]; intros st; cbn [map fold_left]; [repeat split; lia|].
  cbn zeta in *. destruct (IH (on_event p i st (Message s))) as (-> & -> & L & ->). destruct st as [n g c h x r]. cbn [on_event] in *.
  destruct h; [repeat split; exact L|]. destruct (String.eqb s question); cbn [wt_now wt_futures wt_requests wt_hung] in *; repeat split; lia.
Qed.

Lemma probe_events p i cs : forall st, let st' := fold_left (on_event p i) (map Probe cs) st in
  (forall j, j <> i -> wt_futures st' j = wt_futures st j) /\ wt_requests st' = wt_requests st /\ wt_now st <= wt_now st' /\
  (wt_hung st' = false -> cs <> [] -> wt_futures st' i = Some (At (wt_now st'))).
Proof.
  induction cs as [|c cs IH]; intros st; cbn [map fold_left].
  { repeat split; try lia. intros _ []. reflexivity. }
  cbn zeta in *. destruct (IH (on_event p i st (Probe c))) as (F & -> & L & G). clear IH.
  destruct st as [n g w h x r]. cbn [on_event] in *. destruct h.
  { split; [exact F|]. split; [reflexivity|]. split; [exact L|]. intros H. rewrite hung_events in H by reflexivity. discriminate H. }
  destruct (wt_system p c) as [d|].
  - cbn [wt_now wt_futures wt_requests wt_hung] in *. split; [|split; [reflexivity|split; [lia|]]].
    + intros j J. rewrite F by auto. unfold set_future. apply Nat.eqb_neq in J. now rewrite J.
    + intros H _. destruct cs as [|c2 cs]; [|apply G; [exact H|discriminate]]. cbn [map fold_left wt_futures wt_now]. unfold set_future. now rewrite Nat.eqb_refl.
  - split; [exact F|]. split; [reflexivity|]. split; [exact L|]. intros H. rewrite hung_events in H by reflexivity. discriminate H.
Qed.

(** the state after a check that came to an end *)
Lemma check_events p i l st : check_log l -> let st' := fold_left (on_event p i) l st in wt_hung st' = false ->
  (forall j, j <> i -> wt_futures st' j = wt_futures st j) /\ wt_now st <= wt_now st' /\
  ((exists c, In (Request c) l /\ let q := match wt_system p c with Some d => At (wt_now st' + d) | None => Never end in
      wt_requests st' = (wt_requests st ++ [q])%list /\ wt_futures st' i = Some q) \/
   ((forall c, ~ In (Request c) l) /\ wt_requests st' = wt_requests st /\
    (wt_futures st' i = wt_futures st i /\ (forall c, ~ In (Probe c) l) \/ wt_futures st' i = Some (At (wt_now st'))))).
Proof.
  assert (K : forall ms c, ~ In (Request c) (map Message ms)) by (intros ms c H; apply in_map_iff in H as (x & X & _); discriminate X).
  assert (K' : forall ms c, ~ In (Request c) (map Probe ms)) by (intros ms c H; apply in_map_iff in H as (x & X & _); discriminate X).
  assert (K2 : forall ms c, ~ In (Probe c) (map Message ms)) by (intros ms c H; apply in_map_iff in H as (x & X & _); discriminate X).
  intros HL. cbn zeta. destruct HL as [ms|ms ps HP|ms ps c HP]; intros H.
  - destruct (says_events p i ms st) as (E1 & E2 & L & _). rewrite E1, E2. split; [auto|]. split; [exact L|]. right. split; [apply K|]. split; [reflexivity|]. left. split; [reflexivity|]. apply K2.
  - rewrite fold_left_app in *. destruct (says_events p i ms st) as (E1 & E2 & L & _). set (s1 := fold_left _ (map Message ms) st) in *.
    destruct (probe_events p i ps s1) as (F & R & L2 & G). rewrite E1 in F. split; [exact F|]. split; [lia|]. right.
    split. { intros c G2. apply in_app_or in G2 as [G2|G2]; [now apply K in G2|now apply K' in G2]. }
    split; [congruence|]. right. apply G; [exact H|]. destruct HP as [->| ->]; discriminate.
  - rewrite !fold_left_app in *. destruct (says_events p i ms st) as (E1 & E2 & L & _). set (s1 := fold_left _ (map Message ms) st) in *.
    destruct (probe_events p i ps s1) as (F & R & L2 & G). set (s2 := fold_left _ (map Probe ps) s1) in *. rewrite E1 in F. cbn [fold_left] in *.
    destruct (wt_hung s2) eqn:B. { rewrite hung_event in H by auto. congruence. }
    destruct s2 as [n g w h x r]. cbn [wt_hung] in B. subst h. cbn [on_event wt_futures wt_requests wt_now] in *.
    split. { intros j J. unfold set_future. apply Nat.eqb_neq in J as J2. rewrite J2. now apply F. }
    split; [lia|]. left. exists c. split; [apply in_or_app; right; apply in_or_app; right; now left|]. split; [congruence|]. unfold set_future. now rewrite Nat.eqb_refl.
Qed.

(** ** one parser *)

Lemma exact_lemma p i l c d st st' : check_log l -> In (Request c) l -> wt_hung st = false -> wt_exited st = false ->
  live p [ACheck i l; AWork d; ADestroy i] st = st' -> wt_hung st' = false ->
  wt_waited st' = wt_waited st + match wt_system p c with Some k => N.min 3000 (k - d) | None => 3000 end.
Proof.
  intros HL HC H1 H2 E H3. unfold live in E. cbn [fold_left] in E.
  assert (E1 : on_act p st (ACheck i l) = fold_left (on_event p i) l st). { destruct st as [n g w h x r]. cbn in H1, H2. subst. reflexivity. }
  rewrite E1 in E. destruct (wt_hung (fold_left (on_event p i) l st)) eqn:B.
  { change (live p [AWork d; ADestroy i] (fold_left (on_event p i) l st) = st') in E. rewrite over_acts in E by now rewrite B. congruence. }
  destruct (check_events p i l st HL B) as (F & L & C). destruct (events_time p i l st _ eq_refl B) as (T & W & X).
  destruct C as [(c' & HC' & R & Q)|(N & _)]; [|now apply N in HC].
  assert (c' = c). { destruct HL as [ms|ms ps HP|ms ps c2 HP].
    - apply in_map_iff in HC as (y & Y & _). discriminate Y.
    - apply in_app_or in HC as [HC|HC]; apply in_map_iff in HC as (y & Y & _); discriminate Y.
    - assert (Z : forall z, In (Request z) (map Message ms ++ map Probe ps ++ [Request c2]) -> z = c2).
      { intros z Hz. apply in_app_or in Hz as [Hz|Hz]; [apply in_map_iff in Hz as (y & Y & _); discriminate Y|].
        apply in_app_or in Hz as [Hz|Hz]; [apply in_map_iff in Hz as (y & Y & _); discriminate Y|]. destruct Hz as [Hz|[]]. congruence. }
      rewrite (Z c'), (Z c); auto. }
  subst c'. destruct (fold_left (on_event p i) l st) as [n g w h x r]. cbn [wt_hung wt_futures wt_now wt_waited wt_exited] in *. subst h. rewrite H2 in X. subst x.
  cbn [on_act orb] in E. rewrite Q in E. subst st'. cbn [wt_waited]. rewrite W. f_equal. destruct (wt_system p c) as [k|]; cbn [waiting_time]; [|reflexivity].
  f_equal. lia.
Qed.

(** without a request there is nothing to wait for *)
Lemma no_request_lemma p i l d st st' : check_log l -> (forall c, ~ In (Request c) l) -> wt_futures st i = None ->
  live p [ACheck i l; AWork d; ADestroy i] st = st' -> wt_waited st' = wt_waited st.
Proof.
  intros HL HC HF E. unfold live in E. cbn [fold_left] in E.
  destruct (wt_hung st || wt_exited st) eqn:B0. { change (live p [ACheck i l; AWork d; ADestroy i] st = st') in E. rewrite over_acts in E by auto. congruence. }
  apply Bool.orb_false_iff in B0 as [H1 H2].
  assert (E1 : on_act p st (ACheck i l) = fold_left (on_event p i) l st). { destruct st as [n g w h x r]. cbn in H1, H2. subst. reflexivity. }
  assert (W0 : wt_waited (fold_left (on_event p i) l st) = wt_waited st).
  { clear. revert st. induction l as [|e l IH]; [reflexivity|]. intros st. cbn [fold_left]. rewrite IH. destruct st as [n g w h x r]. cbn [on_event].
    destruct h; [reflexivity|]. destruct e as [s|c|c]; [destruct (String.eqb s question)|destruct (wt_system p c)|]; reflexivity. }
  rewrite E1 in E. destruct (wt_hung (fold_left (on_event p i) l st)) eqn:B.
  { change (live p [AWork d; ADestroy i] (fold_left (on_event p i) l st) = st') in E. rewrite over_acts in E by now rewrite B. congruence. }
  destruct (check_events p i l st HL B) as (F & L & C). destruct (events_time p i l st _ eq_refl B) as (T & W & X).
  destruct C as [(c' & HC' & _)|(N & R & Q)]; [now apply HC in HC'|].
  destruct (fold_left (on_event p i) l st) as [n g w h x r]. cbn [wt_hung wt_futures wt_now wt_waited wt_exited] in *. subst h. rewrite H2 in X. subst x.
  cbn [on_act orb] in E. subst st'. cbn [wt_waited]. rewrite W. destruct Q as [[Q _]|Q]; rewrite Q; [rewrite HF|]; cbn [waiting_time]; lia.
Qed.

(** ** requests are waited for *)

Definition tracked (st : wstate) : Prop := forall r, In r (wt_requests st) -> exists t, r = At t /\ t <= wt_now st + 3000 /\
  (t <= wt_now st \/ exists i, wt_futures st i = Some (At t)).

Lemma complete_lemma p acts : (forall c, exists d, wt_system p c = Some d /\ d <= 3000) -> forall st, none_lost p acts st ->
  wt_hung (live p acts st) = false -> wt_exited (live p acts st) = false -> tracked st -> tracked (live p acts st).
Proof.
  intros HP. unfold live. induction acts as [|a acts IH]; intros st HN H1 H2 HT; [exact HT|]. cbn [fold_left none_lost] in *. destruct HN as [HA HN].
  apply IH; auto. clear IH.
  destruct (wt_hung st || wt_exited st) eqn:B0. { now rewrite over_act. } apply Bool.orb_false_iff in B0 as [B1 B2].
  assert (B3 : wt_hung (on_act p st a) = false).
  { destruct (wt_hung (on_act p st a)) eqn:C; [|reflexivity]. change (wt_hung (live p acts (on_act p st a)) = false) in H1. rewrite over_acts in H1 by now rewrite C. congruence. }
  clear H1 H2 HN. destruct a as [i l|d|i j|i|].
  - destruct HA as [HF HL].
    assert (E1 : on_act p st (ACheck i l) = fold_left (on_event p i) l st). { destruct st as [n g w h x r]. cbn in B1, B2. subst. reflexivity. }
    rewrite E1 in *. destruct (check_events p i l st HL B3) as (F & L & C). set (st' := fold_left (on_event p i) l st) in *.
    assert (O : forall r, In r (wt_requests st) -> exists t, r = At t /\ t <= wt_now st' + 3000 /\ (t <= wt_now st' \/ exists k, wt_futures st' k = Some (At t))).
    { intros r R. destruct (HT r R) as (t & -> & T1 & T2). exists t. split; [reflexivity|]. split; [lia|]. destruct T2 as [T2|(k & T2)]; [left; lia|]. right. exists k.
      rewrite F; [exact T2|]. intros ->. congruence. }
    intros r R. destruct C as [(c & _ & E & Q)|(_ & E & _)]; rewrite E in R; [|now apply O]. apply in_app_or in R as [R|[R|[]]]; [now apply O|].
    destruct (HP c) as (k & D & LE). rewrite D in *. subst r. exists (wt_now st' + k). split; [reflexivity|]. split; [lia|]. right. now exists i.
  - intros r R. destruct st as [n g w h x rs]. cbn in B1, B2. subst h x. cbn [on_act orb wt_requests wt_now wt_futures] in *. destruct (HT r R) as (t & -> & T1 & T2). cbn [wt_now wt_futures] in *.
    exists t. split; [reflexivity|]. split; [lia|]. destruct T2 as [T2|T2]; [left; lia|now right].
  - intros r R. destruct st as [n g w h x rs]. cbn in B1, B2. subst h x. cbn [on_act orb wt_requests wt_now wt_futures] in *. destruct (HT r R) as (t & -> & T1 & T2). cbn [wt_now wt_futures] in *.
    exists t. split; [reflexivity|]. split; [exact T1|]. destruct T2 as [T2|(k & T2)]; [now left|]. right.
    destruct (Nat.eqb_spec i j) as [->|NE]; [now exists k|]. destruct HA as [HA|HA]; [contradiction|].
    destruct (Nat.eq_dec k i) as [->|NK].
    + exists j. unfold set_future. destruct (Nat.eqb_spec j i); [congruence|]. now rewrite Nat.eqb_refl.
    + exists k. unfold set_future. destruct (Nat.eqb_spec k i); [congruence|]. destruct (Nat.eqb_spec k j); [congruence|]. exact T2.
  - intros r R. destruct st as [n g w h x rs]. cbn in B1, B2. subst h x. cbn [on_act orb wt_requests wt_now wt_futures] in *. destruct (HT r R) as (t & -> & T1 & T2). cbn [wt_now wt_futures] in *.
    exists t. split; [reflexivity|]. split; [lia|]. destruct T2 as [T2|(k & T2)]; [left; lia|].
    destruct (Nat.eq_dec k i) as [->|NK]; [left; rewrite T2; cbn [waiting_time]; lia|]. right. exists k. unfold set_future. destruct (Nat.eqb_spec k i); [congruence|exact T2].
  - intros r R. destruct st as [n g w h x rs]. cbn in B1, B2. subst h x. cbn [on_act orb wt_requests wt_now wt_futures] in *. exact (HT r R).
Qed.

Lemma served_lemma p acts t : (forall c, exists d, wt_system p c = Some d /\ d <= 3000) -> none_lost p acts (begin_at t) ->
  let st := live p acts (begin_at t) in wt_hung st = false -> wt_exited st = false -> (forall i, wt_futures st i = None) ->
  forall r, In r (wt_requests st) -> exists u, r = At u /\ u <= wt_now st.
Proof.
  intros HP HN st H1 H2 HF r R. destruct (complete_lemma p acts HP (begin_at t) HN H1 H2) with (r := r) as (u & -> & _ & U); [intros ? []|exact R|].
  exists u. split; [reflexivity|]. destruct U as [U|(i & U)]; [exact U|]. fold st in U. rewrite HF in U. discriminate U.
Qed.

(** ** nothing to do *)

Lemma idle_lemma p acts t : events_of acts = [] ->
  let st := live p acts (begin_at t) in wt_hung st = false /\ wt_waited st = 0 /\ (wt_exited st = false -> wt_now st = t + own_time acts) /\ wt_now st <= t + own_time acts.
Proof.
  assert (G : forall st, events_of acts = [] -> wt_hung st = false -> (forall i, wt_futures st i = None) ->
    wt_hung (live p acts st) = false /\ wt_waited (live p acts st) = wt_waited st /\ (wt_exited (live p acts st) = false -> wt_now (live p acts st) = wt_now st + own_time acts) /\
    wt_now (live p acts st) <= wt_now st + own_time acts).
  { unfold live. induction acts as [|a acts IH]; intros st HE H HF; cbn [fold_left].
    { unfold own_time. cbn. repeat split; auto; lia. }
    unfold events_of in HE. cbn [flat_map] in HE. apply app_eq_nil in HE as [HA HE].
    assert (O : own_time (a :: acts) = own_time [a] + own_time acts). { unfold own_time. cbn [map total fold_right]. unfold total. lia. } rewrite O.
    destruct (wt_exited st) eqn:X.
    { pose proof (over_acts p acts st) as V. unfold live in V. rewrite over_act by (rewrite X; now destruct (wt_hung st)). rewrite V by (rewrite X; now destruct (wt_hung st)). repeat split; auto; try congruence. lia. }
    assert (D : wt_hung (on_act p st a) = false /\ (forall i, wt_futures (on_act p st a) i = None) /\ wt_waited (on_act p st a) = wt_waited st /\ wt_now (on_act p st a) = wt_now st + own_time [a]).
    { clear IH. destruct st as [n g w h x rs]. cbn in H, X. subst h x. cbn [wt_futures] in HF. unfold own_time. destruct a as [i l|d|i j|i|]; cbn [on_act orb wt_hung wt_futures wt_waited wt_now map total fold_right].
      - subst l. cbn [fold_left]. cbn. repeat split; auto. lia.
      - repeat split; auto. lia.
      - repeat split; auto; [|lia]. intros k. destruct (Nat.eqb i j); [auto|]. unfold set_future. destruct (Nat.eqb k i); [reflexivity|]. destruct (Nat.eqb k j); auto.
      - rewrite HF. cbn [waiting_time]. repeat split; try lia. intros k. unfold set_future. destruct (Nat.eqb k i); auto.
      - repeat split; auto. lia. }
    destruct D as (D1 & D2 & D3 & D4). destruct (IH (on_act p st a) HE D1 D2) as (E1 & E2 & E3 & E4). repeat split; auto; [congruence| |lia]. intros Q. rewrite E3 by auto. lia. }
  intros HE. exact (G (begin_at t) HE eq_refl (fun _ => eq_refl)).
Qed.

(** switched off: no events, no time *)
Lemma off_lemma e m on user f p i st : on = false \/ ve_opt_out e = true \/ user = Some false ->
  on_act p st (ACheck i (vs_log (fst (version_check e m on user {| vs_fs := f; vs_log := [] |})))) = st.
Proof.
  intros H. destruct (opt_out_lemma e m on user {| vs_fs := f; vs_log := [] |} H) as [E _]. cbn [vs_log] in E. rewrite E.
  destruct st as [n g w h x r]. cbn. now destruct (h || x).
Qed.

Lemma sub_lemma nd bk css w0 ways wn : descends nd bk css w0 ways wn -> css <> [] ->
  forall e m user f p i st, on_act p st (ACheck i (vs_log (fst (version_check e m (dev_decision (w_parser wn)) user {| vs_fs := f; vs_log := [] |})))) = st.
Proof.
  intros D N e m user f p i st. apply off_lemma. left. clear - D N. induction D as [w F|cs css w0 w lg a front s more ks w1 r ways wn HF HR HU HG HA HN HP HE HS HG' D IH]; [contradiction|].
  destruct css as [|cs2 css]; [|apply IH; discriminate]. inversion D; subst. reflexivity.
Qed.
