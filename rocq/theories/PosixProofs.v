(** Pathname resolution follows the rules, and how it changes when entries come and go. *)
From Verif Require Import Base StrLib Fs Values Validators Posix PosixSpec.
From Coq Require Import Lia.

Lemma list_eqb_iff a : forall b, list_eqb a b = true <-> a = b.
Proof.
  induction a as [|x a IH]; intros [|y b]; cbn; split; intros H; try discriminate; auto.
  - apply andb_prop in H as [H1 H2]. apply String.eqb_eq in H1. apply IH in H2. congruence.
  - injection H as -> ->. rewrite String.eqb_refl. cbn. now apply IH.
Qed.
Lemma rupd_same f k n : rupd f k n k = n.
Proof. unfold rupd. now rewrite (proj2 (list_eqb_iff k k) eq_refl). Qed.
Lemma rupd_other f k n k' : k' <> k -> rupd f k n k' = f k'.
Proof. intros H. unfold rupd. destruct (list_eqb k k') eqn:E; [apply list_eqb_iff in E; congruence|reflexivity]. Qed.

Lemma no_more_iff l : no_more l = true <-> forall x, In x l -> x = "".
Proof.
  unfold no_more. rewrite forallb_forall. split; intros H x Hx; specialize (H x Hx).
  - destruct x; [reflexivity|discriminate H].
  - now subst.
Qed.
Lemma no_more_false l : no_more l = false -> exists x, In x l /\ x <> "".
Proof.
  induction l as [|a l IH]; cbn; [discriminate|]. destruct a as [|c a]; cbn; intros H.
  - destruct (IH H) as (x & Hx & Hn). eauto.
  - eexists. split; [now left|discriminate].
Qed.

(** ** The function and the rules *)

Lemma walk_unfold f b L cur rest : walk f b L cur rest =
  match rest with
  | [] => Here cur
  | c :: rest' =>
      match f cur with
      | Some (RDir m) =>
          if is_empty c then walk f b L cur rest'
          else if negb (x_search m) then Refused
          else if String.eqb c "." then walk f b L cur rest'
          else if String.eqb c ".." then walk f b L (removelast cur) rest'
          else match f (cur ++ [c]) with
               | None => if no_more rest' then Nothing (cur ++ [c]) (negb (Nat.eqb (List.length rest') 0)) else NoWay
               | Some (RLink t) =>
                   if negb b && Nat.eqb (List.length rest') 0 then Here (cur ++ [c])
                   else if is_empty t then NoWay
                   else match L with
                        | O => Refused
                        | S L' => walk f b L' (if absolute t then [] else cur) (parts t ++ rest')
                        end
               | Some _ => walk f b L (cur ++ [c]) rest'
               end
      | _ => NotDir
      end
  end.
Proof. destruct L, rest; reflexivity. Qed.

Lemma leads_walk f b n cur rest o : leads f b n cur rest o -> forall L, n <= L -> walk f b L cur rest = o.
Proof.
  assert (Em : forall c, c <> "" -> is_empty c = false) by (intros [|] H; [congruence|reflexivity]).
  induction 1; intros L HL; rewrite walk_unfold; auto;
    try (match goal with H : f cur = Some (RDir _) |- _ => rewrite H end);
    try (match goal with H : x_search _ = _ |- _ => rewrite H end);
    try (match goal with H : ?c <> "" |- context [is_empty ?c] => rewrite (Em c H) end); cbn [is_empty negb];
    try (match goal with H : ?c <> "." |- _ => rewrite (proj2 (String.eqb_neq c ".") H) end);
    try (match goal with H : ?c <> ".." |- _ => rewrite (proj2 (String.eqb_neq c "..") H) end);
    try (match goal with H : f (_ ++ [_]) = _ |- _ => rewrite H end); auto.
  - destruct (f cur) as [[]|] eqn:E; try reflexivity. exfalso. eapply H; eauto.
  - rewrite String.eqb_refl. auto.
  - change (String.eqb ".." ".") with false. rewrite String.eqb_refl. auto.
  - replace (no_more rest) with true by (symmetry; now apply no_more_iff). destruct rest; [congruence|reflexivity].
  - destruct (no_more rest) eqn:E; [|reflexivity]. rewrite no_more_iff in E. exfalso. eauto.
  - destruct nd; auto. exfalso. eapply H5; eauto.
  - now subst b.
  - destruct H5 as [->|H5]; [reflexivity|]. destruct rest; [congruence|]. cbn. rewrite andb_false_r. reflexivity.
  - replace (negb b && Nat.eqb (List.length rest) 0) with false.
    2:{ destruct H6 as [->|H6]; [reflexivity|]. destruct rest; [congruence|]. cbn. now rewrite andb_false_r. }
    rewrite (Em t) by assumption. destruct L as [|L]; [lia|]. apply IHleads. lia.
Qed.

(** either the rules lead somewhere within the limit, or the limit is reached *)
Lemma walk_leads f b : forall L rest cur, (exists n, n <= L /\ leads f b n cur rest (walk f b L cur rest)) \/
  (walk f b L cur rest = Refused /\ forall n o, n <= L -> ~ leads f b n cur rest o).
Proof.
  assert (Em : forall c, is_empty c = false -> c <> "") by (intros [|] H; [discriminate|congruence]).
  assert (Step : forall L rest cur c rest' cur' nxt, walk f b L cur (c :: rest) = walk f b L cur' rest' ->
    (forall n o, leads f b n cur' rest' o -> leads f b n cur (c :: rest) o) ->
    (forall n o, leads f b n cur (c :: rest) o -> leads f b n cur' rest' o) ->
    ((exists n, n <= L /\ leads f b n cur' rest' (walk f b L cur' rest')) \/ (walk f b L cur' rest' = Refused /\ forall n o, n <= L -> ~ leads f b n cur' rest' o)) ->
    nxt = 0 -> (exists n, n <= L /\ leads f b n cur (c :: rest) (walk f b L cur (c :: rest))) \/
      (walk f b L cur (c :: rest) = Refused /\ forall n o, n <= L -> ~ leads f b n cur (c :: rest) o)).
  { intros L rest cur c rest' cur' nxt E F1 F2 [(n & Hn & H)|[H1 H2]] _; rewrite E; [left; eauto|right]. split; [exact H1|]. intros n o Hn H. eapply H2; eauto. }
  induction L as [L IHL] using lt_wf_ind. induction rest as [|c rest IH]; intros cur.
  { left. exists 0. rewrite walk_unfold. split; [lia|constructor]. }
  destruct (f cur) as [[|m| |]|] eqn:Ec; try (left; exists 0; rewrite walk_unfold, Ec; split; [lia|apply l_notdir; congruence]).
  destruct (is_empty c) eqn:Ee.
  { assert (c = "") as -> by (destruct c; [reflexivity|discriminate]).
    apply (Step L rest cur "" rest cur 0); auto.
    - rewrite walk_unfold, Ec. reflexivity.
    - intros; eapply l_slash; eauto.
    - intros n o H. inversion H; subst; congruence. }
  pose proof (Em c Ee) as Hc.
  destruct (x_search m) eqn:Es.
  2:{ left; exists 0; rewrite walk_unfold, Ec, Ee, Es; split; [lia|eapply l_closed; eauto]. }
  destruct (String.eqb_spec c ".") as [->|N1].
  { apply (Step L rest cur "." rest cur 0); auto.
    - rewrite walk_unfold, Ec, Es. reflexivity.
    - intros; eapply l_dot; eauto.
    - intros n o H. inversion H; subst; congruence. }
  destruct (String.eqb_spec c "..") as [->|N2].
  { apply (Step L rest cur ".." rest (removelast cur) 0); auto.
    - rewrite walk_unfold, Ec, Es. reflexivity.
    - intros; eapply l_up; eauto.
    - intros n o H. inversion H; subst; congruence. }
  destruct (f (cur ++ [c])) as [nd|] eqn:Ed.
  2:{ left. exists 0. rewrite walk_unfold, Ec, Ee, Es. cbn [negb]. rewrite (proj2 (String.eqb_neq _ _) N1), (proj2 (String.eqb_neq _ _) N2), Ed. split; [lia|].
      destruct (no_more rest) eqn:En.
      - destruct rest; [eapply l_missing; eauto|eapply l_missing_slash; eauto; [discriminate|now apply no_more_iff]].
      - apply no_more_false in En as (x & Hx & Hn); eapply l_missing_way; eauto. }
  assert (W : walk f b L cur (c :: rest) = match nd with
    | RLink t => if negb b && Nat.eqb (List.length rest) 0 then Here (cur ++ [c])
                 else if is_empty t then NoWay
                 else match L with O => Refused | S L' => walk f b L' (if absolute t then [] else cur) (parts t ++ rest) end
    | _ => walk f b L (cur ++ [c]) rest end).
  { rewrite walk_unfold, Ec, Ee, Es. cbn [negb]. rewrite (proj2 (String.eqb_neq _ _) N1), (proj2 (String.eqb_neq _ _) N2), Ed. destruct nd; reflexivity. }
  assert (Down : (forall t, nd <> RLink t) -> walk f b L cur (c :: rest) = walk f b L (cur ++ [c]) rest ->
    (exists n, n <= L /\ leads f b n cur (c :: rest) (walk f b L cur (c :: rest))) \/
      (walk f b L cur (c :: rest) = Refused /\ forall n o, n <= L -> ~ leads f b n cur (c :: rest) o)).
  { intros Nl E. apply (Step L rest cur c rest (cur ++ [c]) 0); auto.
    - intros; eapply l_down; eauto.
    - intros n o H. inversion H; subst; try congruence; exfalso; eapply Nl; rewrite Ed in *; match goal with H : Some _ = Some _ |- _ => injection H as <- end; reflexivity. }
  destruct nd as [ct md|md|md|t]; try (apply Down; [discriminate|exact W]). clear Down.
  destruct (negb b && Nat.eqb (List.length rest) 0) eqn:Eb.
  { left. exists 0. rewrite W. apply andb_prop in Eb as [E1 E2]; destruct b; [discriminate E1|]; destruct rest; [|discriminate E2]; split; [lia|eapply l_link_itself; eauto]. }
  assert (Hb : b = true \/ rest <> []) by (destruct b; [now left|right; intros ->; discriminate Eb]).
  destruct (is_empty t) eqn:Et.
  { assert (t = "") as -> by (destruct t; [reflexivity|discriminate]). left; exists 0. rewrite W. split; [lia|eapply l_link_broken; eauto]. }
  assert (Inv : forall n o, leads f b n cur (c :: rest) o -> exists n', n = S n' /\ leads f b n' (if absolute t then [] else cur) (parts t ++ rest) o).
  { intros n o H. inversion H; subst; try congruence.
    - destruct Hb; congruence.
    - rewrite Ed in *. match goal with H : Some _ = Some _ |- _ => injection H as -> end. discriminate Et.
    - rewrite Ed in *. match goal with H : Some _ = Some _ |- _ => injection H as <- end. eauto. }
  rewrite W. destruct L as [|L].
  - right. split; [reflexivity|]. intros n o Hn H. apply Inv in H as (n' & -> & _). lia.
  - destruct (IHL L (le_n _) (parts t ++ rest) (if absolute t then [] else cur)) as [(n' & Hn & H)|[H1 H2]].
    + left. exists (S n'). split; [lia|]. eapply l_link; eauto.
    + right. split; [exact H1|]. intros n o Hn H. apply Inv in H as (n' & -> & H). eapply H2; [|exact H]. lia.
Qed.

Lemma leads_det f b n n' cur rest o o' : leads f b n cur rest o -> leads f b n' cur rest o' -> o = o'.
Proof. intros H H'. rewrite <- (leads_walk _ _ _ _ _ _ H (n + n')) by lia. apply (leads_walk _ _ _ _ _ _ H'). lia. Qed.

(** ** Paths one after another *)

Lemma leads_append f b n cur l o : leads f b n cur l o -> forall a rest, l = a ++ rest -> rest <> [] ->
  exists n1 o1, leads f true n1 cur a o1 /\
  match o1 with
  | Here k => exists n2, n = n1 + n2 /\ leads f b n2 k rest o
  | Nothing k _ => o = if no_more rest then Nothing k true else NoWay
  | x => o = x
  end.
Proof.
  induction 1; intros a suf E R;
    (destruct a as [|c0 a]; [cbn in E; subst; eexists 0, _; split; [apply l_end|]; cbn; eexists; split; [reflexivity|]; econstructor; eauto; fail|]);
    try discriminate E; cbn [app] in E; injection E as <- E; subst.
  - exists 0, NotDir. split; [now apply l_notdir|reflexivity].
  - destruct (IHleads a suf eq_refl R) as (n1 & o1 & L1 & M1). exists n1, o1. split; [eapply l_slash; eauto|exact M1].
  - exists 0, Refused. split; [eapply l_closed; eauto|reflexivity].
  - destruct (IHleads a suf eq_refl R) as (n1 & o1 & L1 & M1). exists n1, o1. split; [eapply l_dot; eauto|exact M1].
  - destruct (IHleads a suf eq_refl R) as (n1 & o1 & L1 & M1). exists n1, o1. split; [eapply l_up; eauto|exact M1].
  - exfalso. apply R. destruct a; [now symmetry|discriminate].
  - assert (S : no_more suf = true) by (apply no_more_iff; intros x Hx; apply H6, in_or_app; now right).
    destruct a as [|x a].
    + eexists 0, _. split; [eapply l_missing; eauto|]. cbn. now rewrite S.
    + eexists 0, _. split; [eapply l_missing_slash; eauto; [discriminate|intros y Hy; apply H6, in_or_app; now left]|]. cbn. now rewrite S.
  - destruct (no_more a) eqn:Na.
    + assert (S : no_more suf = false).
      { destruct (no_more suf) eqn:E; [|reflexivity]. rewrite no_more_iff in Na, E. apply in_app_or in H5 as [H5|H5]; exfalso; auto. }
      destruct a as [|y a].
      * eexists 0, _. split; [eapply l_missing; eauto|]. cbn. now rewrite S.
      * eexists 0, _. split; [eapply l_missing_slash; eauto; [discriminate|now apply no_more_iff]|]. cbn. now rewrite S.
    + apply no_more_false in Na as (y & Hy & Ny). eexists 0, _. split; [eapply l_missing_way; eauto|reflexivity].
  - destruct (IHleads a suf eq_refl R) as (n1 & o1 & L1 & M1). exists n1, o1. split; [eapply l_down; eauto|exact M1].
  - exfalso. apply R. destruct a; [now symmetry|discriminate].
  - eexists 0, _. split; [eapply l_link_broken; eauto|reflexivity].
  - destruct (IHleads (parts t ++ a) suf (app_assoc _ _ _) R) as (n1 & o1 & L1 & M1). exists (S n1), o1. split; [eapply l_link; eauto|].
    destruct o1; auto. destruct M1 as (n2 & -> & M1). exists n2. split; [reflexivity|exact M1].
Qed.

Lemma removelast_snoc (k : key) c : removelast (k ++ [c]) = k.
Proof. apply removelast_last. Qed.

(** following the last link or not *)
Lemma leads_follow f n cur rest o : leads f true n cur rest o ->
  leads f false n cur rest o \/
  exists l t n1, leads f false n1 cur rest (Here l) /\ f l = Some (RLink t) /\ n1 <= n /\
    ((t = "" /\ o = NoWay) \/ exists n2, leads f true n2 (if absolute t then [] else removelast l) (parts t) o).
Proof.
  induction 1; try (left; econstructor; eauto; fail);
    try (destruct IHleads as [IH|(l & t0 & n1 & L1 & L2 & L3 & L4)]; [left; econstructor; eauto; fail|right; exists l, t0, n1; split; [econstructor; eauto|auto]]; fail).
  - destruct rest as [|x rest].
    + right. exists (cur ++ [c]), "", 0. split; [eapply l_link_itself; eauto|]. auto.
    + left. eapply l_link_broken; eauto. right. discriminate.
  - destruct rest as [|x rest].
    + right. exists (cur ++ [c]), t, 0. split; [eapply l_link_itself; eauto|]. split; [assumption|]. split; [lia|]. right. exists n.
      rewrite removelast_snoc. now rewrite app_nil_r in *.
    + destruct IHleads as [IH|(l & t0 & n1 & L1 & L2 & L3 & L4)].
      * left. eapply l_link; eauto. right. discriminate.
      * right. exists l, t0, (S n1). split; [eapply l_link; eauto; right; discriminate|]. split; [assumption|]. split; [lia|exact L4].
Qed.

(** ** Entries that come and go *)

Lemma leads_missing f b n cur rest o : leads f b n cur rest o -> forall k s, o = Nothing k s -> f k = None.
Proof. induction 1; intros k s E; try discriminate E; eauto; injection E as <- _; assumption. Qed.

(** a new entry is not in the way of what was there before *)
Lemma leads_new f b n cur rest o k x : leads f b n cur rest o -> f k = None -> forall l, o = Here l -> leads (rupd f k x) b n cur rest (Here l).
Proof.
  intros H K. assert (U : forall k' nd, f k' = Some nd -> rupd f k x k' = Some nd) by (intros k' nd E; rewrite rupd_other; [exact E|congruence]).
  induction H; intros l E; try discriminate E; try (injection E as <-); try (subst; econstructor; eauto; fail).
Qed.

(** a new file is found where there was nothing *)
Lemma leads_made f b n cur rest o ct m : leads f b n cur rest o -> forall k, o = Nothing k false -> leads (rupd f k (Some (RFile ct m))) b n cur rest (Here k).
Proof.
  intros H. pose proof (leads_missing _ _ _ _ _ _ H) as Mi. revert Mi.
  induction H; intros Mi k E; try discriminate E; specialize (Mi _ _ E);
    assert (U : forall k' x, f k' = Some x -> rupd f k (Some (RFile ct m)) k' = Some x) by (intros k' ? E'; rewrite rupd_other; [exact E'|congruence]);
    try (subst; econstructor; eauto; fail).
  - subst. econstructor; eauto. apply IHleads; [|reflexivity]. intros. eapply leads_missing; eauto.
  - subst. econstructor; eauto. apply IHleads; [|reflexivity]. intros. eapply leads_missing; eauto.
  - subst. econstructor; eauto. apply IHleads; [|reflexivity]. intros. eapply leads_missing; eauto.
  - injection E as <-. eapply l_down; eauto; [apply rupd_same|discriminate|constructor].
  - subst. eapply l_down; eauto. apply IHleads; [|reflexivity]. intros. eapply leads_missing; eauto.
  - subst. eapply l_link; eauto. apply IHleads; [|reflexivity]. intros. eapply leads_missing; eauto.
Qed.

(** what a file contains does not matter *)
Lemma leads_content f b n cur rest o k ct m nd : leads f b n cur rest o -> f k = Some nd -> (forall m, nd <> RDir m) -> (forall t, nd <> RLink t) ->
  leads (rupd f k (Some (RFile ct m))) b n cur rest o.
Proof.
  intros H K Nd Nl.
  assert (UD : forall k' m', f k' = Some (RDir m') -> rupd f k (Some (RFile ct m)) k' = Some (RDir m')) by (intros k' m' E; rewrite rupd_other; [exact E|congruence]).
  assert (UL : forall k' t, f k' = Some (RLink t) -> rupd f k (Some (RFile ct m)) k' = Some (RLink t)) by (intros k' t E; rewrite rupd_other; [exact E|congruence]).
  assert (UN : forall k', f k' = None -> rupd f k (Some (RFile ct m)) k' = None) by (intros k' E; rewrite rupd_other; [exact E|congruence]).
  induction H; try (subst; econstructor; eauto; fail).
  - apply l_notdir. intros m' E. destruct (list_eqb k cur) eqn:Ek.
    + apply list_eqb_iff in Ek. subst. rewrite rupd_same in E. discriminate E.
    + apply (H m'). rewrite rupd_other in E; [exact E|]. intros ->. rewrite (proj2 (list_eqb_iff k k) eq_refl) in Ek. discriminate Ek.
  - destruct (list_eqb k (cur ++ [c])) eqn:Ek.
    + apply list_eqb_iff in Ek. apply (l_down _ _ n cur m0 c rest o (RFile ct m)); auto; [rewrite <- Ek; apply rupd_same|discriminate].
    + apply (l_down _ _ n cur m0 c rest o nd0); auto. rewrite rupd_other; [assumption|]. intros E. rewrite (proj2 (list_eqb_iff _ _) (eq_sym E)) in Ek. discriminate Ek.
Qed.

Lemma sane_up f cur : sane f -> is_dir f cur -> is_dir f (removelast cur).
Proof.
  intros [R S] [m H]. destruct cur as [|x cur] using rev_ind; [exact R|]. rewrite removelast_snoc. eapply S; eauto.
Qed.

(** an entry that was removed is missing afterwards, unless it was a directory or led to one *)
Lemma leads_removed f n cur rest l nd : sane f -> f l = Some nd -> (forall m, nd <> RDir m) ->
  (forall t, nd = RLink t -> forall n2 k, leads f true n2 (if absolute t then [] else removelast l) (parts t) (Here k) -> ~ is_dir f k) ->
  leads f false n cur rest (Here l) -> is_dir f cur -> rest <> [] -> leads (rupd f l None) false n cur rest (Nothing l false).
Proof.
  intros S L Nd Nt H. remember (Here l) as o eqn:Eo. 
  assert (UD : forall k' m', f k' = Some (RDir m') -> rupd f l None k' = Some (RDir m')) by (intros k' m' E; rewrite rupd_other; [exact E|congruence]).
  revert Eo. induction H; intros Eo D R; try discriminate Eo; try (congruence).
  - subst. destruct rest as [|x rest].
    + inversion H0; subst. congruence.
    + eapply l_slash; eauto. apply IHleads; [reflexivity|exact D|discriminate].
  - subst. destruct rest as [|x rest].
    + inversion H1; subst. congruence.
    + eapply l_dot; eauto. apply IHleads; [reflexivity|exact D|discriminate].
  - subst. destruct rest as [|x rest].
    + inversion H1; subst. destruct (sane_up _ _ S D) as [m' D']. congruence.
    + eapply l_up; eauto. apply IHleads; [reflexivity|now apply sane_up|discriminate].
  - subst. destruct rest as [|x rest].
    + inversion H6; subst. eapply l_missing; eauto. apply rupd_same.
    + assert (cur ++ [c] <> l).
      { intros <-. inversion H6; subst; congruence. }
      assert (is_dir f (cur ++ [c])).
      { inversion H6; subst; eexists; eauto. }
      eapply l_down; eauto; [rewrite rupd_other by assumption; exact H4|]. apply IHleads; [reflexivity|assumption|discriminate].
  - subst. injection Eo as <-. eapply l_missing; eauto. apply rupd_same.
  - subst. destruct H6 as [H6|H6]; [discriminate H6|].
    assert (cur ++ [c] <> l).
    { intros <-. rewrite H4 in L. injection L as <-. rewrite removelast_snoc in Nt.
      destruct (leads_append _ _ _ _ _ _ H7 (parts t) rest eq_refl H6) as (n1 & o1 & L1 & M1). destruct o1 as [k|k s| | |].
      - destruct M1 as (n2 & _ & M1). apply (Nt t eq_refl n1 k L1). destruct rest as [|x rest]; [congruence|]. inversion M1; subst; eexists; eauto.
      - destruct (no_more rest); discriminate M1.
      - discriminate M1.
      - discriminate M1.
      - discriminate M1. }
    eapply l_link; eauto; [rewrite rupd_other by assumption; exact H4|]. apply IHleads; [reflexivity| |].
    + destruct (absolute t); [apply S|exact D].
    + destruct (parts t); [assumption|discriminate].
Qed.
