(** Without links the file validators behave as Validators.v says. *)
From Verif Require Import Base StrLib Fs Values Validators ValidatorsSpec ValidatorsFs ValidatorsExact Posix PosixSpec PosixProofs PosixWrite.
From Coq Require Import Lia.

Lemma walk_same f g b : same f g -> forall L rest cur, walk g b L cur rest = walk f b L cur rest.
Proof.
  intros S. induction L as [L IHL] using lt_wf_ind. induction rest as [|c rest IH]; intros cur; rewrite (walk_unfold g b L cur), (walk_unfold f b L cur); [reflexivity|].
  rewrite (S cur). destruct (f cur) as [[|m| |]|]; try reflexivity. rewrite !IH. destruct (is_empty c); [reflexivity|]. destruct (negb (x_search m)); [reflexivity|].
  destruct (String.eqb c "."); [reflexivity|]. destruct (String.eqb c ".."); [reflexivity|].
  rewrite (S (cur ++ [c])). destruct (f (cur ++ [c])) as [[| | |t]|]; try apply IH; try reflexivity.
  destruct (negb b && _); [reflexivity|]. destruct (is_empty t); [reflexivity|]. destruct L; [reflexivity|]. apply IHL. lia.
Qed.

Definition kept (x : string) : bool := negb (is_empty x) && negb (String.eqb x ".").

Record sim (f : fs) (g : rfs) : Prop := {
  sim_tree : tree f;
  sim_root : exists m, f [] = Some (NDir m);
  sim_same : same (to_rfs f) g }.

Lemma last_kept rest : rest <> [] -> last rest "" <> "" -> last rest "" <> "." -> exists more x, filter kept rest = more ++ [x].
Proof.
  intros H N1 N2. destruct (exists_last H) as (l & x & ->). rewrite last_last in N1, N2. exists (filter kept l), x. rewrite filter_app. cbn.
  assert (kept x = true) as ->; [|reflexivity]. unfold kept. destruct x; [congruence|]. cbn. apply negb_true_iff. now apply String.eqb_neq.
Qed.

Lemma below_nondir f q : tree f -> (forall m, f q <> Some (NDir m)) -> forall more x, f (q ++ more ++ [x]) = None /\ forall m, f (removelast (q ++ more ++ [x])) <> Some (NDir m).
Proof.
  intros T N more x. split; [now apply tree_below|]. intros m. rewrite app_assoc, removelast_last.
  destruct (list_eq_dec string_dec more []) as [->|Hm]; [rewrite app_nil_r; apply N|].
  destruct (exists_last Hm) as (more' & y & ->). rewrite (tree_below f q T N more' y). discriminate.
Qed.

(** where a plain path leads *)
Lemma walk_plain f b : tree f -> forall rest L cur, (exists m, f cur = Some (NDir m)) -> ~ In ".." rest ->
  (rest = [] \/ last rest "" <> "" /\ last rest "" <> ".") ->
  let k := cur ++ filter kept rest in
  match walk (to_rfs f) b L cur rest with
  | Here k' => k' = k /\ f k <> None
  | Nothing k' s => k' = k /\ s = false /\ f k = None /\ exists m, f (removelast k) = Some (NDir m)
  | NoWay => f k = None /\ forall m, f (removelast k) <> Some (NDir m)
  | NotDir => f k = None /\ (forall m, f (removelast k) <> Some (NDir m)) /\ exists q l, k = q ++ l /\ l <> [] /\ f q <> None /\ forall m, f q <> Some (NDir m)
  | Refused => False
  end.
Proof.
  intros T. induction rest as [|c rest IH]; intros L cur [m D] N La; cbn zeta.
  { rewrite walk_unfold. cbn. rewrite app_nil_r. split; [reflexivity|congruence]. }
  assert (La' : rest = [] \/ last rest "" <> "" /\ last rest "" <> ".").
  { destruct rest as [|y rest]; [now left|]. destruct La as [La|La]; [discriminate La|]. right. exact La. }
  assert (N' : ~ In ".." rest) by (intros H; apply N; now right).
  rewrite walk_unfold. unfold to_rfs at 1. rewrite D. cbn [to_node to_meta x_search negb filter].
  destruct (is_empty c) eqn:Ec.
  { assert (kept c = false) as -> by (unfold kept; now rewrite Ec). apply (IH L cur); eauto. }
  destruct (String.eqb_spec c ".") as [->|N1].
  { change (kept ".") with false. apply (IH L cur); eauto. }
  destruct (String.eqb_spec c "..") as [->|N2]; [exfalso; apply N; now left|].
  assert (kept c = true) as -> by (unfold kept; rewrite Ec; cbn; apply negb_true_iff; now apply String.eqb_neq).
  replace (cur ++ c :: filter kept rest) with ((cur ++ [c]) ++ filter kept rest) by (now rewrite <- app_assoc).
  unfold to_rfs at 1. destruct (f (cur ++ [c])) as [nd|] eqn:E.
  - assert (W : (match to_node nd with RLink t => if negb b && Nat.eqb (List.length rest) 0 then Here (cur ++ [c]) else if is_empty t then NoWay
        else match L with O => Refused | S L' => walk (to_rfs f) b L' (if absolute t then [] else cur) (parts t ++ rest) end
      | _ => walk (to_rfs f) b L (cur ++ [c]) rest end) = walk (to_rfs f) b L (cur ++ [c]) rest) by (destruct nd; reflexivity).
    rewrite W. clear W.
    assert (Dir : (exists m', nd = NDir m') \/ forall m', nd <> NDir m') by (destruct nd; [right; discriminate|left; eauto|right; discriminate]).
    destruct Dir as [[m' ->]|Nd]; [apply (IH L (cur ++ [c])); eauto|].
    destruct rest as [|y rest].
    { rewrite walk_unfold. cbn. rewrite app_nil_r. split; [reflexivity|congruence]. }
    rewrite walk_unfold. unfold to_rfs at 1. rewrite E. assert (Q : forall m', f (cur ++ [c]) <> Some (NDir m')) by (intros m' H; apply (Nd m'); congruence).
    assert (La2 : last (y :: rest) "" <> "" /\ last (y :: rest) "" <> ".") by (destruct La' as [La'|La']; [discriminate La'|exact La']).
    destruct (last_kept (y :: rest)) as (more & x & Hk); [discriminate|apply La2|apply La2|].
    rewrite Hk. destruct (below_nondir f _ T Q more x) as [B1 B2].
    assert (R : f ((cur ++ [c]) ++ more ++ [x]) = None /\ (forall m, f (removelast ((cur ++ [c]) ++ more ++ [x])) <> Some (NDir m)) /\
      exists q l, (cur ++ [c]) ++ more ++ [x] = q ++ l /\ l <> [] /\ f q <> None /\ forall m, f q <> Some (NDir m)).
    { split; [exact B1|]. split; [exact B2|]. exists (cur ++ [c]), (more ++ [x]). split; [reflexivity|]. split; [destruct more; discriminate|]. split; [congruence|exact Q]. }
    destruct nd; cbn [to_node]; try exact R. exfalso. eapply Nd; reflexivity.
  - destruct rest as [|y rest].
    { cbn. rewrite app_nil_r. split; [reflexivity|]. split; [reflexivity|]. split; [exact E|]. rewrite removelast_last. eauto. }
    assert (La2 : last (y :: rest) "" <> "" /\ last (y :: rest) "" <> ".") by (destruct La' as [La'|La']; [discriminate La'|exact La']).
    destruct (no_more (y :: rest)) eqn:Nm.
    { exfalso. rewrite no_more_iff in Nm. destruct La2 as [La2 _]. apply La2. apply Nm.
      destruct (exists_last (l := y :: rest)) as (l & x & ->); [discriminate|]. rewrite last_last. apply in_or_app. right. now left. }
    destruct (last_kept (y :: rest)) as (more & x & Hk); [discriminate|tauto|tauto|]. rewrite Hk.
    apply below_nondir; [exact T|]. intros m'. rewrite E. discriminate.
Qed.

Lemma comps_kept p : comps p = filter kept (parts p).
Proof. reflexivity. Qed.

Lemma plain_nonempty p : plain_path p -> p <> "".
Proof. intros (_ & H & _) ->. now apply H. Qed.
Lemma plain_comps p : plain_path p -> exists d x, comps p = d ++ [x].
Proof. intros (_ & H1 & H2). rewrite comps_kept. apply last_kept; auto. apply parts_cons. Qed.

Lemma resolve_plain f g b p : sim f g -> plain_path p ->
  let k := comps p in
  match resolve [] g b p with
  | Here k' => k' = k /\ f k <> None
  | Nothing k' s => k' = k /\ s = false /\ f k = None /\ exists m, f (removelast k) = Some (NDir m)
  | NoWay => f k = None /\ forall m, f (removelast k) <> Some (NDir m)
  | NotDir => f k = None /\ (forall m, f (removelast k) <> Some (NDir m)) /\ ~ clear_way f p
  | Refused => False
  end.
Proof.
  intros [T Ro S] P. pose proof (plain_nonempty _ P) as Pn. destruct P as (P1 & P2 & P3). cbn zeta. unfold resolve.
  destruct (is_empty p) eqn:E; [destruct p; [congruence|discriminate E]|].
  rewrite (walk_same _ _ b S).
  pose proof (walk_plain f b T (parts p) max_links [] Ro P1 (or_intror (conj P2 P3))) as H. cbn zeta in H. cbn [app] in H. rewrite <- comps_kept in H.
  destruct (absolute p); (destruct (walk (to_rfs f) b max_links [] (parts p)); try exact H);
  (  destruct H as (H1 & H2 & q & l & H3 & H4 & H5 & H6); split; [exact H1|]; split; [exact H2|]; intros C; destruct (C q l H3 H4 H5) as [m Hm]; now apply (H6 m)).
Qed.

Lemma sim_at f g k : sim f g -> g k = match f k with Some n => Some (to_node n) | None => None end.
Proof. intros [_ _ S]. apply S. Qed.

Lemma sim_status f g p : sim f g -> plain_path p -> status [] g p = match lookup f p with Some n => StNode (to_node n) | None => StNone end.
Proof.
  intros S P. rewrite (lookup_nonempty f p (plain_nonempty _ P)). pose proof (resolve_plain f g true p S P) as H. cbn zeta in H. unfold status.
  destruct (resolve [] g true p) as [k'|k' s| | |].
  - destruct H as [-> H]. rewrite (sim_at f g _ S). destruct (f (comps p)); [reflexivity|congruence].
  - destruct H as (_ & _ & -> & _). reflexivity.
  - destruct H as [-> _]. reflexivity.
  - destruct H as [-> _]. reflexivity.
  - destruct H.
Qed.

Lemma sim_writable f g k : sim f g -> rparent_writable g k = parent_writable f k.
Proof.
  intros S. unfold rparent_writable, parent_writable, parent_key. destruct k as [|x k]; [reflexivity|].
  rewrite (sim_at f g _ S). destruct (f (removelast (x :: k))) as [[]|]; reflexivity.
Qed.

Lemma upd_cases f k n k' : upd f k n k' = if list_eqb k k' then n else f k'.
Proof. reflexivity. Qed.

Lemma sim_upd f g k n : sim f g -> k <> [] -> (n <> None -> exists m, f (removelast k) = Some (NDir m)) ->
  ((exists m, n = Some (NDir m)) \/ forall m, f k <> Some (NDir m)) ->
  sim (upd f k n) (rupd g k (match n with Some x => Some (to_node x) | None => None end)).
Proof.
  intros [T [mr R] S] K U D.
  assert (Keep : forall q, (exists m, f q = Some (NDir m)) -> exists m, upd f k n q = Some (NDir m)).
  { intros q [m Hq]. rewrite upd_cases. destruct (list_eqb k q) eqn:E; [|eauto]. apply list_eqb_eq in E. subst q.
    destruct D as [D|D]; [exact D|exfalso; now apply (D m)]. }
  split.
  - intros q x H. apply Keep. rewrite upd_cases in H. destruct (list_eqb k (q ++ [x])) eqn:E; [|now apply (T q x)].
    apply list_eqb_eq in E. subst k. destruct (U H) as [m Hm]. rewrite removelast_last in Hm. eauto.
  - apply Keep. eauto.
  - intros q. unfold to_rfs, rupd, upd. destruct (list_eqb k q); [reflexivity|]. apply S.
Qed.

Lemma clear_upd f p n : clear_way f p -> clear_way (upd f (comps p) n) p.
Proof.
  intros C q l E L H. rewrite upd_other in *; [eapply C; eauto| |]; rewrite E; intros Q; apply L; apply (app_inv_head q); now rewrite app_nil_r.
Qed.

Lemma sim_open f g p : sim f g -> plain_path p -> exists f' g' b, open_write f p = (f', b) /\ ropen_write [] g p = (g', b) /\ sim f' g' /\
  (b = true -> f' (comps p) <> None /\ forall m, f' (comps p) <> Some (NDir m)) /\ (clear_way f p -> clear_way f' p) /\ (b = false -> f' = f).
Proof.
  intros S P. destruct (plain_comps _ P) as (d & x & Kd). assert (Kn : comps p <> []) by (rewrite Kd; destruct d; discriminate).
  pose proof (resolve_plain f g true p S P) as H. cbn zeta in H. unfold open_write, ropen_write.
  destruct (is_empty p) eqn:E; [destruct p; [now apply plain_nonempty in P|discriminate E]|].
  assert (Miss : f (comps p) = None -> (forall m, f (removelast (comps p)) <> Some (NDir m)) ->
    exists f' g' b, (match f (comps p) with
      | Some (NFile _ m) => if f_writable m then (upd f (comps p) (Some (NFile "" m)), true) else (f, false)
      | Some (NDir _) => (f, false) | Some (NOther m) => (f, f_writable m)
      | None => if parent_writable f (comps p) then (upd f (comps p) (Some (NFile "" rw)), true) else (f, false) end) = (f', b) /\ (g, false) = (g', b) /\ sim f' g' /\
      (b = true -> f' (comps p) <> None /\ forall m, f' (comps p) <> Some (NDir m)) /\ (clear_way f p -> clear_way f' p) /\ (b = false -> f' = f)).
  { intros H1 H2. rewrite H1. assert (parent_writable f (comps p) = false) as ->.
    { unfold parent_writable, parent_key. destruct (comps p) as [|y l] eqn:Ek; [congruence|]. destruct (f (removelast (y :: l))) as [[]|] eqn:Q; try reflexivity. exfalso. eapply H2; eauto. }
    exists f, g, false. repeat split; auto; try discriminate; try apply S. }
  destruct (resolve [] g true p) as [k'|k' s| | |].
  - destruct H as [-> H]. rewrite (sim_at f g _ S). destruct (f (comps p)) as [nd|] eqn:Ek; [|congruence].
    assert (Par : exists m, f (removelast (comps p)) = Some (NDir m)).
    { rewrite Kd, removelast_last. apply (sim_tree _ _ S d x). rewrite <- Kd, Ek. discriminate. }
    destruct nd as [ct m|m|m]; cbn [to_node to_meta x_write].
    + destruct (f_writable m) eqn:Wm.
      * eexists _, _, true. split; [reflexivity|]. split; [reflexivity|].
        split; [apply (sim_upd f g (comps p) (Some (NFile "" m))); auto; right; congruence|].
        rewrite upd_same. split; [split; discriminate|]. split; [apply clear_upd|discriminate].
      * exists f, g, false. repeat split; auto; try discriminate; try apply S.
    + exists f, g, false. repeat split; auto; try discriminate; try apply S.
    + exists f, g, (f_writable m). repeat split; auto; try discriminate; try apply S; rewrite Ek; discriminate.
  - destruct H as (-> & -> & H1 & H2). rewrite H1, (sim_writable f g _ S). destruct (parent_writable f (comps p)).
    + eexists _, _, true. split; [reflexivity|]. split; [reflexivity|].
      split; [apply (sim_upd f g (comps p) (Some (NFile "" rw))); auto; right; congruence|].
      rewrite upd_same. split; [split; discriminate|]. split; [apply clear_upd|discriminate].
    + exists f, g, false. repeat split; auto; try discriminate; try apply S.
  - destruct H as [H1 H2]. now apply Miss.
  - destruct H as (H1 & H2 & _). now apply Miss.
  - destruct H.
Qed.

Lemma sim_remove f g p : sim f g -> plain_path p -> f (comps p) <> None -> (forall m, f (comps p) <> Some (NDir m)) ->
  exists f' g' e, remove f p = (f', e) /\ rremove [] g p = (g', e) /\ sim f' g' /\ (clear_way f p -> clear_way f' p).
Proof.
  intros S P Ex Nd. destruct (plain_comps _ P) as (d & x & Kd). assert (Kn : comps p <> []) by (rewrite Kd; destruct d; discriminate).
  pose proof (resolve_plain f g false p S P) as H. cbn zeta in H. unfold remove, rremove. rewrite (lookup_nonempty f p (plain_nonempty _ P)).
  destruct (f (comps p)) as [nd|] eqn:Ek; [|congruence].
  destruct (resolve [] g false p) as [k'|k' s| | |]; [|destruct H as (_ & _ & H & _); discriminate H|destruct H as [H _]; discriminate H|destruct H as [H _]; discriminate H|destruct H].
  destruct H as [-> _]. rewrite (sim_writable f g _ S). destruct (parent_writable f (comps p)).
  - eexists _, _, false. split; [reflexivity|]. split; [reflexivity|]. split; [apply (sim_upd f g (comps p) None); auto; [congruence|right; intros; rewrite Ek; apply Nd]|apply clear_upd].
  - exists f, g, true. auto.
Qed.

Lemma clear_ext f f' p : clear_way f p -> (forall q l, comps p = q ++ l -> l <> [] -> f' q = f q) -> clear_way f' p.
Proof. intros C E q l Q L. rewrite (E q l Q L). now apply C with l. Qed.

Lemma not_below_prefix (q l : key) : l <> [] -> forall l', ~ at_or_below ((q ++ l) ++ l') q.
Proof. intros L l' [m H]. rewrite <- !app_assoc in H. rewrite <- (app_nil_r q) in H at 1. apply app_inv_head in H. destruct l; [congruence|discriminate H]. Qed.

(** everything at [p] and below taken away *)
Lemma sim_remove_all strict f g p : sim f g -> plain_path p -> f (comps p) <> None ->
  exists f' g' e, remove_all f p = (f', e) /\ rremove_all [] strict g p = (g', e) /\ sim f' g'.
Proof.
  intros S P Ex. destruct (plain_comps _ P) as (d & x & Kd). assert (Kn : comps p <> []) by (rewrite Kd; destruct d; discriminate).
  unfold remove_all, rremove_all. rewrite (lookup_nonempty f p (plain_nonempty _ P)).
  pose proof (resolve_plain f g false p S P) as H. cbn zeta in H. destruct (f (comps p)) as [n0|] eqn:Ek; [|congruence].
  destruct (resolve [] g false p) as [k'|k' s| | |]; [|destruct H as (_ & _ & H & _); discriminate H|destruct H as [H _]; discriminate H|destruct H as [H _]; discriminate H|destruct H].
  destruct H as [-> H]. rewrite (sim_writable f g _ S).
  destruct (parent_writable f (comps p)) eqn:W; [|exists f, g, true; auto].
  eexists _, _, false. split; [reflexivity|]. split; [reflexivity|]. split.
  + intros q y Hq. destruct (list_prefixb (comps p) (q ++ [y])) eqn:B; [congruence|]. destruct (sim_tree _ _ S q y Hq) as [m Hm]. exists m.
    destruct (list_prefixb (comps p) q) eqn:B2; [|exact Hm]. apply list_prefixb_iff in B2 as [l ->].
    rewrite (proj2 (list_prefixb_iff _ _)) in B; [discriminate B|]. exists (l ++ [y]). now rewrite app_assoc.
  + destruct (sim_root _ _ S) as [m Hm]. exists m. destruct (comps p); [congruence|exact Hm].
  + intros q. unfold to_rfs. rewrite (sim_at f g _ S), Ek.
    assert (Rest : list_prefixb (comps p) q = false -> g q = match f q with Some n => Some (to_node n) | None => None end) by (intros _; apply (sim_at f g _ S)).
    assert (Non : (forall m, n0 <> NDir m) -> rupd g (comps p) None q = match (if list_prefixb (comps p) q then None else f q) with Some n => Some (to_node n) | None => None end).
    { intros Nd. unfold rupd. destruct (list_eqb (comps p) q) eqn:E.
      - apply list_eqb_eq in E. rewrite E. now rewrite (proj2 (list_prefixb_iff q q) (at_or_below_refl q)).
      - destruct (list_prefixb (comps p) q) eqn:B; [|now apply Rest]. apply list_prefixb_iff in B. rewrite (sim_at f g _ S).
        rewrite (not_below_key f (comps p)); [reflexivity|apply S|intros m Hm; apply (Nd m); congruence|exact B|]. intros ->. rewrite list_eqb_refl in E. discriminate E. }
    destruct n0; cbn [to_node]; try (apply Non; discriminate). destruct (list_prefixb (comps p) q); [reflexivity|now apply Rest].
Qed.

(** leaving the scope of a guard *)
Lemma sim_unwind strict nd f g p r : sim f g -> plain_path p -> (strict && negb nd = true -> clear_way f p) ->
  exists f' g' r', unwind nd f p r = (f', r') /\ runwind [] strict nd g p r = (g', r') /\ sim f' g'.
Proof.
  intros S P C. unfold unwind, runwind, guard_destroy.
  destruct (match r with WAssert => true | _ => false end) eqn:Er.
  { destruct r; try discriminate Er. destruct (remove_all f p) as [f1 e1]. exists f, g, WAssert. auto. }
  assert (Done : forall (f' : fs) (g' : rfs) (e e' : bool), sim f' g' -> (nd = false -> e = e') ->
     exists f'' g'' r', match r with WAssert => (f, WAssert) | _ => if negb e || nd then (f', r) else (f', WAssert) end = (f'', r') /\
       match r with WAssert => (g, WAssert) | _ => (g', if e' && negb nd then WAssert else r) end = (g'', r') /\ sim f'' g'').
  { intros f' g' e e' S' E. destruct nd; [|rewrite <- (E eq_refl); clear e' E]; destruct r; try discriminate Er; destruct e; try destruct e'; cbn [negb orb andb]; eexists _, _, _; eauto. }
  destruct (f (comps p)) as [n0|] eqn:Ek.
  { destruct (sim_remove_all strict f g p S P) as (f1 & g1 & e & R1 & R2 & S1); [congruence|]. rewrite R1, R2. apply (Done f1 g1 e e S1). reflexivity. }
  unfold remove_all, rremove_all. rewrite (lookup_nonempty f p (plain_nonempty _ P)), Ek.
  pose proof (resolve_plain f g false p S P) as H. cbn zeta in H. destruct (resolve [] g false p) as [k'|k' s| | |].
  - destruct H as [_ H]. congruence.
  - apply (Done f g false false S). reflexivity.
  - apply (Done f g false false S). reflexivity.
  - destruct H as (_ & _ & Nc). apply (Done f g false strict S). intros ->. destruct strict; [|reflexivity]. exfalso. apply Nc, C. reflexivity.
  - destruct H.
Qed.

Lemma sim_writeability strict nd f g p : sim f g -> plain_path p -> (strict && negb nd = true -> clear_way f p) ->
  exists f' g' r, validate_writeability nd f p = (f', r) /\ rvalidate_writeability [] strict nd g p = (g', r) /\ sim f' g'.
Proof.
  intros S P C. unfold validate_writeability, rvalidate_writeability. rewrite (sim_status f g p S P). unfold is_directory.
  destruct (sim_open f g p S P) as (f1 & g1 & b & O1 & O2 & S1 & B1 & C1 & _). rewrite O1, O2.
  assert (Go : exists f' g' r, (if negb b then unwind nd f1 p (WThrow ("Cannot write " +s+ dq p +s+ "!"))
        else let '(f2, err) := remove f1 p in if err then unwind nd f2 p WFsError else unwind nd f2 p WOk) = (f', r) /\
      (if negb b then runwind [] strict nd g1 p (WThrow ("Cannot write " +s+ dq p +s+ "!"))
        else let '(f2, err) := rremove [] g1 p in runwind [] strict nd f2 p (if err then WFsError else WOk)) = (g', r) /\ sim f' g').
  { destruct b; cbn [negb].
    - destruct (B1 eq_refl) as [E1 E2]. destruct (sim_remove f1 g1 p S1 P E1 E2) as (f2 & g2 & e & R1 & R2 & S2 & C2). rewrite R1, R2. destruct e; apply sim_unwind; auto.
    - apply sim_unwind; auto. }
  destruct (lookup f p) as [[]|]; cbn [to_node]; try exact Go. eexists _, _, _. split; [reflexivity|]. split; [reflexivity|]. exact S.
Qed.

Definition verdict (v : vout) : pout := PV v.

Lemma agree_input_file exts f g p : sim f g -> plain_path p -> rinput_file [] exts g p = verdict (input_file1 exts f p).
Proof.
  intros S P. unfold rinput_file, rvalidate_readability, input_file1, validate_readability, exists_, is_directory, is_regular_file, open_read. rewrite (sim_status f g p S P).
  destruct (lookup f p) as [[ct m|m|m]|]; cbn [to_node to_meta x_read negb]; try reflexivity; destruct (f_readable m); reflexivity.
Qed.

Lemma agree_input_directory f g p : sim f g -> plain_path p -> rinput_directory [] g p = verdict (input_directory1 f p).
Proof.
  intros S P. unfold rinput_directory, rvalidate_readability, input_directory1, validate_readability, exists_, is_directory, is_regular_file, open_read. rewrite (sim_status f g p S P).
  destruct (lookup f p) as [[ct m|m|m]|]; cbn [to_node to_meta x_read negb]; try reflexivity; destruct (f_readable m); reflexivity.
Qed.

Lemma agree_output_file strict nd mode exts f g p : sim f g -> plain_path p -> (strict && negb nd = true -> clear_way f p) ->
  exists f' g' r, output_file1 nd mode exts f p = (f', r) /\ routput_file [] strict nd mode exts g p = (g', verdict r) /\ sim f' g'.
Proof.
  intros S P C. unfold output_file1, routput_file, is_directory, exists_. rewrite (sim_status f g p S P).
  destruct (sim_writeability strict nd f g p S P C) as (f1 & g1 & w & W1 & W2 & S1). rewrite W1, W2.
  assert (Fin : exists f' g' r, match w with WOk => (f1, validate_filename exts p) | _ => (f1, of_wout w) end = (f', r) /\
    match w with WOk => (g1, PV (validate_filename exts p)) | _ => (g1, PV (of_wout w)) end = (g', verdict r) /\ sim f' g').
  { destruct w; eexists _, _, _; (split; [reflexivity|]); (split; [reflexivity|exact S1]). }
  destruct (lookup f p) as [[ct m|m|m]|]; cbn [to_node].
  - destruct mode; [|eexists _, _, _; (split; [reflexivity|]); (split; [reflexivity|exact S])]. destruct w; exact Fin.
  - eexists _, _, _; (split; [reflexivity|]); (split; [reflexivity|exact S]).
  - destruct mode; [|eexists _, _, _; (split; [reflexivity|]); (split; [reflexivity|exact S])]. destruct w; exact Fin.
  - destruct mode; destruct w; exact Fin.
Qed.

Lemma parts_join p : p <> "" -> exists l, parts (path_join p "dummy.txt") = l ++ ["dummy.txt"] /\ forall x, In x l -> In x (parts p).
Proof.
  intros Pn. unfold path_join, parts. destruct (last_chr p) as [c|] eqn:E; [|now apply last_chr_none in E].
  destruct (Ascii.eqb_spec c slash) as [->|Nc].
  - apply last_chr_some in E as [q ->]. exists (split_slash q ""). rewrite app_assoc_s. change (str1 slash +s+ "dummy.txt") with (String slash "dummy.txt").
    rewrite split_slash_app. split; [reflexivity|]. intros x Hx. change (str1 slash) with (String slash ""). rewrite split_slash_app. apply in_or_app. now left.
  - exists (split_slash p ""). change ("/" +s+ "dummy.txt") with (String slash "dummy.txt"). rewrite split_slash_app. split; [reflexivity|auto].
Qed.

Lemma plain_join p : plain_path p -> plain_path (path_join p "dummy.txt").
Proof.
  intros P. destruct (parts_join p (plain_nonempty _ P)) as (l & E & H). destruct P as (P1 & _). unfold plain_path. rewrite E, last_last. split; [|split; discriminate].
  intros Hi. apply in_app_or in Hi as [Hi|[Hi|[]]]; [apply P1; auto|discriminate Hi].
Qed.

Lemma drop_rev l : last l "" <> "" -> trimmed l = l.
Proof.
  intros H. unfold trimmed. destruct (list_eq_dec string_dec l []) as [->|N]; [reflexivity|]. destruct (exists_last N) as (l' & x & ->). rewrite last_last in H.
  rewrite rev_app_distr. cbn. destruct x; [congruence|]. cbn. now rewrite rev_involutive.
Qed.

Lemma clear_join f p : p <> "" -> clear_way f p -> (exists m, f (comps p) = Some (NDir m)) -> clear_way f (path_join p "dummy.txt").
Proof.
  intros Pn C [m D] q l E L H. rewrite (comps_join p Pn) in E. destruct (exists_last L) as (l' & x & ->). rewrite app_assoc in E. apply app_inj_tail in E as [E _].
  destruct (list_eq_dec string_dec l' []) as [->|Nl]; [rewrite app_nil_r in E; subst q; eauto|]. now apply C with l'.
Qed.

Lemma agree_output_directory strict nd f g p : sim f g -> plain_path p -> (strict && negb nd = true -> clear_way f p) ->
  exists f' g' r, output_directory1 nd f p = (f', r) /\ routput_directory [] strict nd g p = (g', verdict r) /\ sim f' g'.
Proof.
  intros S P C. pose proof (plain_nonempty _ P) as Pn. pose proof (plain_join _ P) as Pj.
  destruct (plain_comps _ P) as (d & x & Kd). assert (Kn : comps p <> []) by (rewrite Kd; destruct d; discriminate).
  unfold output_directory1, routput_directory, exists_, create_directory, rcreate_directory. rewrite (sim_status f g p S P).
  destruct (is_empty p) eqn:E; [destruct p; [congruence|discriminate E]|]. rewrite (lookup_nonempty f p Pn).
  rewrite drop_rev by apply P.
  pose proof (resolve_plain f g false p S P) as H. cbn zeta in H. unfold resolve in H. rewrite E in H.
  destruct (walk g false max_links (if absolute p then [] else []) (parts p)) as [k'|k' s| | |].
  - destruct H as [-> H]. destruct (f (comps p)) as [[ct m|m|m]|] eqn:Ek; cbn [to_node negb]; [| | |congruence].
    1, 3: eexists _, _, _; (split; [reflexivity|]); (split; [reflexivity|exact S]).
    destruct (sim_writeability strict nd f g _ S Pj) as (f1 & g1 & w & W1 & W2 & S1).
    { intros B. apply clear_join; eauto. }
    rewrite W1, W2. eexists _, _, _. split; [reflexivity|]. split; [reflexivity|exact S1].
  - destruct H as (-> & -> & H1 & H2). rewrite H1, (sim_writable f g _ S). destruct (parent_writable f (comps p)) eqn:W.
    2:{ eexists _, _, _; (split; [reflexivity|]); (split; [reflexivity|exact S]). }
    set (f1 := upd f (comps p) (Some (NDir rw))). set (g1 := rupd g (comps p) (Some (RDir rall))).
    assert (S1 : sim f1 g1) by (apply (sim_upd f g (comps p) (Some (NDir rw))); auto; right; congruence).
    assert (D1 : f1 (comps p) = Some (NDir rw)) by (unfold f1; apply upd_same). cbn [negb].
    assert (C1 : strict && negb nd = true -> clear_way f1 p) by (intros B; apply clear_upd; auto).
    destruct (sim_writeability strict nd f1 g1 _ S1 Pj) as (f2 & g2 & w & W1 & W2 & S2).
    { intros B. apply clear_join; eauto. }
    rewrite W1, W2. pose proof (writeability_local _ _ _ _ _ W1) as Lo. rewrite (comps_join p Pn) in Lo.
    assert (D2 : f2 (comps p) = Some (NDir rw)).
    { rewrite Lo; [exact D1|]. intros [l Q]. rewrite <- app_assoc in Q. rewrite <- (app_nil_r (comps p)) in Q at 1. apply app_inv_head in Q. discriminate Q. }
    assert (C2 : strict && negb nd = true -> clear_way f2 p).
    { intros B. eapply clear_ext; [exact (C1 B)|]. intros q l Q L. apply Lo. rewrite Q. apply not_below_prefix, L. }
    assert (Un : forall r, exists f' g' r', (let '(f3, r') := unwind nd f2 p r in (f3, of_wout r')) = (f', r') /\
      (let '(f3, r'0) := runwind [] strict nd g2 p r in (f3, PV (of_wout r'0))) = (g', verdict r') /\ sim f' g').
    { intros r. destruct (sim_unwind strict nd f2 g2 p r S2 P C2) as (f3 & g3 & r' & U1 & U2 & S3). rewrite U1, U2. eexists _, _, _. split; [reflexivity|]. split; [reflexivity|exact S3]. }
    destruct w; try apply Un.
    destruct (sim_remove_all strict f2 g2 p S2 P) as (f3 & g3 & e & R1 & R2 & S3); [congruence|]. rewrite R1, R2. pose proof (remove_all_local _ _ _ _ R1) as Lr.
    destruct (sim_unwind strict nd f3 g3 p (if e then WFsError else WOk) S3 P) as (f4 & g4 & r' & U1 & U2 & S4).
    { intros B. eapply clear_ext; [exact (C2 B)|]. intros q l Q L. apply Lr. rewrite Q. rewrite <- (app_nil_r (q ++ l)). apply not_below_prefix, L. }
    rewrite U1, U2. eexists _, _, _. split; [reflexivity|]. split; [reflexivity|exact S4].
  - destruct H as [H1 H2]. rewrite H1. assert (parent_writable f (comps p) = false) as ->.
    { unfold parent_writable, parent_key. destruct (comps p) as [|y l]; [congruence|]. destruct (f (removelast (y :: l))) as [[]|] eqn:Q; try reflexivity. exfalso. eapply H2; eauto. }
    eexists _, _, _; (split; [reflexivity|]); (split; [reflexivity|exact S]).
  - destruct H as (H1 & H2 & _). rewrite H1. assert (parent_writable f (comps p) = false) as ->.
    { unfold parent_writable, parent_key. destruct (comps p) as [|y l]; [congruence|]. destruct (f (removelast (y :: l))) as [[]|] eqn:Q; try reflexivity. exfalso. eapply H2; eauto. }
    eexists _, _, _; (split; [reflexivity|]); (split; [reflexivity|exact S]).
  - destruct H.
Qed.
