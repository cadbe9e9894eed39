(** The test for writeability on POSIX paths. *)
From Verif Require Import Base StrLib Fs Values Validators Posix PosixSpec PosixProofs.
From Coq Require Import Lia.

Section Cwd.
Variable cwd : key.
Variable strict : bool.
Notation resolve := (resolve cwd).
Notation status := (status cwd).
Notation opens := (opens cwd).

Lemma split_cons s : forall acc, exists x l, split_slash s acc = x :: l.
Proof. induction s as [|c s IH]; intros acc; cbn; [eauto|]. destruct (Ascii.eqb c slash); eauto. Qed.
Lemma parts_cons p : parts p <> [].
Proof. destruct (split_cons p "") as (x & l & H). unfold parts. rewrite H. discriminate. Qed.

Definition start (p : string) : key := if absolute p then [] else cwd.

Lemma resolve_leads f b p o : resolve f b p = o -> o <> Refused -> o = NoWay \/ exists n, n <= max_links /\ leads f b n (start p) (parts p) o.
Proof.
  unfold resolve. destruct (is_empty p); [auto|]. intros E N. right. fold (start p) in E.
  destruct (walk_leads f b max_links (parts p) (start p)) as [H|[H _]]; rewrite E in H; [exact H|congruence].
Qed.
Lemma leads_resolve f b p n o : p <> "" -> n <= max_links -> leads f b n (start p) (parts p) o -> resolve f b p = o.
Proof. intros P N H. unfold Posix.resolve. destruct p; [congruence|]. cbn [is_empty]. apply (leads_walk _ _ _ _ _ _ H). exact N. Qed.

(** the entry and what it leads to *)
Lemma entry_cases f p : resolve f true p <> Refused ->
  resolve f false p = resolve f true p \/
  exists l t, resolve f false p = Here l /\ f l = Some (RLink t) /\
    ((t = "" /\ resolve f true p = NoWay) \/ exists n, leads f true n (if absolute t then [] else removelast l) (parts t) (resolve f true p)).
Proof.
  intros N. destruct (string_dec p "") as [->|P]; [now left|].
  assert (H : exists n, n <= max_links /\ leads f true n (start p) (parts p) (resolve f true p)).
  { unfold Posix.resolve in *. destruct p; [congruence|]. cbn [is_empty] in *. 
    destruct (walk_leads f true max_links (parts (String a p)) (start (String a p))) as [H|[H _]]; [exact H|]. exfalso. apply N. exact H. }
  destruct H as (n & Hn & H). destruct (leads_follow _ _ _ _ _ H) as [H'|(l & t & n1 & H1 & H2 & H3 & H4)].
  - left. eapply leads_resolve; eauto.
  - right. exists l, t. split; [eapply leads_resolve; [exact P| |exact H1]; lia|]. auto.
Qed.

Definition plain (nd : rnode) : Prop := match nd with RFile _ _ | ROther _ => True | _ => False end.

(** ** One entry changed that is no directory *)
Section Change.
Variables (f : rfs) (k : key) (ct : string) (m : rmeta).
Let g := rupd f k (Some (RFile ct m)).
Hypothesis sf : sane f.
Hypothesis K : (exists nd, f k = Some nd /\ plain nd) \/ f k = None /\ rparent_writable f k = true.

Lemma k_nonempty : k <> [].
Proof.
  intros ->. destruct K as [(nd & H & P)|[H _]]; destruct sf as [[m' R] _]; rewrite R in H; [injection H as <-; exact P|discriminate].
Qed.
Lemma dir_iff k' m' : g k' = Some (RDir m') <-> f k' = Some (RDir m').
Proof.
  unfold g. destruct (list_eqb k k') eqn:E.
  - apply list_eqb_iff in E. subst k'. rewrite rupd_same. destruct K as [(nd & H & P)|[H _]]; rewrite H; split; try discriminate. intros [= ->]. destruct P.
  - rewrite rupd_other; [reflexivity|]. intros ->. rewrite (proj2 (list_eqb_iff _ _) eq_refl) in E. discriminate E.
Qed.
Lemma change_sane : sane g.
Proof.
  destruct sf as [[mr R] S]. split; [exists mr; now apply dir_iff|].
  intros k' c n H. assert (exists m', f k' = Some (RDir m')) as [m' D].
  { unfold g in H. destruct (list_eqb k (k' ++ [c])) eqn:E.
    - apply list_eqb_iff in E. destruct K as [(nd & Hk & _)|[_ Hk]]; [rewrite E in Hk; eauto|].
      rewrite E in Hk. unfold rparent_writable in Hk. rewrite removelast_snoc in Hk. destruct (f k') as [[| m'| |]|]; try (destruct (k' ++ [c]); discriminate Hk). eauto.
    - rewrite rupd_other in H; [eauto|]. intros E'. rewrite (proj2 (list_eqb_iff _ _) (eq_sym E')) in E. discriminate E. }
  exists m'. now apply dir_iff.
Qed.
Lemma change_writable e : rparent_writable g e = rparent_writable f e.
Proof.
  unfold rparent_writable. destruct e as [|x e]; [reflexivity|].
  destruct (g (removelast (x :: e))) as [[]|] eqn:E; destruct (f (removelast (x :: e))) as [[]|] eqn:E'; try reflexivity;
    try (apply dir_iff in E; rewrite E' in E; (discriminate E || now injection E as <-)); try (apply dir_iff in E'; congruence).
Qed.
End Change.

Lemma writable_dir f k : rparent_writable f k = true -> exists m, f (removelast k) = Some (RDir m).
Proof. unfold rparent_writable. destruct k as [|x k]; [discriminate|]. destruct (f (removelast (x :: k))) as [[]|]; try discriminate. eauto. Qed.

(** the entry [p] removed: there is nothing any more *)
Lemma resolve_removed f p l nd : sane f -> is_dir f cwd -> p <> "" -> resolve f false p = Here l -> f l = Some nd -> (forall m, nd <> RDir m) ->
  (forall t, nd = RLink t -> forall n2 k, leads f true n2 (if absolute t then [] else removelast l) (parts t) (Here k) -> ~ is_dir f k) ->
  resolve (rupd f l None) false p = Nothing l false.
Proof.
  intros S D P R L N1 N2. destruct (resolve_leads _ _ _ _ R) as [H|(n & Hn & H)]; try discriminate.
  eapply leads_resolve; [exact P|exact Hn|]. eapply leads_removed; eauto; [|apply parts_cons].
  unfold start. destruct (absolute p); [apply S|exact D].
Qed.

Lemma removed_all f p l : resolve f false p = Nothing l false -> rremove_all cwd strict f p = (f, false).
Proof. intros H. unfold rremove_all. now rewrite H. Qed.

Lemma unwind_removed nd f p l r : resolve f false p = Nothing l false -> runwind cwd strict nd f p r = (f, r).
Proof. intros H. unfold runwind. rewrite (removed_all _ _ _ H). destruct r; reflexivity. Qed.

Lemma put_rupd k n f : put k n f (rupd f k n).
Proof. split; [apply rupd_same|]. intros k' H. now apply rupd_other. Qed.

(** a file was opened: [e] is the entry, [g] the file system with the file emptied or made *)
Lemma after_open nd g p e k : sane g -> is_dir g cwd -> p <> "" -> resolve g false p = Here e ->
  (exists ne, g e = Some ne /\ ((e = k /\ plain ne) \/ exists t, ne = RLink t /\ exists n, leads g true n (if absolute t then [] else removelast e) (parts t) (Here k))) ->
  ~ is_dir g k ->
  (let '(f2, err) := rremove cwd g p in runwind cwd strict nd f2 p (if err then WFsError else WOk)) =
  if rparent_writable g e then (rupd g e None, WOk) else (g, if nd then WFsError else WAssert).
Proof.
  intros S D P R (ne & E & T) Nd. unfold rremove. rewrite R. destruct (rparent_writable g e) eqn:W.
  - cbn [fst snd]. apply (unwind_removed nd _ p e). eapply resolve_removed; eauto.
    + intros m ->. destruct T as [[-> []]|(t & T & _)]; discriminate T.
    + intros t -> n2 k2 H2. destruct T as [[_ []]|(t' & T & n & H)]. injection T as <-. pose proof (leads_det _ _ _ _ _ _ _ _ H H2) as Q. injection Q as <-. exact Nd.
  - unfold runwind, rremove_all. rewrite R, W. destruct nd; reflexivity.
Qed.

Lemma probe_lemma nd f p f' r : sane f -> is_dir f cwd -> (status f p = StNone \/ exists n, status f p = StNode n /\ forall m, n <> RDir m) ->
  rvalidate_writeability cwd strict nd f p = (f', r) -> probed cwd strict nd f p f' r.
Proof.
  intros S D St V.
  assert (V' : (let '(f1, good) := ropen_write cwd f p in
      if negb good then runwind cwd strict nd f1 p (not_writable p)
      else let '(f2, err) := rremove cwd f1 p in runwind cwd strict nd f2 p (if err then WFsError else WOk)) = (f', r)).
  { unfold rvalidate_writeability in V. destruct St as [St|(n & St & N)]; rewrite St in V; [exact V|]. destruct n; try exact V. exfalso. eapply N; reflexivity. }
  clear V. assert (NR : resolve f true p <> Refused).
  { intros E. unfold Posix.status in St. rewrite E in St. destruct St as [St|(n & St & _)]; discriminate St. }
  destruct (string_dec p "") as [->|P].
  { cbn in V'. destruct nd; injection V' as <- <-; cbn; split; try reflexivity; intros k; reflexivity. }
  unfold probed. destruct (opens f p) as [[k n]|] eqn:O.
  - (* opened *)
    assert (C : exists g, ropen_write cwd f p = (g, true) /\ put k (Some n) f g /\ sane g /\ is_dir g cwd /\ resolve g false p = Here (named cwd f p k) /\
      (exists ne, g (named cwd f p k) = Some ne /\ ((named cwd f p k = k /\ plain ne) \/ exists t, ne = RLink t /\
         exists n, leads g true n (if absolute t then [] else removelast (named cwd f p k)) (parts t) (Here k))) /\
      ~ is_dir g k /\ rparent_writable g (named cwd f p k) = rparent_writable f (named cwd f p k)).
    { unfold PosixSpec.opens in O. unfold ropen_write. destruct (resolve f true p) as [kt|kt sl| | |] eqn:T; try discriminate O.
      - destruct (f kt) as [[ct m| |m|]|] eqn:Fk; try discriminate O; destruct (x_write m) eqn:Xw; try discriminate O; injection O as <- <-.
        + (* a file *)
          assert (Kk : (exists nd, f kt = Some nd /\ plain nd) \/ f kt = None /\ rparent_writable f kt = true) by (left; eexists; split; [exact Fk|exact Logic.I]).
          exists (rupd f kt (Some (RFile "" m))). split; [reflexivity|]. split; [apply put_rupd|]. split; [now apply change_sane|].
          split; [destruct D as [md D]; exists md; now apply dir_iff|].
          unfold named. rewrite change_writable by assumption.
          destruct (entry_cases f p) as [E|(l & t & E & L & H)]; [congruence|rewrite E; rewrite T|rewrite E].
          * split.
            { rewrite T in E. destruct (resolve_leads _ _ _ _ E) as [H|(n & Hn & H)]; try discriminate.
              eapply leads_resolve; [exact P|exact Hn|]. eapply leads_content; eauto; discriminate. }
            split; [eexists; split; [apply rupd_same|]; left; split; [reflexivity|exact Logic.I]|]. split; [|reflexivity].
            intros [m' H]. rewrite rupd_same in H. discriminate H.
          * split.
            { destruct (resolve_leads _ _ _ _ E) as [H'|(n & Hn & H')]; try discriminate.
              eapply leads_resolve; [exact P|exact Hn|]. eapply leads_content; eauto; discriminate. }
            rewrite T in H. destruct H as [[_ H]|[n H]]; [discriminate H|].
            split.
            { exists (RLink t). split; [rewrite rupd_other; [exact L|congruence]|]. right. exists t. split; [reflexivity|]. exists n.
              eapply leads_content; eauto; discriminate. }
            split; [|reflexivity]. intros [m' H']. rewrite rupd_same in H'. discriminate H'.
        + (* something else that can be written to *)
          exists f. split; [reflexivity|]. split; [split; [exact Fk|auto]|]. split; [exact S|]. split; [exact D|].
          unfold named. destruct (entry_cases f p) as [E|(l & t & E & L & H)]; [congruence|rewrite E; rewrite T|rewrite E].
          * split; [reflexivity|]. split; [eexists; split; [exact Fk|]; left; split; [reflexivity|exact Logic.I]|]. split; [|reflexivity].
            intros [m' H]. congruence.
          * split; [reflexivity|]. rewrite T in H. destruct H as [[_ H]|[n H]]; [discriminate H|].
            split; [exists (RLink t); split; [exact L|]; right; exists t; eauto|]. split; [|reflexivity]. intros [m' H']. congruence.
      - (* a new file *)
        destruct sl; [discriminate O|]. destruct (rparent_writable f kt) eqn:W; [|discriminate O]. injection O as <- <-.
        assert (Fk : f kt = None).
        { destruct (resolve_leads _ _ _ _ T) as [H|(n & Hn & H)]; try discriminate. eapply leads_missing; eauto. }
        assert (Kk : (exists nd, f kt = Some nd /\ plain nd) \/ f kt = None /\ rparent_writable f kt = true) by auto.
        exists (rupd f kt (Some (RFile "" rall))). split; [reflexivity|]. split; [apply put_rupd|]. split; [now apply change_sane|].
        split; [destruct D as [md D]; exists md; now apply dir_iff|].
        unfold named. rewrite change_writable by assumption.
        destruct (entry_cases f p) as [E|(l & t & E & L & H)]; [congruence|rewrite E; rewrite T|rewrite E].
        * split.
          { rewrite T in E. destruct (resolve_leads _ _ _ _ E) as [H|(n & Hn & H)]; try discriminate.
            eapply leads_resolve; [exact P|exact Hn|]. eapply leads_made; eauto. }
          split; [eexists; split; [apply rupd_same|]; left; split; [reflexivity|exact Logic.I]|]. split; [|reflexivity].
          intros [m' H]. rewrite rupd_same in H. discriminate H.
        * split.
          { destruct (resolve_leads _ _ _ _ E) as [H'|(n & Hn & H')]; try discriminate.
            eapply leads_resolve; [exact P|exact Hn|]. eapply leads_new; eauto. }
          rewrite T in H. destruct H as [[_ H]|[n H]]; [discriminate H|].
          split.
          { exists (RLink t). split; [rewrite rupd_other; [exact L|congruence]|]. right. exists t. split; [reflexivity|]. exists n. eapply leads_made; eauto. }
          split; [|reflexivity]. intros [m' H']. rewrite rupd_same in H'. discriminate H'. }
    destruct C as (g & Og & Pg & Sg & Dg & Rg & Eg & Ng & Wg). rewrite Og in V'. cbn [negb] in V'.
    rewrite (after_open nd g p _ k Sg Dg P Rg Eg Ng), Wg in V'.
    destruct (rparent_writable f (named cwd f p k)); injection V' as <- <-; (split; [|reflexivity]); [exists g; split; [exact Pg|apply put_rupd]|exact Pg].
  - (* not opened *)
    assert (Og : ropen_write cwd f p = (f, false)).
    { unfold PosixSpec.opens in O. unfold ropen_write. destruct (resolve f true p) as [kt|kt sl| | |]; try reflexivity.
      - destruct (f kt) as [[ct m| |m|]|]; try reflexivity; destruct (x_write m); try discriminate O; reflexivity.
      - destruct sl; [reflexivity|]. destruct (rparent_writable f kt); [discriminate O|reflexivity]. }
    rewrite Og in V'. cbn [negb] in V'. unfold runwind, not_writable, rremove_all in *.
    destruct (entry_cases f p NR) as [E|(l & t & E & L & H)].
    + destruct (resolve f false p) as [l|l sl| | |] eqn:Ef; cbn in V'.
      * destruct (rparent_writable f l) eqn:W.
        -- assert (Nd : match f l with Some (RDir _) => fun k' => if list_prefixb l k' then None else f k' | _ => rupd f l None end = rupd f l None).
           { destruct (f l) as [[]|] eqn:Fl; try reflexivity. exfalso. unfold Posix.status in St. rewrite <- E, Fl in St.
             destruct St as [St|(n & St & N)]; [discriminate St|]. injection St as <-. eapply N; reflexivity. }
           rewrite Nd in V'. injection V' as <- <-. split; [apply put_rupd|reflexivity].
        -- injection V' as <- <-. split; [intros k; reflexivity|]. now destruct nd.
      * injection V' as <- <-. split; [intros k; reflexivity|reflexivity].
      * injection V' as <- <-. split; [intros k; reflexivity|reflexivity].
      * injection V' as <- <-. split; [intros k; reflexivity|reflexivity].
      * congruence.
    + rewrite E in *. cbn in V'. destruct (rparent_writable f l) eqn:W.
      * rewrite L in V'. injection V' as <- <-. split; [apply put_rupd|reflexivity].
      * injection V' as <- <-. split; [intros k; reflexivity|]. now destruct nd.
Qed.
End Cwd.
