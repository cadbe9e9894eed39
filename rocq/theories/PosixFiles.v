(** The validators for output files and directories on POSIX paths. *)
From Verif Require Import Base StrLib Fs Values Validators ValidatorsSpec ValidatorsFs Posix PosixSpec PosixProofs PosixWrite PosixPlain.
From Coq Require Import Lia.

Section Cwd.
Variable cwd : key.
Variable strict : bool.
Notation resolve := (resolve cwd).
Notation status := (status cwd).
Notation start := (start cwd).

(** ** Output files *)

Lemma output_file_lemma nd mode exts f p f' r : sane f -> PosixSpec.is_dir f cwd -> routput_file cwd strict nd mode exts f p = (f', r) ->
  match status f p with
  | StError => same f f' /\ r = PFs
  | StNode (RDir _) => same f f' /\ r = PV (VThrow (dq p +s+ " is a directory. Expected a file."))
  | StNode _ => (mode = CreateNew /\ same f f' /\ r = PV (VThrow ("The file " +s+ dq p +s+ " already exists!"))) \/
                (mode = OpenOrCreate /\ exists w, probed cwd strict nd f p f' w /\ r = file_result exts p w)
  | StNone => exists w, probed cwd strict nd f p f' w /\ r = file_result exts p w
  end.
Proof.
  intros S D H. unfold routput_file in H.
  assert (Go : (status f p = StNone \/ exists n, status f p = StNode n /\ forall m, n <> RDir m) ->
    match rvalidate_writeability cwd strict nd f p with (f', WOk) => (f', PV (validate_filename exts p)) | (f', r) => (f', PV (of_wout r)) end = (f', r) ->
    exists w, probed cwd strict nd f p f' w /\ r = file_result exts p w).
  { intros St V. destruct (rvalidate_writeability cwd strict nd f p) as [f1 w] eqn:W. pose proof (probe_lemma cwd strict nd f p f1 w S D St W) as Pr.
    exists w. destruct w; injection V as <- <-; auto. }
  destruct (status f p) as [n| |] eqn:St.
  - destruct n as [ct m|m|m|t]; destruct mode; try (injection H as <- <-; try (left; split; [reflexivity|]); split; [intros k; reflexivity|reflexivity]; fail);
      (right; split; [reflexivity|]; apply Go; [right; eexists; split; [reflexivity|discriminate]|exact H]).
  - apply Go; [now left|]. destruct mode; exact H.
  - injection H as <- <-. split; [intros k; reflexivity|reflexivity].
Qed.

Lemma put_same k f g : put k (f k) f g -> same f g.
Proof. intros [H1 H2] k'. destruct (list_eq_dec string_dec k' k) as [->|N]; [exact H1|now apply H2]. Qed.

Lemma status_none f p : status f p = StNone -> resolve f true p <> Refused.
Proof. unfold Posix.status. intros H E. rewrite E in H. discriminate H. Qed.

Lemma missing_key f p k s : resolve f true p = Nothing k s -> f k = None.
Proof. intros T. destruct (resolve_leads _ _ _ _ _ T) as [H|(n & Hn & H)]; try discriminate. eapply leads_missing; eauto. Qed.

(** create_new: accepted paths *)
Lemma create_new_accepts_lemma nd exts f p : sane f -> PosixSpec.is_dir f cwd ->
  snd (routput_file cwd strict nd CreateNew exts f p) = PV VOk <->
  validate_filename exts p = VOk /\ exists k, resolve f true p = Nothing k false /\ rparent_writable f k = true /\ rparent_writable f (named cwd f p k) = true.
Proof.
  intros S D. destruct (routput_file cwd strict nd CreateNew exts f p) as [f' r] eqn:H. cbn [snd]. pose proof (output_file_lemma _ _ _ _ _ _ _ S D H) as L.
  destruct (status f p) as [n| |] eqn:St.
  - assert (R : r <> PV VOk) by (destruct n; try (destruct L as [_ ->]; discriminate); destruct L as [(_ & _ & ->)|(L & _)]; discriminate).
    split; [contradiction|]. intros (_ & k & T & _). unfold Posix.status in St. rewrite T in St. discriminate St.
  - destruct L as (w & P & ->). unfold probed, opens in P.
    assert (No : match resolve f true p with Nothing k false => rparent_writable f k = false | Here _ => False | _ => True end ->
       match resolve f false p with
      | Here l => if rparent_writable f l then put l None f f' /\ w = not_writable p else same f f' /\ w = (if nd then not_writable p else WAssert)
      | NotDir => same f f' /\ w = (if strict && negb nd then WAssert else not_writable p)
      | _ => same f f' /\ w = not_writable p
      end -> file_result exts p w = PV VOk <-> validate_filename exts p = VOk /\ exists k, resolve f true p = Nothing k false /\ rparent_writable f k = true /\ rparent_writable f (named cwd f p k) = true).
    { intros T Pw. split.
      - intros Q. exfalso. unfold not_writable in Pw. destruct (resolve f false p) as [l|l s| | |].
        + destruct (rparent_writable f l); destruct Pw as [_ ->]; [discriminate Q|destruct nd; discriminate Q].
        + destruct Pw as [_ ->]. discriminate Q.
        + destruct Pw as [_ ->]. discriminate Q.
        + destruct Pw as [_ ->]. destruct (strict && negb nd); discriminate Q.
        + destruct Pw as [_ ->]. discriminate Q.
      - intros (_ & k & Q & W & _). rewrite Q in T. congruence. }
    destruct (resolve f true p) as [k|k s| | |] eqn:T.
    + exfalso. unfold Posix.status in St. rewrite T in St. destruct (f k) eqn:Fk; [discriminate St|].
      destruct (resolve_leads _ _ _ _ _ T) as [H'|(n & Hn & H')]; try discriminate.
      assert (exists nd, f k = Some nd) as [x Hx]; [|congruence]. clear -H' S D.
      assert (Ex : forall n cur rest o, leads f true n cur rest o -> (exists nd, f cur = Some nd) -> forall l, o = Here l -> exists nd, f l = Some nd).
      { induction 1; intros E l Q; try discriminate Q; eauto.
        - now injection Q as <-.
        - apply IHleads; [|exact Q]. destruct (sane_up f cur S) as [m' Hm]; [eexists; eauto|]. eauto.
        - injection Q as <-. eauto.
        - apply IHleads; [|exact Q]. destruct (absolute t); [destruct S as [[m' Hm] _]; eauto|exact E]. }
      apply (Ex _ _ _ _ H'); [|reflexivity]. unfold PosixWrite.start. destruct (absolute p); [destruct S as [[m' Hm] _]|destruct D as [m' Hm]]; eauto.
    + destruct s; [apply No; auto|]. destruct (rparent_writable f k) eqn:W; [|apply No; auto].
      destruct (rparent_writable f (named cwd f p k)) eqn:W2.
      * destruct P as [_ ->]. cbn. split; [intros [= Q]; eauto|]. intros [-> _]. reflexivity.
      * destruct P as [_ ->]. split; [destruct nd; discriminate|]. intros (_ & k' & [= <-] & _ & Q). congruence.
    + apply No; auto.
    + apply No; auto.
    + exfalso. now apply status_none in St.
  - destruct L as [_ ->]. split; [discriminate|]. intros (_ & k & T & _). unfold Posix.status in St. rewrite T in St. discriminate St.
Qed.

(** create_new leaves nothing behind, unless the path is a link *)
Lemma create_new_trace_lemma nd exts f p f' r : sane f -> PosixSpec.is_dir f cwd -> routput_file cwd strict nd CreateNew exts f p = (f', r) ->
  (forall l t, resolve f false p = Here l -> f l <> Some (RLink t)) -> same f f'.
Proof.
  intros S D H N. pose proof (output_file_lemma _ _ _ _ _ _ _ S D H) as L. destruct (status f p) as [n| |] eqn:St; [| |apply L].
  { destruct n; try apply L; destruct L as [(_ & L & _)|(L & _)]; try exact L; discriminate L. }
  destruct L as (w & P & ->). pose proof (status_none _ _ St) as NR. destruct (entry_cases cwd f p NR) as [E|(l & t & E & L & _)]; [|exfalso; eapply N; eauto].
  unfold probed, opens, named in P. rewrite E in P. unfold Posix.status in St. destruct (resolve f true p) as [k|k s| | |] eqn:T; try (apply P).
  - destruct (f k) eqn:Fk; [discriminate St|]. destruct (rparent_writable f k); [|apply P]. destruct P as [P _]. rewrite <- Fk in P. now apply put_same in P.
  - pose proof (missing_key _ _ _ _ T) as Fk. destruct s; [apply P|]. cbn iota beta in P. destruct (rparent_writable f k) eqn:W; [rewrite W in P|apply P].
    destruct P as [(f1 & [_ P1] & [P2 P3]) _]. intros k'. destruct (list_eq_dec string_dec k' k) as [->|Nk]; [congruence|]. rewrite P3, P1 by exact Nk. reflexivity.
Qed.

(** a link to nothing: the file it points to is made and stays, the link goes *)
Lemma create_new_link_lemma nd exts f p l t k : sane f -> PosixSpec.is_dir f cwd -> resolve f false p = Here l -> f l = Some (RLink t) ->
  resolve f true p = Nothing k false -> rparent_writable f k = true -> rparent_writable f l = true ->
  exists f' f1, routput_file cwd strict nd CreateNew exts f p = (f', PV (validate_filename exts p)) /\ put k (Some (RFile "" rall)) f f1 /\ put l None f1 f'.
Proof.
  intros S D E L T Wk Wl. destruct (routput_file cwd strict nd CreateNew exts f p) as [f' r] eqn:H. pose proof (output_file_lemma _ _ _ _ _ _ _ S D H) as O.
  unfold Posix.status in O. rewrite T in O. destruct O as (w & P & ->). unfold probed, opens, named in P. rewrite T, E, Wk, Wl in P.
  destruct P as [(f1 & P1 & P2) ->]. exists f', f1. auto.
Qed.

(** nothing is touched but the file that is written and the entry that is removed *)
Lemma output_file_frame_lemma nd mode exts f p f' r k : sane f -> PosixSpec.is_dir f cwd -> routput_file cwd strict nd mode exts f p = (f', r) ->
  f' k <> f k -> resolve f true p = Here k \/ resolve f true p = Nothing k false \/ resolve f false p = Here k.
Proof.
  intros S D H N. pose proof (output_file_lemma _ _ _ _ _ _ _ S D H) as L.
  assert (Go : forall w, probed cwd strict nd f p f' w -> resolve f true p = Here k \/ resolve f true p = Nothing k false \/ resolve f false p = Here k).
  { intros w P. unfold probed in P. destruct (opens cwd f p) as [[k1 n]|] eqn:O.
    - assert (T : resolve f true p = Here k1 \/ resolve f true p = Nothing k1 false).
      { unfold opens in O. destruct (resolve f true p) as [kt|kt s| | |]; try discriminate O.
        - destruct (f kt) as [[ct m| |m|]|]; try discriminate O; destruct (x_write m); try discriminate O; injection O as <- _; auto.
        - destruct s; [discriminate O|]. destruct (rparent_writable f kt); [|discriminate O]. injection O as <- _. auto. }
      destruct (list_eq_dec string_dec k k1) as [->|N1]; [tauto|].
      destruct (rparent_writable f (named cwd f p k1)).
      + destruct P as [(f1 & [_ P1] & [_ P2]) _]. destruct (list_eq_dec string_dec k (named cwd f p k1)) as [En|N2].
        * unfold named in En. destruct (resolve f false p) as [l|l s| | |]; subst; tauto.
        * exfalso. apply N. rewrite P2, P1 by assumption. reflexivity.
      + destruct P as [[_ P1] _]. exfalso. apply N. now apply P1.
    - destruct (resolve f false p) as [l|l s| | |]; try (exfalso; apply N, P).
      destruct (rparent_writable f l); [|exfalso; apply N, P]. destruct P as [[_ P] _].
      destruct (list_eq_dec string_dec k l) as [->|N2]; [tauto|]. exfalso. apply N. now apply P. }
  destruct (status f p) as [n| |]; [|destruct L as (w & P & _); eauto|exfalso; apply N, L].
  destruct n; try (destruct L as [(_ & L & _)|(_ & w & P & _)]; [exfalso; apply N, L|eauto]; fail). exfalso. apply N, L.
Qed.

(** ** Output directories *)

Lemma split_trimmed l : exists es, l = trimmed l ++ es /\ forall x, In x es -> x = "".
Proof.
  unfold trimmed. assert (H : forall r, exists es, r = es ++ drop_empty r /\ forall x, In x es -> x = "").
  { induction r as [|c r (es & E & H)]; [exists []; split; [reflexivity|intros x []]|]. cbn. destruct (is_empty c) eqn:Ec.
    - exists (c :: es). split; [cbn; congruence|]. intros x [<-|Hx]; [destruct c; [reflexivity|discriminate]|auto].
    - exists []. split; [reflexivity|intros x []]. }
  destruct (H (rev l)) as (es & E & Hes). exists (rev es). split; [|intros x Hx; apply Hes; now apply in_rev].
  rewrite <- rev_app_distr, <- E. now rewrite rev_involutive.
Qed.

Lemma leads_then f n1 cur a k : leads f true n1 cur a (Here k) -> forall b n2 rest o, rest <> [] -> leads f b n2 k rest o -> leads f b (n1 + n2) cur (a ++ rest) o.
Proof.
  intros H. remember (Here k) as o1 eqn:E. revert E.
  induction H; intros E b n2 suf o2 R L2; try discriminate E; try discriminate H5.
  - injection E as ->. exact L2.
  - cbn [app]. eapply l_slash; eauto.
  - cbn [app]. eapply l_dot; eauto.
  - cbn [app]. eapply l_up; eauto.
  - cbn [app]. eapply l_down; eauto.
  - cbn [app]. cbn [plus]. eapply l_link; eauto; [right; destruct rest; [exact R|discriminate]|]. rewrite app_assoc. eapply IHleads; eauto.
Qed.

Lemma leads_slashes f b k m es : f k = Some (RDir m) -> (forall x, In x es -> x = "") -> leads f b 0 k es (Here k).
Proof. intros D. induction es as [|x es IH]; intros H; [constructor|]. rewrite (H x) by now left. eapply l_slash; [exact D|]. apply IH. intros y Hy. apply H. now right. Qed.

Lemma leads_slashes_then f b k m es d : f k = Some (RDir m) -> x_search m = true -> (forall x, In x es -> x = "") -> d <> "" -> d <> "." -> d <> ".." -> f (k ++ [d]) = None ->
  leads f b 0 k (es ++ [d]) (Nothing (k ++ [d]) false).
Proof.
  intros D X H N1 N2 N3 M. induction es as [|x es IH]; [eapply l_missing; eauto|]. rewrite (H x) by now left. eapply l_slash; [exact D|]. apply IH. intros y Hy. apply H. now right.
Qed.

Lemma leads_missing_follow f n cur rest o : leads f false n cur rest o -> forall k s, o = Nothing k s -> leads f true n cur rest o.
Proof. induction 1; intros k s E; try discriminate E; try (econstructor; eauto; fail). Qed.

(** a new directory *)
Lemma leads_made_dir f b n cur rest o : leads f b n cur rest o -> forall k s, o = Nothing k s -> leads (rupd f k (Some (RDir rall))) b n cur rest (Here k).
Proof.
  induction 1; intros k s E; try discriminate E.
  - assert (f k = None) by (eapply leads_missing; eauto). eapply l_slash; [rewrite rupd_other; [eassumption|congruence]|]. eauto.
  - assert (f k = None) by (eapply leads_missing; eauto). eapply l_dot; [rewrite rupd_other; [eassumption|congruence]|assumption|]. eauto.
  - assert (f k = None) by (eapply leads_missing; eauto). eapply l_up; [rewrite rupd_other; [eassumption|congruence]|assumption|]. eauto.
  - injection E as <- _. eapply l_down; [rewrite rupd_other; [eassumption|congruence]| | | | |apply rupd_same|discriminate|constructor]; assumption.
  - injection E as <- _. eapply l_down; [rewrite rupd_other; [eassumption|congruence]| | | | |apply rupd_same|discriminate|]; try assumption.
    eapply leads_slashes; [apply rupd_same|assumption].
  - assert (f k = None) by (eapply leads_missing; eauto). eapply l_down; [rewrite rupd_other; [eassumption|congruence]| | | | |rewrite rupd_other; [eassumption|congruence]|assumption|]; eauto.
  - assert (f k = None) by (eapply leads_missing; eauto). eapply l_link; [rewrite rupd_other; [eassumption|congruence]| | | | |rewrite rupd_other; [eassumption|congruence]| | |]; eauto.
Qed.

Lemma leads_missing_slashes f b n cur rest o : leads f b n cur rest o -> forall k es, o = Nothing k false -> es <> [] -> (forall x, In x es -> x = "") -> leads f b n cur (rest ++ es) (Nothing k true).
Proof.
  induction 1; intros k es E Ne He; try discriminate E; cbn [app].
  - eapply l_slash; eauto.
  - eapply l_dot; eauto.
  - eapply l_up; eauto.
  - injection E as <-. eapply l_missing_slash; eauto.
  - eapply l_down; eauto.
  - eapply l_link; eauto; [right; destruct rest; [exact Ne|discriminate]|]. rewrite app_assoc. eapply IHleads; eauto.
Qed.

(** there is something at [p]: so there is an entry, not counting slashes *)
Lemma entry_exists f p k : p <> "" -> resolve f true p = Here k -> exists l, entry_place cwd f p = Here l.
Proof.
  intros P T. destruct (resolve_leads _ _ _ _ _ T) as [H|(n & Hn & H)]; try discriminate.
  destruct (split_trimmed (parts p)) as (es & E & He). unfold entry_place. fold (start p).
  assert (A : exists n1 k1, n1 <= n /\ leads f true n1 (start p) (trimmed (parts p)) (Here k1)).
  { destruct es as [|x es].
    - rewrite app_nil_r in E. rewrite <- E. eauto.
    - destruct (leads_append _ _ _ _ _ _ H (trimmed (parts p)) (x :: es) E) as (n1 & o1 & L1 & M1); [discriminate|]. destruct o1 as [k1|k1 s| | |]; try discriminate M1.
      + destruct M1 as (n2 & -> & _). exists n1, k1. split; [lia|exact L1].
      + exfalso. rewrite (proj2 (no_more_iff (x :: es)) He) in M1. discriminate M1. }
  destruct A as (n1 & k1 & H1 & A). destruct (leads_follow _ _ _ _ _ A) as [B|(l & t & n2 & B & _ & H2 & _)].
  - exists k1. eapply leads_walk; [exact B|]. lia.
  - exists l. eapply leads_walk; [exact B|]. lia.
Qed.

Lemma output_directory_existing nd f p m : status f p = StNode (RDir m) ->
  routput_directory cwd strict nd f p =
  (let '(f', w) := rvalidate_writeability cwd strict nd f (path_join p "dummy.txt") in (f', PV (of_wout w))).
Proof.
  intros St. destruct (string_dec p "") as [->|P]; [discriminate St|]. unfold routput_directory, rcreate_directory. rewrite St.
  destruct (is_empty p) eqn:E; [destruct p; [congruence|discriminate E]|].
  unfold Posix.status in St. destruct (resolve f true p) as [k|k s| | |] eqn:T; try discriminate St.
  destruct (entry_exists f p k P T) as [l Hl]. unfold entry_place in Hl. rewrite Hl. reflexivity.
Qed.

Lemma join_parts p : p <> "" -> exists es, parts (path_join p "dummy.txt") = trimmed (parts p) ++ es ++ ["dummy.txt"] /\ forall x, In x es -> x = "".
Proof.
  intros Pn. destruct (split_trimmed (parts p)) as (es & E & He).
  assert (J : exists l, parts (path_join p "dummy.txt") = l ++ ["dummy.txt"] /\ (l = parts p \/ parts p = l ++ [""])).
  { unfold path_join, parts. destruct (last_chr p) as [c|] eqn:El; [|now apply last_chr_none in El].
    destruct (Ascii.eqb_spec c slash) as [->|Nc].
    - apply last_chr_some in El as [q ->]. exists (split_slash q ""). rewrite app_assoc_s. change (str1 slash +s+ "dummy.txt") with (String slash "dummy.txt").
      rewrite split_slash_app. split; [reflexivity|]. right. change (str1 slash) with (String slash ""). rewrite split_slash_app. reflexivity.
    - exists (split_slash p ""). change ("/" +s+ "dummy.txt") with (String slash "dummy.txt"). rewrite split_slash_app. split; [reflexivity|auto]. }
  destruct J as (l & -> & [->|Jl]).
  - exists es. split; [|exact He]. now rewrite E at 1; rewrite app_assoc.
  - destruct (list_eq_dec string_dec es []) as [->|Ne].
    + exfalso. rewrite app_nil_r in E. rewrite Jl in E. unfold trimmed in E. rewrite rev_app_distr in E. cbn in E.
      assert (Le : List.length (l ++ [""]) <= List.length l).
      { rewrite E at 1. rewrite rev_length. assert (forall r, List.length (drop_empty r) <= List.length r) by (induction r as [|c r IH]; cbn; [lia|destruct (is_empty c); cbn; lia]).
        etransitivity; [apply H|]. now rewrite rev_length. }
      rewrite app_length in Le. cbn in Le. lia.
    + destruct (exists_last Ne) as (es' & x & ->). rewrite Jl in E at 1. rewrite app_assoc in E. apply app_inj_tail in E as [E _].
      exists es'. split; [now rewrite E at 1; rewrite app_assoc|]. intros y Hy. apply He, in_or_app. now left.
Qed.

Lemma walk_resolve_same f g b p : same f g -> resolve g b p = resolve f b p.
Proof. intros S. unfold Posix.resolve. now rewrite (walk_same _ _ b S). Qed.

Lemma mkdir_sane f k : sane f -> f k = None -> rparent_writable f k = true -> sane (rupd f k (Some (RDir rall))).
Proof.
  intros [[m R] S] N W. split.
  - exists m. rewrite rupd_other; [exact R|congruence].
  - intros q c n H. assert (PosixSpec.is_dir f q) as [m' D].
    { destruct (list_eq_dec string_dec (q ++ [c]) k) as [<-|Nk].
      - apply writable_dir in W. now rewrite removelast_snoc in W.
      - rewrite rupd_other in H by exact Nk. eapply S; eauto. }
    exists m'. rewrite rupd_other; [exact D|congruence].
Qed.

Lemma sane_below f k l : sane f -> f k = None -> f (k ++ l) = None.
Proof.
  intros S N. destruct l as [|x l] using rev_ind; [now rewrite app_nil_r|]. rewrite app_assoc. destruct (f ((k ++ l) ++ [x])) eqn:E; [|reflexivity].
  destruct S as [_ S]. destruct (S _ _ _ E) as [m D]. congruence.
Qed.

(** a directory that is not there: accepted if it can be made, and in any case nothing is left behind *)
Lemma output_directory_missing nd f p f' r : sane f -> PosixSpec.is_dir f cwd -> status f p = StNone -> routput_directory cwd strict nd f p = (f', r) ->
  same f f' /\ (r = PV VOk <-> p <> "" /\ exists k s, entry_place cwd f p = Nothing k s /\ rparent_writable f k = true) /\
  (r <> PV VOk -> r = PV (VThrow ("Cannot create directory: " +s+ dq p +s+ "!"))).
Proof.
  intros S D St H. destruct (string_dec p "") as [->|P].
  { cbn in H. injection H as <- <-. split; [intros k; reflexivity|]. split; [split; [discriminate|intros [H _]; congruence]|reflexivity]. }
  unfold routput_directory, rcreate_directory in H. rewrite St in H. destruct (is_empty p) eqn:Ep; [destruct p; [congruence|discriminate Ep]|].
  change (walk f false max_links (if absolute p then [] else cwd) (trimmed (parts p))) with (entry_place cwd f p) in H.
  assert (No : (f, PV (VThrow ("Cannot create directory: " +s+ dq p +s+ "!"))) = (f', r) -> (forall k s, entry_place cwd f p = Nothing k s -> rparent_writable f k = true -> False) ->
    same f f' /\ (r = PV VOk <-> p <> "" /\ exists k s, entry_place cwd f p = Nothing k s /\ rparent_writable f k = true) /\
    (r <> PV VOk -> r = PV (VThrow ("Cannot create directory: " +s+ dq p +s+ "!")))).
  { intros [= <- <-] N. split; [intros k; reflexivity|]. split; [|reflexivity]. split; [discriminate|]. intros (_ & k & s & E & W). exfalso. eapply N; eauto. }
  destruct (entry_place cwd f p) as [k|k s| | |] eqn:En; try (apply No; [exact H|discriminate]).
  destruct (rparent_writable f k) eqn:W; [|apply No; [exact H|intros k' s' [= -> _]; congruence]].
  clear No.
  assert (L0 : exists n, n <= max_links /\ leads f false n (start p) (trimmed (parts p)) (Nothing k s)).
  { unfold entry_place in En. fold (start p) in En. destruct (walk_leads f false max_links (trimmed (parts p)) (start p)) as [Q|[Q _]]; rewrite En in Q; [exact Q|discriminate Q]. }
  destruct L0 as (n & Hn & L0). pose proof (leads_missing _ _ _ _ _ _ L0 _ _ eq_refl) as Fk.
  destruct (join_parts p P) as (es & Jp & He). destruct (split_trimmed (parts p)) as (es' & Tp & He').
  assert (s = false) as ->.
  { destruct s; [|reflexivity]. exfalso. clear -L0.
    assert (G : forall n cur rest o, leads f false n cur rest o -> forall k, o = Nothing k true -> rest <> [] /\ last rest "" = "").
    { induction 1; intros q E; try discriminate E;
        try (destruct (IHleads q E) as [Q1 Q2]; split; [discriminate|]; destruct rest; [congruence|exact Q2]; fail).
      - split; [discriminate|]. destruct (exists_last H5) as (l & x & ->). change (c :: l ++ [x]) with ((c :: l) ++ [x]). rewrite last_last. apply H6, in_or_app. right. now left.
      - destruct (IHleads q E) as [Q1 Q2]. split; [discriminate|]. destruct rest as [|y rest].
        + exfalso. rewrite app_nil_r in *. destruct H6 as [H6|H6]; [discriminate H6|congruence].
        + destruct (exists_last (l := y :: rest)) as (l & x & El); [discriminate|]. rewrite El in *. rewrite app_assoc, last_last in Q2. change (c :: l ++ [x]) with ((c :: l) ++ [x]). now rewrite last_last. }
    destruct (G _ _ _ _ L0 _ eq_refl) as [G1 G2]. unfold trimmed in *. set (r := rev (parts p)) in *.
    destruct (drop_empty r) as [|x t] eqn:Ed; [now apply G1|]. cbn in G2. rewrite last_last in G2. subst x.
    assert (forall r t, drop_empty r <> "" :: t) as Dn by (induction r0 as [|c r0 IH]; cbn; [discriminate|]; intros t0; destruct (is_empty c) eqn:Ec; [apply IH|intros [= -> _]; discriminate Ec]).
    now apply Dn in Ed. }
  set (f1 := rupd f k (Some (RDir rall))) in *. set (q := path_join p "dummy.txt") in *.
  assert (S1 : sane f1) by now apply mkdir_sane.
  assert (D1 : PosixSpec.is_dir f1 cwd) by (destruct D as [m D]; exists m; unfold f1; rewrite rupd_other; [exact D|congruence]).
  assert (F1 : f1 k = Some (RDir rall)) by (unfold f1; apply rupd_same).
  assert (Fd : f1 (k ++ ["dummy.txt"]) = None).
  { unfold f1. rewrite rupd_other; [now apply sane_below|]. intros Q. rewrite <- (app_nil_r k) in Q at 2. apply app_inv_head in Q. discriminate Q. }
  assert (Lk : forall b, leads f1 b n (start p) (trimmed (parts p)) (Here k)).
  { intros [|]; [eapply leads_made_dir; [eapply leads_missing_follow; [exact L0|reflexivity]|reflexivity]|eapply leads_made_dir; [exact L0|reflexivity]]. }
  assert (Qn : q <> "") by (unfold q; apply path_join_nonempty).
  assert (Sq : start q = start p).
  { unfold PosixWrite.start, q, path_join. destruct p as [|c p]; [congruence|]. destruct (last_chr (String c p)) as [c'|] eqn:El; [destruct (Ascii.eqb c' slash); reflexivity|]. apply last_chr_none in El. discriminate El. }
  assert (Rq : forall b, resolve f1 b q = Nothing (k ++ ["dummy.txt"]) false).
  { intros b. eapply (leads_resolve cwd f1 b q n); [exact Qn|exact Hn|]. rewrite Sq, Jp. replace n with (n + 0) by lia.
    eapply leads_then; [apply Lk|destruct es; discriminate|]. eapply leads_slashes_then; eauto; discriminate. }
  destruct (rvalidate_writeability cwd strict nd f1 q) as [f2 w] eqn:V.
  assert (Pr : probed cwd strict nd f1 q f2 w).
  { apply (probe_lemma cwd strict nd f1 q f2 w S1 D1); [|exact V]. left. unfold Posix.status. now rewrite Rq. }
  unfold probed, opens, named in Pr. rewrite !Rq in Pr.
  assert (Wd : rparent_writable f1 (k ++ ["dummy.txt"]) = true).
  { unfold rparent_writable. rewrite removelast_snoc, F1. destruct k; reflexivity. }
  rewrite !Wd in Pr. destruct Pr as [(f2' & [_ P1] & [P2 P3]) ->].
  assert (S2 : same f1 f2).
  { intros k'. destruct (list_eq_dec string_dec k' (k ++ ["dummy.txt"])) as [->|Nk]; [congruence|]. rewrite P3, P1 by exact Nk. reflexivity. }
  cbn zeta iota beta in H. unfold rremove_all in H at 1. rewrite (walk_resolve_same _ _ false p S2) in H.
  assert (Rp : resolve f1 false p = Here k).
  { eapply (leads_resolve cwd f1 false p n); [exact P|exact Hn|]. rewrite Tp. destruct es' as [|y es'].
    - rewrite app_nil_r. apply Lk.
    - replace n with (n + 0) by lia. eapply leads_then; [apply Lk|discriminate|]. eapply leads_slashes; eauto. }
  rewrite Rp in H. assert (Wk : rparent_writable f2 k = true).
  { unfold rparent_writable. destruct k as [|x k]; [discriminate W|]. rewrite (S2 (removelast (x :: k))). unfold f1.
    rewrite rupd_other; [exact W|]. intros Q. apply writable_dir in W as [m Hm]. congruence. }
  rewrite Wk, (S2 k), F1 in H. set (f3 := fun k' : key => if list_prefixb k k' then None else f2 k') in *.
  assert (S3 : same f f3).
  { intros k'. unfold f3. destruct (list_prefixb k k') eqn:B.
    - apply list_prefixb_iff in B as [l ->]. symmetry. now apply sane_below.
    - rewrite S2. unfold f1. apply rupd_other. intros ->. rewrite (proj2 (list_prefixb_iff _ _) (at_or_below_refl k)) in B. discriminate B. }
  unfold runwind, rremove_all in H. rewrite (walk_resolve_same _ _ false p S3) in H.
  assert (Rf : exists s, resolve f false p = Nothing k s).
  { destruct es' as [|y es'].
    - exists false. eapply (leads_resolve cwd f false p n); [exact P|exact Hn|]. rewrite Tp, app_nil_r. exact L0.
    - exists true. eapply (leads_resolve cwd f false p n); [exact P|exact Hn|]. rewrite Tp. eapply leads_missing_slashes; eauto. discriminate. }
  destruct Rf as [s Rf]. rewrite Rf in H. cbn in H. injection H as <- <-. split; [exact S3|]. split; [|congruence].
  split; [|reflexivity]. intros _. split; [exact P|]. exists k, false. auto.
Qed.
End Cwd.

(** ** Errors and assertions *)

Lemma input_file_lemma cwd exts f p :
  match status cwd f p with
  | StError => rinput_file cwd exts f p = PV (VThrow "Unhandled filesystem error!")
  | StNone => rinput_file cwd exts f p = PV (VThrow ("The file " +s+ dq p +s+ " does not exist!"))
  | StNode (RFile _ m) => rinput_file cwd exts f p = PV (if x_read m then validate_filename exts p else VThrow ("Cannot read the file " +s+ dq p +s+ "!"))
  | StNode (RDir m) => rinput_file cwd exts f p = PV (if x_read m then validate_filename exts p else VThrow ("Cannot read the directory " +s+ dq p +s+ "!"))
  | StNode _ => rinput_file cwd exts f p = PV (VThrow ("Expected a regular file " +s+ dq p +s+ "!"))
  end.
Proof. unfold rinput_file, rvalidate_readability. destruct (status cwd f p) as [[ct m|m|m|t]| |]; try reflexivity; destruct (x_read m); reflexivity. Qed.

Lemma input_directory_lemma cwd f p :
  match status cwd f p with
  | StError => rinput_directory cwd f p = PV (VThrow "Unhandled filesystem error!")
  | StNone => rinput_directory cwd f p = PV (VThrow ("The directory " +s+ dq p +s+ " does not exists!"))
  | StNode (RDir m) => rinput_directory cwd f p = PV (if x_read m then VOk else VThrow ("Cannot read the directory " +s+ dq p +s+ "!"))
  | StNode _ => rinput_directory cwd f p = PV (VThrow ("The path " +s+ dq p +s+ " is not a directory!"))
  end.
Proof. unfold rinput_directory, rvalidate_readability. destruct (status cwd f p) as [[ct m|m|m|t]| |] eqn:E; try reflexivity; destruct (x_read m); reflexivity. Qed.

Lemma status_error cwd f p : status cwd f p = StError <-> resolve cwd f true p = Refused.
Proof. unfold status. destruct (resolve cwd f true p) as [k|k s| | |]; try (split; [discriminate|discriminate]); [destruct (f k); split; discriminate|tauto]. Qed.

Lemma input_file_escape cwd exts f p : rinput_file cwd exts f p <> PFs.
Proof. pose proof (input_file_lemma cwd exts f p) as H. destruct (status cwd f p) as [[ct m|m|m|t]| |]; rewrite H; discriminate. Qed.

Lemma input_directory_escape cwd f p : rinput_directory cwd f p <> PFs.
Proof. pose proof (input_directory_lemma cwd f p) as H. destruct (status cwd f p) as [[ct m|m|m|t]| |]; rewrite H; discriminate. Qed.

Lemma output_file_escape cwd strict nd mode exts f p f' r : routput_file cwd strict nd mode exts f p = (f', r) ->
  (r = PFs <-> resolve cwd f true p = Refused) /\ (r = PFs -> f' = f).
Proof.
  rewrite <- status_error. unfold routput_file. destruct (status cwd f p) as [n| |] eqn:St.
  - intros H. assert (R : r <> PFs).
    { destruct (rvalidate_writeability cwd strict nd f p) as [f1 w]. destruct n, mode, w; injection H as <- <-; discriminate. }
    split; [split; [contradiction|discriminate]|contradiction].
  - intros H. assert (R : r <> PFs).
    { destruct (rvalidate_writeability cwd strict nd f p) as [f1 w]. destruct mode, w; injection H as <- <-; discriminate. }
    split; [split; [contradiction|discriminate]|contradiction].
  - intros [= <- <-]. split; [tauto|reflexivity].
Qed.

Lemma output_directory_escape cwd strict nd f p f' r : routput_directory cwd strict nd f p = (f', r) ->
  (r = PFs <-> resolve cwd f true p = Refused) /\ (r = PFs -> f' = f).
Proof.
  rewrite <- status_error. unfold routput_directory. destruct (status cwd f p) as [n| |] eqn:St.
  - intros H. assert (R : r <> PFs).
    { destruct (rcreate_directory cwd f p) as [f1 [|]]; [injection H as <- <-; discriminate|]. destruct (rvalidate_writeability cwd strict nd f1 _) as [f2 w]. injection H as <- <-. discriminate. }
    split; [split; [contradiction|discriminate]|contradiction].
  - intros H. assert (R : r <> PFs).
    { destruct (rcreate_directory cwd f p) as [f1 [|]]; [injection H as <- <-; discriminate|]. destruct (rvalidate_writeability cwd strict nd f1 _) as [f2 w].
      destruct w; try (destruct (runwind cwd strict nd f2 p _) as [f3 w3]; injection H as <- <-; discriminate).
      destruct (rremove_all cwd strict f2 p) as [f3 err]. destruct (runwind cwd strict nd f3 p _) as [f4 w4]. injection H as <- <-. discriminate. }
    split; [split; [contradiction|discriminate]|contradiction].
  - intros [= <- <-]. split; [tauto|reflexivity].
Qed.

Lemma probed_assert cwd strict nd f p f' w : probed cwd strict nd f p f' w -> (w = WAssert <-> nd = false /\ stuck cwd strict f p).
Proof.
  unfold probed, stuck, not_writable. destruct (opens cwd f p) as [[k n]|].
  - destruct (rparent_writable f (named cwd f p k)); intros [_ ->]; [split; [discriminate|intros [_ [=]]]|]. destruct nd; split; try discriminate; try tauto. intros [[=] _].
  - assert (No : WThrow ("Cannot write " +s+ dq p +s+ "!") = WAssert <-> False) by (split; [discriminate|tauto]).
    destruct (resolve cwd f false p) as [l|l s| | |].
    + destruct (rparent_writable f l) eqn:W; intros [_ ->].
      * rewrite No. split; [tauto|]. intros [_ [(l' & [= <-] & Q)|[_ [=]]]]. congruence.
      * destruct nd; [split; [discriminate|intros [[=] _]]|]. split; [|reflexivity]. intros _. split; [reflexivity|]. left. eauto.
    + intros [_ ->]. rewrite No. split; [tauto|]. intros [_ [(l' & [=] & _)|[_ [=]]]].
    + intros [_ ->]. rewrite No. split; [tauto|]. intros [_ [(l' & [=] & _)|[_ [=]]]].
    + intros [_ ->]. destruct strict, nd; cbn [andb negb].
      * split; [discriminate|intros [[=] _]].
      * split; [|reflexivity]. intros _. auto.
      * split; [discriminate|intros [[=] _]].
      * split; [discriminate|]. intros [_ [(l' & [=] & _)|[[=] _]]].
    + intros [_ ->]. rewrite No. split; [tauto|]. intros [_ [(l' & [=] & _)|[_ [=]]]].
Qed.

Lemma output_file_assert cwd strict nd mode exts f p : sane f -> is_dir f cwd ->
  snd (routput_file cwd strict nd mode exts f p) = PV VAssert <->
  nd = false /\ stuck cwd strict f p /\ (status cwd f p = StNone \/ mode = OpenOrCreate /\ exists n, status cwd f p = StNode n /\ forall m, n <> RDir m).
Proof.
  intros S D. destruct (routput_file cwd strict nd mode exts f p) as [f' r] eqn:H. cbn [snd]. pose proof (output_file_lemma _ _ _ _ _ _ _ _ _ S D H) as L.
  assert (Fr : forall w, file_result exts p w = PV VAssert <-> w = WAssert).
  { intros [|m| |]; cbn; split; try discriminate; try reflexivity. intros [= E]. exfalso. revert E. destruct exts as [|e exts]; [discriminate|]. unfold validate_filename.
    destruct (negb (has_extension p)); [discriminate|]. destruct (any_ext _ _) as [[|]|]; discriminate. }
  destruct (status cwd f p) as [n| |] eqn:St.
  - assert (Nd : (forall m, n <> RDir m) ->
      (mode = CreateNew /\ same f f' /\ r = PV (VThrow ("The file " +s+ dq p +s+ " already exists!"))) \/
      (mode = OpenOrCreate /\ exists w, probed cwd strict nd f p f' w /\ r = file_result exts p w) ->
      r = PV VAssert <-> nd = false /\ stuck cwd strict f p /\ (StNode n = StNone \/ mode = OpenOrCreate /\ exists n', StNode n = StNode n' /\ forall m, n' <> RDir m)).
    { intros N [(-> & _ & ->)|(-> & w & P & ->)].
      - split; [discriminate|]. intros (_ & _ & [[=]|[[=] _]]).
      - rewrite Fr, (probed_assert _ _ _ _ _ _ _ P). split; [intros [-> Q]; split; [reflexivity|]; split; [exact Q|]; right; split; [reflexivity|]; eauto|tauto]. }
    destruct n; try (apply Nd; [discriminate|exact L]). destruct L as [_ ->]. split; [discriminate|]. intros (_ & _ & [[=]|(_ & n & [= <-] & N)]). now destruct (N m).
  - destruct L as (w & P & ->). rewrite Fr, (probed_assert _ _ _ _ _ _ _ P). tauto.
  - destruct L as [_ ->]. split; [discriminate|]. intros (_ & _ & [[=]|(_ & n & [=] & _)]).
Qed.

(** ** Components *)

Lemma split_no_slash x : no_slash x -> forall acc, split_slash x acc = [acc +s+ x].
Proof.
  induction x as [|c x IH]; intros N acc; cbn [split_slash].
  - now rewrite app_nil_r_s.
  - destruct (Ascii.eqb_spec c slash) as [->|Nc]; [now destruct (N "" x)|]. rewrite IH; [now rewrite app_assoc_s|]. intros a b E. apply (N (String c a) b). now rewrite E.
Qed.

Lemma parts_concat l : l <> [] -> Forall no_slash l -> parts (String.concat "/" l) = l.
Proof.
  intros Ne F. unfold parts. induction l as [|x l IH]; [congruence|]. inversion F as [|? ? Fx Fl]; subst. destruct l as [|y l].
  - cbn. now apply split_no_slash.
  - change (String.concat "/" (x :: y :: l)) with (x +s+ String slash (String.concat "/" (y :: l))).
    rewrite split_slash_app, (split_no_slash x Fx). cbn [String.append]. rewrite IH; [reflexivity|discriminate|exact Fl].
Qed.

Lemma path_lemma cwd f follow l o : l <> [] -> l <> [""] -> Forall no_slash l -> o <> Refused ->
  resolve cwd f follow (String.concat "/" l) = o <->
  exists n, n <= 40 /\ leads f follow n (match l with "" :: _ => [] | _ => cwd end) l o.
Proof.
  intros N1 N2 F N. assert (P : String.concat "/" l <> "").
  { destruct l as [|x [|y l]]; [congruence|cbn; congruence|]. cbn [String.concat]. destruct x; discriminate. }
  assert (St : start cwd (String.concat "/" l) = match l with "" :: _ => [] | _ => cwd end).
  { unfold start. destruct l as [|[|c x] [|y l]]; try congruence; try reflexivity; cbn; inversion F as [|? ? Fx _]; subst;
      (destruct (Ascii.eqb_spec c slash) as [->|_]; [now destruct (Fx "" x)|reflexivity]). }
  rewrite <- St. pose proof (parts_concat l N1 F) as Pl. clear St. split.
  - intros E. unfold resolve in E. destruct (String.concat "/" l) as [|c q]; [congruence|]. cbn [is_empty] in E. rewrite Pl in E.
    fold (start cwd (String c q)) in E. destruct (walk_leads f follow max_links l (start cwd (String c q))) as [H|[H _]]; rewrite E in H; [exact H|congruence].
  - intros (n & Hn & H). eapply leads_resolve; eauto. now rewrite Pl.
Qed.
