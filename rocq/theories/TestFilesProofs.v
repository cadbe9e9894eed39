(** Proofs about the helpers of the unit tests. *)
From Verif Require Import Base StrLib Fs Values Validators ValidatorsSpec ValidatorsFs Posix PosixSpec PosixProofs PosixWrite PosixPlain PosixFiles TestFiles TestFilesSpec.
From Coq Require Import Lia.

Lemma no_slash_split x acc : no_slash x -> split_slash x acc = [acc +s+ x].
Proof. intros H. now apply split_no_slash. Qed.

Section Cwd.
Variable cwd : key.
Variable strict : bool.
Notation resolve := (resolve cwd).
Notation status := (status cwd).
Notation start := (start cwd).

(** ** Joined paths *)

Lemma join_split p x : p <> "" -> no_slash x -> exists l, parts (path_join p x) = l ++ [x] /\ (l = parts p \/ parts p = l ++ [""]).
Proof.
  intros P N. unfold path_join, parts. destruct (last_chr p) as [c|] eqn:El; [|now apply last_chr_none in El].
  destruct (Ascii.eqb_spec c slash) as [->|Nc].
  - apply last_chr_some in El as [q ->]. exists (split_slash q ""). rewrite app_assoc_s. change (str1 slash +s+ x) with (String slash x).
    rewrite (split_slash_app q x), (no_slash_split x "" N). split; [reflexivity|]. right. change (str1 slash) with (String slash ""). now rewrite (split_slash_app q "").
  - exists (split_slash p ""). change ("/" +s+ x) with (String slash x). rewrite (split_slash_app p x), (no_slash_split x "" N). auto.
Qed.
Lemma join_absolute p x : p <> "" -> absolute (path_join p x) = absolute p.
Proof. destruct p as [|c p]; [congruence|]. intros _. unfold path_join. destruct (last_chr (String c p)) eqn:E; [|apply last_chr_none in E; discriminate]. destruct (Ascii.eqb _ _); reflexivity. Qed.
Lemma join_nonempty p x : p <> "" -> path_join p x <> "".
Proof. destruct p as [|c p]; [congruence|]. intros _. unfold path_join. destruct (last_chr (String c p)) eqn:E; [|apply last_chr_none in E; discriminate]. destruct (Ascii.eqb _ _); discriminate. Qed.

Lemma resolved f b p k : resolve f b p = Here k -> p <> "" /\ exists n, n <= max_links /\ leads f b n (start p) (parts p) (Here k).
Proof.
  intros H. split; [intros ->; discriminate H|]. destruct (resolve_leads cwd _ _ _ _ H) as [E|(n & Hn & L)]; try discriminate; eauto.
Qed.

(** from a directory on *)
Lemma join_leads f p T m x b o : resolve f true p = Here T -> f T = Some (RDir m) -> no_slash x ->
  leads f b 0 T [x] o -> exists n l, n <= max_links /\ parts (path_join p x) = l ++ [x] /\ leads f b n (start (path_join p x)) (l ++ [x]) o.
Proof.
  intros R D N L. destruct (resolved _ _ _ _ R) as [P (n & Hn & H)]. destruct (join_split p x P N) as (l & E & J).
  assert (S : start (path_join p x) = start p) by (unfold PosixWrite.start; now rewrite join_absolute).
  rewrite S. destruct J as [->|J].
  - exists n, (parts p). split; [exact Hn|]. split; [exact E|]. rewrite <- (Nat.add_0_r n). eapply leads_then; eauto. discriminate.
  - rewrite J in H. destruct (leads_append _ _ _ _ _ _ H l [""] eq_refl) as (n1 & o1 & L1 & M1); [discriminate|].
    destruct o1 as [k|k s| | |]; try discriminate M1. destruct M1 as (n2 & -> & M1).
    assert (k = T) as -> by (inversion M1; subst; try congruence; match goal with X : leads _ _ _ _ [] _ |- _ => inversion X; subst; congruence end).
    exists n1, l. split; [lia|]. split; [exact E|]. rewrite <- (Nat.add_0_r n1). eapply leads_then; eauto. discriminate.
Qed.

Definition proper (x : string) : Prop := no_slash x /\ x <> "" /\ x <> "." /\ x <> "..".

Lemma leads_one f b T m x : f T = Some (RDir m) -> x_search m = true -> proper x ->
  leads f b 0 T [x] (match f (T ++ [x]) with None => Nothing (T ++ [x]) false | Some _ => Here (T ++ [x]) end) \/ exists t, f (T ++ [x]) = Some (RLink t) /\ b = true.
Proof.
  intros D X (N0 & N1 & N2 & N3). destruct (f (T ++ [x])) as [[c m'|m'|m'|t]|] eqn:E.
  - left. eapply l_down; eauto; [discriminate|constructor].
  - left. eapply l_down; eauto; [discriminate|constructor].
  - left. eapply l_down; eauto; [discriminate|constructor].
  - destruct b; [right; eauto|]. left. eapply l_link_itself; eauto.
  - left. eapply l_missing; eauto.
Qed.

Lemma join_resolve f p T m x : resolve f true p = Here T -> f T = Some (RDir m) -> x_search m = true -> proper x ->
  resolve f false (path_join p x) = match f (T ++ [x]) with None => Nothing (T ++ [x]) false | Some _ => Here (T ++ [x]) end.
Proof.
  intros R D X Px. destruct (leads_one f false T m x D X Px) as [L|(t & _ & [=])].
  destruct (join_leads f p T m x false _ R D (proj1 Px) L) as (n & l & Hn & E & H). rewrite <- E in H.
  eapply leads_resolve; eauto. apply join_nonempty. now apply (resolved _ _ _ _ R).
Qed.
Lemma join_closed f p T m x b : resolve f true p = Here T -> f T = Some (RDir m) -> x_search m = false -> proper x -> resolve f b (path_join p x) = Refused.
Proof.
  intros R D X (N0 & N1 & N2 & N3). assert (L : leads f b 0 T [x] Refused) by (eapply l_closed; eauto).
  destruct (join_leads f p T m x b _ R D N0 L) as (n & l & Hn & E & H). rewrite <- E in H.
  eapply leads_resolve; eauto. apply join_nonempty. now apply (resolved _ _ _ _ R).
Qed.

Lemma trimmed_last l x : x <> "" -> trimmed (l ++ [x]) = l ++ [x].
Proof. intros N. unfold trimmed. rewrite rev_app_distr. cbn [rev app drop_empty]. destruct (is_empty x) eqn:E; [destruct x; [congruence|discriminate E]|]. cbn [rev]. now rewrite rev_involutive. Qed.

Lemma mkdir_join f p T m x : resolve f true p = Here T -> f T = Some (RDir m) -> proper x ->
  mkdir cwd f (path_join p x) =
    if x_search m then match f (T ++ [x]) with
                       | Some _ => Taken
                       | None => if x_write m then Made (rupd f (T ++ [x]) (Some (RDir rall))) else Failed
                       end
    else Failed.
Proof.
  intros R D Px. unfold mkdir. destruct (resolved _ _ _ _ R) as [P _]. pose proof (join_nonempty p x P) as Nj.
  destruct (is_empty (path_join p x)) eqn:E; [destruct (path_join p x); [congruence|discriminate E]|].
  destruct (join_split p x P (proj1 Px)) as (l & El & _). rewrite El, trimmed_last, <- El by apply Px.
  destruct (x_search m) eqn:X.
  - pose proof (join_resolve f p T m x R D X Px) as J. unfold Posix.resolve in J. rewrite E in J. rewrite J.
    destruct (f (T ++ [x])); [reflexivity|]. unfold rparent_writable. rewrite removelast_snoc, D.
    destruct (T ++ [x]) eqn:F; [now destruct T|reflexivity].
  - pose proof (join_closed f p T m x false R D X Px) as J. unfold Posix.resolve in J. rewrite E in J. now rewrite J.
Qed.

(** ** The constructor *)

Lemma name_proper s : no_slash s -> proper (test_name s).
Proof.
  intros N. split; [|repeat split; discriminate]. intros a b E. apply (f_equal (fun x => split_slash x "")) in E. rewrite (split_slash_app a b) in E.
  assert (K : split_slash (test_name s) "" = [test_name s]).
  { unfold test_name. cbn [append split_slash]. repeat (match goal with |- context [Ascii.eqb ?a slash] => change (Ascii.eqb a slash) with false end; cbn iota).
    rewrite (no_slash_split s _ N). reflexivity. }
  rewrite K in E. apply (f_equal (@List.length _)) in E. rewrite app_length in E. cbn in E.
  assert (1 <= List.length (split_slash a "")) by (clear; generalize ""; induction a as [|c a IH]; intros acc; cbn; [lia|destruct (Ascii.eqb c slash); cbn; [lia|apply IH]]).
  assert (1 <= List.length (split_slash b "")) by (clear; generalize ""; induction b as [|c b IH]; intros acc; cbn; [lia|destruct (Ascii.eqb c slash); cbn; [lia|apply IH]]).
  lia.
Qed.

Lemma template_join tmp s : tmp <> "" -> let p := path_append tmp "seqan_test_XXXXXXXX" in stake (String.length p - 6) p +s+ s = path_join tmp (test_name s).
Proof.
  intros N. cbv zeta. change (path_append tmp "seqan_test_XXXXXXXX") with (path_join tmp ("seqan_test_XX" +s+ "XXXXXX")).
  assert (J : forall y, path_join tmp ("seqan_test_XX" +s+ y) = path_join tmp "seqan_test_XX" +s+ y).
  { intros y. unfold path_join. destruct (last_chr tmp) eqn:E; [|now apply last_chr_none in E]. destruct (Ascii.eqb _ _); rewrite !app_assoc_s; reflexivity. }
  unfold test_name. rewrite !J. rewrite length_app_s. cbn [String.length]. rewrite Nat.add_sub. now rewrite stake_app.
Qed.

Lemma mkdtemp_join f tmp T m : resolve f true tmp = Here T -> f T = Some (RDir m) -> forall tries, Forall no_slash tries ->
  mkdtemp cwd f (path_append tmp "seqan_test_XXXXXXXX") tries =
    match find (fun s => match f (T ++ [test_name s]) with None => true | _ => false end) tries with
    | Some s => if x_search m && x_write m then (rupd f (T ++ [test_name s]) (Some (RDir rall)), Some (path_join tmp (test_name s))) else (f, None)
    | None => (f, None)
    end.
Proof.
  intros R D. destruct (resolved _ _ _ _ R) as [P _]. induction tries as [|s tries IH]; intros F; [reflexivity|].
  inversion F as [|? ? N F']; subst. cbn [find].
  assert (C : forall p, mkdtemp cwd f p (s :: tries) = let q := stake (String.length p - 6) p +s+ s in
    match mkdir cwd f q with Made f' => (f', Some q) | Taken => mkdtemp cwd f p tries | Failed => (f, None) end) by reflexivity.
  rewrite C. cbv zeta. rewrite (template_join tmp s P), (mkdir_join f tmp T m (test_name s) R D (name_proper s N)).
  destruct (x_search m) eqn:X; cbn [andb] in *.
  - destruct (f (T ++ [test_name s])); [now apply IH|]. destruct (x_write m); reflexivity.
  - destruct (f (T ++ [test_name s])); [destruct (find _ tries)|]; reflexivity.
Qed.

Lemma new_lemma tmp tries f name f' r : Forall no_slash tries -> tmp_new cwd tmp tries f name = (f', r) ->
  match r with
  | inl e => f' = f /\ (name = None /\ e = Some "Empty file name!" \/ e = None /\ (forall T, resolve f true tmp = Here T -> ~ is_dir f T) \/
      e = Some "Could not create temporary directory with mkdtemp!" /\ exists T m, resolve f true tmp = Here T /\ f T = Some (RDir m) /\
      (x_search m = false \/ x_write m = false \/ forall s, In s tries -> f (T ++ [test_name s]) <> None))
  | inr t => exists n T m s, name = Some n /\ resolve f true tmp = Here T /\ f T = Some (RDir m) /\ x_search m = true /\ x_write m = true /\ In s tries /\
      f (T ++ [test_name s]) = None /\ f' = rupd f (T ++ [test_name s]) (Some (RDir rall)) /\
      tf_dir t = path_join tmp (test_name s) /\ tf_path t = path_append (tf_dir t) n
  end.
Proof.
  intros F. unfold tmp_new. destruct name as [n|]; [|intros [= <- <-]; auto].
  destruct (status f tmp) as [[c m|m|m|t]| |] eqn:St; try (intros [= <- <-]; split; [reflexivity|]; right; left; split; [reflexivity|]; intros T RT [m' D]; unfold Posix.status in St; rewrite RT, D in St; discriminate St).
  assert (exists T, resolve f true tmp = Here T /\ f T = Some (RDir m)) as (T & RT & D).
  { unfold Posix.status in St. destruct (resolve f true tmp) as [T|? ?| | |] eqn:RT; try discriminate St. exists T. split; [reflexivity|]. destruct (f T) eqn:E; congruence. }
  rewrite (mkdtemp_join f tmp T m RT D tries F). destruct (find _ tries) as [s|] eqn:Fi.
  - apply find_some in Fi as [Hs Fs]. destruct (f (T ++ [test_name s])) eqn:Fn; [discriminate Fs|].
    destruct (x_search m) eqn:X; [destruct (x_write m) eqn:W|]; cbn [andb].
    + intros [= <- <-]. exists n, T, m, s. cbn [tf_dir tf_path]. auto 12.
    + intros [= <- <-]. split; [reflexivity|]. right. right. split; [reflexivity|]. exists T, m. auto.
    + intros [= <- <-]. split; [reflexivity|]. right. right. split; [reflexivity|]. exists T, m. auto.
  - intros [= <- <-]. split; [reflexivity|]. right. right. split; [reflexivity|]. exists T, m. split; [exact RT|]. split; [exact D|]. right. right. intros s Hs E.
    pose proof (find_none _ _ Fi s Hs) as K. cbn beta in K. rewrite E in K. discriminate K.
Qed.

(** the constructor does not give up while there is a name *)
Lemma new_succeeds tmp tries f n T m s : Forall no_slash tries -> resolve f true tmp = Here T -> f T = Some (RDir m) -> x_search m = true -> x_write m = true ->
  In s tries -> f (T ++ [test_name s]) = None -> exists t, snd (tmp_new cwd tmp tries f (Some n)) = inr t.
Proof.
  intros F R D X W Hs Fn. destruct (tmp_new cwd tmp tries f (Some n)) as [f' [e|t]] eqn:E; [|cbn; eauto].
  destruct (new_lemma _ _ _ _ _ _ F E) as [_ [[H _]|[[_ H]|(_ & T' & m' & R' & D' & H)]]]; [discriminate H|exfalso; apply (H T R); eexists; exact D|].
  assert (T' = T) as -> by congruence. assert (m' = m) as -> by congruence. destruct H as [H|[H|H]]; [congruence|congruence|]. now destruct (H s Hs).
Qed.

(** ** The life of the objects *)

(** entries that are not touched: what was there is found again *)
Lemma leads_grown f g b n cur rest o : leads f b n cur rest o -> (forall k, f k <> None -> g k = f k) -> forall l, o = Here l -> leads g b n cur rest (Here l).
Proof.
  intros H K. assert (U : forall k nd, f k = Some nd -> g k = Some nd) by (intros k nd E; rewrite K; [exact E|congruence]).
  induction H; intros l E; try discriminate E; try (injection E as <-); try (subst; econstructor; eauto; fail).
Qed.
Lemma resolve_grown f g b p k : (forall k, f k <> None -> g k = f k) -> resolve f b p = Here k -> resolve g b p = Here k.
Proof. intros K R. destruct (resolved _ _ _ _ R) as [P (n & Hn & H)]. eapply leads_resolve; eauto. eapply leads_grown; eauto. Qed.

Lemma node_dec (a b : option rnode) : {a = b} + {a <> b}.
Proof. repeat decide equality. Qed.

Section Session.
Variable tmp : string.
Variable f0 : rfs.
Hypothesis S0 : sane f0.

Definition owned (d : string) (k : key) : Prop := exists T m s, resolve f0 true tmp = Here T /\ f0 T = Some (RDir m) /\ x_search m = true /\ x_write m = true /\
  no_slash s /\ k = T ++ [test_name s] /\ d = path_join tmp (test_name s) /\ f0 k = None.

Definition covered (ds : string -> Prop) (k' : key) : Prop := exists d k, ds d /\ owned d k /\ at_or_below k k'.
Definition dirs (o : objects) (lost : list string) (d : string) : Prop := In d lost \/ exists i t, o i = Some t /\ tf_dir t = d.
Record inv (f : rfs) (o : objects) (lost : list string) : Prop := {
  iv_sane : sane f;
  iv_owned : forall d, dirs o lost d -> d = "" \/ exists k, owned d k;
  iv_rest : forall k', ~ covered (dirs o lost) k' -> f k' = f0 k';
  iv_where : (same f0 f /\ forall d, dirs o lost d -> d = "") \/ exists T m, resolve f0 true tmp = Here T /\ f0 T = Some (RDir m) }.

Lemma covered_none ds k' : covered ds k' -> f0 k' = None.
Proof. intros (d & k & _ & (T & m & s & _ & _ & _ & _ & _ & _ & _ & N) & [l ->]). now apply sane_below. Qed.

Lemma inv_grown f o lost : inv f o lost -> forall k, f0 k <> None -> f k = f0 k.
Proof. intros H k N. apply (iv_rest _ _ _ H). intros C. apply N. eapply covered_none; eauto. Qed.

Lemma owned_place f d k : (forall k, f0 k <> None -> f k = f0 k) -> owned d k ->
  resolve f false d = (match f k with None => Nothing k false | Some _ => Here k end) /\ rparent_writable f k = true.
Proof.
  intros G (T & m & s & R & D & X & W & N & -> & -> & _). assert (DT : f T = Some (RDir m)) by (rewrite G; [exact D|congruence]).
  split; [apply (join_resolve f tmp T m); auto; [now apply (resolve_grown f0)|now apply name_proper]|].
  unfold rparent_writable. destruct (T ++ [test_name s]) eqn:E; [now destruct T|]. rewrite <- E, removelast_snoc, DT. exact W.
Qed.
Lemma owned_key f d k k' : (forall k, f0 k <> None -> f k = f0 k) -> owned d k -> names_place cwd f d k' -> k' = k.
Proof. intros G O H. destruct (owned_place f d k G O) as [R _]. destruct H as [H|H]; rewrite R in H; destruct (f k); congruence. Qed.
Lemma owned_nonempty d k : owned d k -> d <> "".
Proof. intros (T & m & s & R & _ & _ & _ & _ & _ & -> & _). apply join_nonempty. now apply (resolved _ _ _ _ R). Qed.
Lemma empty_place f k : ~ names_place cwd f "" k.
Proof. intros [H|H]; discriminate H. Qed.

Lemma covered_dec_ext (ds ds' : string -> Prop) k' : (forall d, d <> "" -> ds d -> ds' d) -> covered ds k' -> covered ds' k'.
Proof. intros H (d & k & D & O & B). exists d, k. split; [apply H; [eapply owned_nonempty; eauto|exact D]|auto]. Qed.

Lemma drop_effect f t : sane f -> (forall k, f0 k <> None -> f k = f0 k) -> tf_dir t = "" \/ (exists k, owned (tf_dir t) k) ->
  sane (tmp_drop cwd strict f t) /\
  (forall k', (forall k, owned (tf_dir t) k -> ~ at_or_below k k') -> tmp_drop cwd strict f t k' = f k') /\
  forall k k', owned (tf_dir t) k -> at_or_below k k' -> tmp_drop cwd strict f t k' = None.
Proof.
  intros S G [E|[k O]]; unfold tmp_drop, rremove_all.
  { rewrite E. cbn. split; [exact S|]. split; [reflexivity|]. intros k k' O. exfalso. now apply (owned_nonempty _ _ O). }
  destruct (owned_place f _ k G O) as [R W]. rewrite R. destruct (f k) as [nd|] eqn:Fk.
  2:{ cbn. split; [exact S|]. split; [reflexivity|]. intros k1 k' O1 [l ->]. apply sane_below; [exact S|].
      assert (k1 = k) as -> by (apply (owned_key f (tf_dir t) k k1 G O); destruct (owned_place f _ k1 G O1) as [R1 _]; unfold names_place; rewrite R1; destruct (f k1); auto). exact Fk. }
  rewrite W, Fk. cbn [fst].
  set (f' := match nd with RDir _ => fun k' => if list_prefixb k k' then None else f k' | _ => rupd f k None end).
  assert (B : forall k', at_or_below k k' -> f' k' = None).
  { intros k' [l ->]. unfold f'. destruct nd; try (destruct l as [|x l]; [rewrite app_nil_r; apply rupd_same|];
      rewrite rupd_other; [|intros Q; rewrite <- (app_nil_r k) in Q at 2; apply app_inv_head in Q; discriminate Q];
      destruct (f (k ++ x :: l)) eqn:Q; [exfalso|reflexivity]; change (x :: l) with ([x] ++ l) in Q; rewrite app_assoc in Q;
      destruct (f (k ++ [x])) eqn:Q1; [destruct S as [_ S]; destruct (S _ _ _ Q1); congruence|rewrite (sane_below f _ l S Q1) in Q; discriminate Q]).
    rewrite (proj2 (list_prefixb_iff k (k ++ l))); [reflexivity|now exists l]. }
  assert (A : forall k', ~ at_or_below k k' -> f' k' = f k').
  { intros k' H. unfold f'. destruct nd; try (apply rupd_other; intros ->; apply H; exists []; now rewrite app_nil_r).
    destruct (list_prefixb k k') eqn:Q; [|reflexivity]. apply list_prefixb_iff in Q. contradiction. }
  assert (Kn : k <> []) by (intros ->; destruct O as (T & m & s & _ & _ & _ & _ & _ & Q & _); destruct T; discriminate Q).
  split; [|split].
  - split.
    + destruct S as [[m Rt] _]. exists m. rewrite A; [exact Rt|]. intros [l Q]. symmetry in Q. now apply app_eq_nil in Q as [-> _].
    + intros q c n H. destruct (list_prefixb k (q ++ [c])) eqn:Q.
      * apply list_prefixb_iff in Q. rewrite (B _ Q) in H. discriminate H.
      * assert (Nb : ~ at_or_below k (q ++ [c])) by (intros Z1; apply list_prefixb_iff in Z1; congruence).
        rewrite (A _ Nb) in H. destruct S as [_ S]. destruct (S _ _ _ H) as [m Dm]. exists m. rewrite A; [exact Dm|]. intros [l ->]. apply Nb. exists (l ++ [c]). now rewrite app_assoc.
  - intros k' H. apply A. apply H. exact O.
  - intros k1 k' O1 H. apply B. assert (k1 = k) as -> by (apply (owned_key f (tf_dir t) k k1 G O); destruct (owned_place f _ k1 G O1) as [R1 _]; unfold names_place; rewrite R1; destruct (f k1); auto). exact H.
Qed.

Lemma dirs_set o lost i t d : dirs (set_object o i (Some t)) lost d <-> In d lost \/ tf_dir t = d \/ exists j u, j <> i /\ o j = Some u /\ tf_dir u = d.
Proof.
  unfold dirs, set_object. split.
  - intros [H|(j & u & H & E)]; [auto|]. destruct (Nat.eqb_spec i j) as [<-|Nj]; [right; left; congruence|right; right; exists j, u; auto].
  - intros [H|[H|(j & u & Nj & H & E)]]; [auto|right; exists i, t; rewrite Nat.eqb_refl; auto|right; exists j, u; split; [|exact E]].
    destruct (Nat.eqb_spec i j); [congruence|exact H].
Qed.

Lemma inv_ext f o lost o' lost' : inv f o lost -> (forall d, d <> "" -> (dirs o' lost' d <-> dirs o lost d)) -> inv f o' lost'.
Proof.
  intros H D. assert (Dd : forall d, dirs o' lost' d -> d = "" \/ dirs o lost d) by (intros d Hd; destruct (string_dec d "") as [->|N]; [now left|right; now apply D]).
  split; [apply H| | |].
  - intros d Hd. destruct (Dd d Hd) as [->|K]; [now left|now apply (iv_owned _ _ _ H)].
  - intros k' C. apply (iv_rest _ _ _ H). intros K. apply C. eapply covered_dec_ext; [|exact K]. intros d N Hd. now apply D.
  - destruct (iv_where _ _ _ H) as [[Sm Em]|K]; [left|now right]. split; [exact Sm|]. intros d Hd. destruct (Dd d Hd) as [->|K]; auto.
Qed.

Lemma inv_work f o lost f' : inv f o lost -> sane f' -> (forall k', f' k' <> f k' -> exists d k, dirs o lost d /\ names_place cwd f d k /\ at_or_below k k') -> inv f' o lost.
Proof.
  intros IH S' Ch. pose proof (inv_grown _ _ _ IH) as G. split; [exact S'|apply IH| |].
  - intros k' H. rewrite <- (iv_rest _ _ _ IH k' H). destruct (node_dec (f' k') (f k')) as [Q|Q]; [exact Q|]. exfalso.
    destruct (Ch k' Q) as (d & k & Di & Nm & B). destruct (iv_owned _ _ _ IH d Di) as [Z1|[k1 O]].
    + rewrite Z1 in Nm. now apply empty_place in Nm.
    + pose proof (owned_key f _ k1 k G O Nm) as ->. apply H. exists d, k1. auto.
  - destruct (iv_where _ _ _ IH) as [[Sm Em]|K]; [left|now right]. split; [|exact Em]. intros k'. rewrite <- (Sm k').
    destruct (node_dec (f' k') (f k')) as [Q|Q]; [exact Q|]. exfalso. destruct (Ch k' Q) as (d & k & Di & Nm & B).
    rewrite (Em d Di) in Nm. now apply empty_place in Nm.
Qed.

Lemma session_inv f o lost : session cwd strict tmp f0 f o lost -> inv f o lost.
Proof.
  induction 1 as [|f o lost i tries name f' t Hs IH Oi F E|f o lost tries name f' e Hs IH F E|f o lost f' Hs IH S' Ch|f o lost i j t Hs IH Oi Oj|f o lost i j t u Hs IH Oi Oj Nij|f o lost i t Hs IH Oi|f o lost i t Hs IH Oi _|f o lost i t f' Hs IH Oi _ S' Ch].
  - split; [exact S0| |reflexivity|]; [intros d [[]|(i & t & [=] & _)]|]. left. split; [intros k; reflexivity|]. intros d [[]|(i & t & [=] & _)].
  - pose proof (inv_grown _ _ _ IH) as G.
    destruct (new_lemma _ _ _ _ _ _ F E) as (n & T & m & s & _ & R & D & X & W & Hin & Fn & -> & Td & _).
    pose proof (proj1 (Forall_forall _ _) F s Hin) as Ns.
    assert (R0 : resolve f0 true tmp = Here T /\ f0 T = Some (RDir m)).
    { destruct (iv_where _ _ _ IH) as [[Sm _]|(T' & m' & R' & D')].
      - rewrite <- (walk_resolve_same cwd _ _ true tmp Sm), <- (Sm T). auto.
      - pose proof (resolve_grown _ _ _ _ _ G R') as R2. assert (T' = T) as -> by congruence. split; [exact R'|]. rewrite <- G; [exact D|congruence]. }
    destruct R0 as [R0 D0].
    assert (N0 : f0 (T ++ [test_name s]) = None) by (destruct (f0 (T ++ [test_name s])) eqn:Q; [rewrite G in Fn by congruence; congruence|reflexivity]).
    assert (O : owned (tf_dir t) (T ++ [test_name s])) by (exists T, m, s; auto 10).
    split.
    + apply mkdir_sane; [apply (iv_sane _ _ _ IH)|exact Fn|]. unfold rparent_writable. destruct (T ++ [test_name s]) eqn:Q; [now destruct T|]. rewrite <- Q, removelast_snoc, D. exact W.
    + intros d H. apply dirs_set in H as [H|[<-|(j & u & _ & H & Q)]]; [apply (iv_owned _ _ _ IH); now left|right; eauto|apply (iv_owned _ _ _ IH); right; eauto].
    + intros k' H. rewrite rupd_other.
      * apply (iv_rest _ _ _ IH). intros C. apply H. eapply covered_dec_ext; [|exact C]. intros d _ [Hd|(j & u & Hj & Q)]; apply dirs_set; [auto|]. right. right. exists j, u. split; [congruence|auto].
      * intros ->. apply H. exists (tf_dir t), (T ++ [test_name s]). split; [apply dirs_set; auto|]. split; [exact O|]. exists []. now rewrite app_nil_r.
    + right. eauto.
  - destruct (new_lemma _ _ _ _ _ _ F E) as [-> _]. exact IH.
  - apply (inv_work f o lost f' IH S'). intros k' Q. destruct (Ch k' Q) as (i & t & k & Oi & R). exists (tf_dir t), k. split; [right; eauto|exact R].
  - assert (Di : forall d, d <> "" -> (dirs (tmp_move o i j t) lost d <-> dirs o lost d)).
    { intros d Nd. unfold tmp_move. rewrite dirs_set. cbn [moved_from tf_dir]. unfold dirs, set_object. split.
      - intros [H|[H|(l & u & Nl & H & Q)]]; [auto|congruence|]. right. destruct (Nat.eqb_spec j l); [exists i, t; split; [exact Oi|congruence]|eauto].
      - intros [H|(l & u & H & Q)]; [auto|]. right. right. destruct (Nat.eqb_spec l i) as [->|Nl].
        + exists j, t. split; [congruence|]. rewrite Nat.eqb_refl. split; [reflexivity|congruence].
        + exists l, u. split; [exact Nl|]. destruct (Nat.eqb_spec j l); [congruence|auto]. }
    apply (inv_ext f o lost); auto.
  - unfold tmp_assign. rewrite (proj2 (Nat.eqb_neq i j) Nij).
    assert (Di : forall d, d <> "" -> (dirs (tmp_move o i j t) (tf_dir u :: lost) d <-> dirs o lost d)).
    { intros d Nd. unfold tmp_move. rewrite dirs_set. cbn [moved_from tf_dir]. unfold dirs, set_object. cbn [In]. split.
      - intros [[H|H]|[H|(l & w & Nl & H & Q)]]; [right; eauto|auto|congruence|]. right. destruct (Nat.eqb_spec j l); [exists i, t; split; [exact Oi|congruence]|eauto].
      - intros [H|(l & w & H & Q)]; [auto|]. destruct (Nat.eqb_spec l i) as [->|Nl].
        + right. right. exists j, t. split; [congruence|]. rewrite Nat.eqb_refl. split; [reflexivity|congruence].
        + destruct (Nat.eqb_spec j l) as [<-|Njl]; [left; left; congruence|]. right. right. exists l, w. split; [exact Nl|]. destruct (Nat.eqb_spec j l); [congruence|auto]. }
    apply (inv_ext f o lost); auto.
  - unfold tmp_assign. now rewrite Nat.eqb_refl.
  - pose proof (inv_grown _ _ _ IH) as G. destruct (drop_effect f t (iv_sane _ _ _ IH) G) as (S1 & A & B); [apply (iv_owned _ _ _ IH); right; eauto|].
    assert (Di : forall d, dirs (set_object o i None) lost d -> dirs o lost d).
    { unfold dirs, set_object. intros d [H|(l & u & H & Q)]; [auto|]. destruct (Nat.eqb_spec i l); [discriminate H|]. right. eauto. }
    split; [exact S1| | |].
    + intros d H. apply (iv_owned _ _ _ IH). auto.
    + intros k' H. destruct (iv_owned _ _ _ IH (tf_dir t)) as [Z1|[k O]]; [right; eauto| |].
      * rewrite A; [|intros k O; exfalso; now apply (owned_nonempty _ _ O)]. apply (iv_rest _ _ _ IH). intros (d & k & [Hd|(l & u & Hl & Q)] & O & Bl); apply H; exists d, k; (split; [|auto]).
        -- now left.
        -- right. exists l, u. unfold set_object. destruct (Nat.eqb_spec i l) as [->|]; [exfalso; apply (owned_nonempty _ _ O); congruence|auto].
      * destruct (list_prefixb k k') eqn:Pk.
        -- apply list_prefixb_iff in Pk. rewrite (B k k' O Pk). symmetry. destruct Pk as [l ->]. apply sane_below; [exact S0|]. now destruct O as (? & ? & ? & ? & ? & ? & ? & ? & ? & ? & ?).
        -- assert (Nb : forall k1, owned (tf_dir t) k1 -> ~ at_or_below k1 k').
           { intros k1 O1 Bl. assert (k1 = k) as -> by (apply (owned_key f (tf_dir t) k k1 G O); destruct (owned_place f _ k1 G O1) as [R1 _]; unfold names_place; rewrite R1; destruct (f k1); auto).
             apply list_prefixb_iff in Bl. congruence. }
           rewrite (A k' Nb). apply (iv_rest _ _ _ IH). intros (d & k1 & [Hd|(l & u & Hl & Q)] & O1 & Bl); apply H; exists d, k1; (split; [|auto]).
           ++ now left.
           ++ right. exists l, u. unfold set_object. destruct (Nat.eqb_spec i l) as [->|]; [|auto]. exfalso. assert (u = t) as -> by congruence. subst d. now apply (Nb k1 O1).
    + destruct (iv_where _ _ _ IH) as [[Sm Em]|K]; [left|now right]. split; [|intros d H; apply Em; auto]. intros k'. rewrite <- (Sm k'). apply A.
      intros k O. exfalso. apply (owned_nonempty _ _ O). apply Em. right. eauto.
  - assert (Di : forall d, d <> "" -> (dirs (set_object o i None) (tf_dir t :: lost) d <-> dirs o lost d)).
    { intros d _. unfold dirs, set_object. cbn [In]. split.
      - intros [[H|H]|(l & u & H & Q)]; [right; eauto|auto|]. destruct (Nat.eqb_spec i l); [discriminate H|]. right. eauto.
      - intros [H|(l & u & H & Q)]; [auto|]. destruct (Nat.eq_dec i l) as [<-|Nl]; [left; left; congruence|]. right. exists l, u.
        destruct (Nat.eqb_spec i l); [congruence|auto]. }
    apply (inv_ext f' o lost); [|exact Di]. apply (inv_work f o lost f' IH S'). intros k' Q. destruct (Ch k' Q) as (_ & k & R).
    exists (tf_dir t), k. split; [right; eauto|exact R].
Qed.

Lemma session_lemma f o lost k' : session cwd strict tmp f0 f o lost ->
  (forall d k, In d lost \/ (exists i t, o i = Some t /\ tf_dir t = d) -> names_place cwd f d k -> ~ at_or_below k k') -> f k' = f0 k'.
Proof.
  intros H N. pose proof (session_inv _ _ _ H) as Iv. pose proof (inv_grown _ _ _ Iv) as G. apply (iv_rest _ _ _ Iv).
  intros (d & k & D & O & B). apply (N d k D); [|exact B]. destruct (owned_place f d k G O) as [R _]. unfold names_place. rewrite R. destruct (f k); auto.
Qed.
Lemma session_kept f o lost k' : session cwd strict tmp f0 f o lost -> f0 k' <> None -> f k' = f0 k'.
Proof. intros H. exact (inv_grown _ _ _ (session_inv _ _ _ H) k'). Qed.
Lemma session_end f o : session cwd strict tmp f0 f o [] -> (forall i, o i = None) -> same f0 f.
Proof. intros H E k'. apply (session_lemma f o [] k' H). intros d k [[]|(i & t & Oi & _)]. now rewrite E in Oi. Qed.
End Session.

(** the file of an object: not there yet, in the new directory *)
Lemma file_lemma tmp tries f n f' t : Forall no_slash tries -> no_slash n -> n <> "" -> n <> "." -> n <> ".." -> sane f ->
  tmp_new cwd tmp tries f (Some n) = (f', inr t) ->
  exists k, f k = None /\ put k (Some (RDir rall)) f f' /\ resolve f' false (tf_dir t) = Here k /\
    (forall b, resolve f' b (tf_path t) = Nothing (k ++ [n]) false).
Proof.
  intros F N N1 N2 N3 S E. destruct (new_lemma _ _ _ _ _ _ F E) as (n' & T & m & s & [= <-] & R & D & X & W & Hin & Fn & -> & Td & Tp).
  pose proof (name_proper s (proj1 (Forall_forall _ _) F s Hin)) as Ps. set (k := T ++ [test_name s]) in *. set (f' := rupd f k (Some (RDir rall))).
  assert (G : forall k', f k' <> None -> f' k' = f k') by (intros k' H; apply rupd_other; intros ->; contradiction).
  assert (D' : f' T = Some (RDir m)) by (rewrite G; [exact D|congruence]). pose proof (resolve_grown f f' true tmp T G R) as R'.
  assert (Fk : f' k = Some (RDir rall)) by apply rupd_same.
  exists k. split; [exact Fn|]. split; [split; [exact Fk|intros k' Nk; now apply rupd_other]|].
  assert (Rd : forall b, resolve f' b (tf_dir t) = Here k).
  { intros b. destruct (leads_one f' b T m (test_name s) D' X Ps) as [L|(l & Q & _)]; [|fold k in Q; congruence]. fold k in L. rewrite Fk in L.
    destruct (join_leads f' tmp T m (test_name s) b _ R' D' (proj1 Ps) L) as (n1 & l & Hn & El & H). rewrite <- El in H. rewrite Td.
    eapply leads_resolve; eauto. apply join_nonempty. now apply (resolved _ _ _ _ R). }
  split; [apply Rd|]. intros b.
  assert (Pn : proper n) by (repeat split; auto).
  assert (Pa : path_append (tf_dir t) n = path_join (tf_dir t) n).
  { unfold path_append. destruct (absolute n) eqn:A; [|reflexivity]. exfalso. destruct n as [|c n]; [discriminate A|]. cbn in A. apply Ascii.eqb_eq in A. subst c. now apply (N "" n). }
  assert (Fm : f' (k ++ [n]) = None).
  { unfold f'. rewrite rupd_other; [|intros Q; rewrite <- (app_nil_r k) in Q at 2; apply app_inv_head in Q; discriminate Q]. now apply sane_below. }
  destruct (leads_one f' b k rall n Fk eq_refl Pn) as [L|(l & Q & _)]; [|congruence]. rewrite Fm in L.
  destruct (join_leads f' (tf_dir t) k rall n b _ (Rd true) Fk N L) as (n1 & l & Hn & El & H). rewrite <- El in H. rewrite Tp, Pa.
  eapply leads_resolve; eauto. apply join_nonempty. now apply (resolved _ _ _ _ (Rd true)).
Qed.

Lemma put_sane f k n : sane f -> f k = None -> PosixSpec.is_dir f (removelast k) -> sane (rupd f k (Some n)).
Proof.
  intros [[m R] S] N W. split.
  - exists m. rewrite rupd_other; [exact R|congruence].
  - intros q c n' H. assert (PosixSpec.is_dir f q) as [m' D].
    { destruct (list_eq_dec string_dec (q ++ [c]) k) as [<-|Nk]; [now rewrite removelast_snoc in W|rewrite rupd_other in H by exact Nk; eapply S; eauto]. }
    exists m'. rewrite rupd_other; [exact D|congruence].
Qed.

(** ** file_access.hpp *)

Lemma read_lemma f p : read_access cwd f p = true <-> exists k nd, resolve f true p = Here k /\ f k = Some nd /\ readable nd = true.
Proof.
  unfold read_access, Posix.status. split.
  - destruct (resolve f true p) as [k|? ?| | |] eqn:R; try discriminate. destruct (f k) as [[c m|m|m|t]|] eqn:Fk; try discriminate; intros H; eexists _, _; repeat split; eauto.
  - intros (k & nd & -> & -> & H). destruct nd; try discriminate H; exact H.
Qed.

Lemma open_write_lemma f p : exists f', ropen_write cwd f p = (f', match opens cwd f p with Some _ => true | None => false end) /\
  match opens cwd f p with Some (k, nd) => put k (Some nd) f f' | None => same f f' end.
Proof.
  unfold ropen_write, opens. destruct (resolve f true p) as [k|k []| | |]; try (eexists; split; [reflexivity|intros k'; reflexivity]).
  - destruct (f k) as [[c m|m|m|t]|] eqn:Fk; try (eexists; split; [reflexivity|intros k'; reflexivity]); destruct (x_write m); try (eexists; split; [reflexivity|intros k'; reflexivity]).
    + eexists. split; [reflexivity|]. split; [apply rupd_same|intros k' N; now apply rupd_other].
    + eexists. split; [reflexivity|]. split; [exact Fk|auto].
  - destruct (rparent_writable f k); [|eexists; split; [reflexivity|intros k'; reflexivity]]. eexists. split; [reflexivity|]. split; [apply rupd_same|intros k' N; now apply rupd_other].
Qed.

Lemma write_file_lemma f p : (forall m, status f p <> StNode (RDir m)) -> status f p <> StError ->
  exists f', write_access cwd f p = (f', Some (match opens cwd f p with Some _ => true | None => false end)) /\
  match opens cwd f p with Some (k, nd) => put k (Some nd) f f' | None => same f f' end.
Proof.
  intros N1 N2. destruct (open_write_lemma f p) as (f' & E & H). exists f'. split; [|exact H]. unfold write_access.
  destruct (status f p) as [[c m|m|m|t]| |] eqn:St; try (now rewrite E); [now destruct (N1 m)|contradiction].
Qed.

Lemma access_proper : proper "sharg_test_write_access".
Proof.
  split; [|repeat split; discriminate]. intros a b E. apply (f_equal (fun y => split_slash y "")) in E. rewrite (split_slash_app a b) in E.
  assert (K : split_slash "sharg_test_write_access" "" = ["sharg_test_write_access"]) by (vm_compute; reflexivity).
  rewrite K in E. apply (f_equal (@List.length _)) in E. rewrite app_length in E. cbn in E.
  assert (1 <= List.length (split_slash a "")) by (clear; generalize ""; induction a as [|c a IH]; intros acc; cbn; [lia|destruct (Ascii.eqb c slash); cbn; [lia|apply IH]]).
  assert (1 <= List.length (split_slash b "")) by (clear; generalize ""; induction b as [|c b IH]; intros acc; cbn; [lia|destruct (Ascii.eqb c slash); cbn; [lia|apply IH]]).
  lia.
Qed.

Lemma write_directory_lemma f p T m : sane f -> resolve f true p = Here T -> f T = Some (RDir m) -> f (T ++ ["sharg_test_write_access"]) = None ->
  exists f', write_access cwd f p = (f', Some (x_search m && x_write m)) /\ same f f'.
Proof.
  intros S R D Fn. set (x := "sharg_test_write_access") in *.
  assert (Px : proper x) by apply access_proper.
  destruct (resolved _ _ _ _ R) as [P _]. unfold write_access. unfold Posix.status. rewrite R, D. fold x. destruct (x_search m) eqn:X; cbn [andb].
  - assert (L : forall b, resolve f b (path_join p x) = Nothing (T ++ [x]) false).
    { intros b. destruct (leads_one f b T m x D X Px) as [L|(t & Q & _)]; [|congruence]. rewrite Fn in L.
      destruct (join_leads f p T m x b _ R D (proj1 Px) L) as (n1 & l & Hn & El & H). rewrite <- El in H. eapply leads_resolve; eauto. now apply join_nonempty. }
    unfold ropen_write. rewrite L. assert (Pw : rparent_writable f (T ++ [x]) = x_write m).
    { unfold rparent_writable. destruct (T ++ [x]) eqn:Q; [now destruct T|]. rewrite <- Q, removelast_snoc, D. reflexivity. }
    rewrite Pw. destruct (x_write m) eqn:W; [|eexists; split; [reflexivity|intros k'; reflexivity]].
    set (f1 := rupd f (T ++ [x]) (Some (RFile "" rall))).
    assert (G : forall k', f k' <> None -> f1 k' = f k') by (intros k' H; apply rupd_other; intros ->; contradiction).
    assert (D1 : f1 T = Some (RDir m)) by (rewrite G; [exact D|congruence]).
    unfold rremove. rewrite (join_resolve f1 p T m x (resolve_grown f f1 true p T G R) D1 X Px).
    assert (F1 : f1 (T ++ [x]) = Some (RFile "" rall)) by apply rupd_same. rewrite F1.
    assert (Pw1 : rparent_writable f1 (T ++ [x]) = true).
    { unfold rparent_writable. destruct (T ++ [x]) eqn:Q; [now destruct T|]. rewrite <- Q, removelast_snoc, D1. exact W. }
    rewrite Pw1. eexists. split; [reflexivity|]. intros k'. destruct (list_eq_dec string_dec k' (T ++ [x])) as [->|Nk]; [rewrite rupd_same; now symmetry|].
    rewrite rupd_other by exact Nk. now apply rupd_other.
  - unfold ropen_write. rewrite (join_closed f p T m x true R D X Px). eexists. split; [reflexivity|intros k'; reflexivity].
Qed.
End Cwd.
