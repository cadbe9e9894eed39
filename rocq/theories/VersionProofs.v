(** Proofs about the version check. *)
From Verif Require Import Base StrLib Fs Values ValuesSpec ValuesProofs FormatParse Parser VersionCheck VersionSpec.

(** ** Paths *)

Lemma split_slash_app a : forall acc b, split_slash (a +s+ String slash b) acc = split_slash a acc ++ split_slash b "".
Proof.
  induction a as [|c a IH]; intros acc b; [reflexivity|]. cbn [append split_slash].
  destruct (Ascii.eqb c slash); rewrite IH; reflexivity.
Qed.

Lemma comps_app a b : comps (a +s+ "/" +s+ b) = comps a ++ comps b.
Proof. unfold comps. change ("/" +s+ b) with (String slash b). now rewrite split_slash_app, filter_app. Qed.

Lemma last_chr_split s c : last_chr s = Some c -> exists p, s = p +s+ str1 c.
Proof.
  induction s as [|d s IH]; [discriminate|]. destruct s as [|d' s].
  - cbn. intros [= ->]. now exists "".
  - intros H. destruct (IH H) as [p E]. exists (String d p). cbn. cbn in E. now rewrite E.
Qed.

Lemma comps_join p q : comps (path_join p q) = comps p ++ comps q.
Proof.
  unfold path_join. destruct (last_chr p) as [c|] eqn:E.
  - destruct (Ascii.eqb_spec c slash) as [->|N]; [|now rewrite <- comps_app].
    destruct (last_chr_split _ _ E) as [p' ->]. rewrite app_assoc_s. change (str1 slash +s+ q) with ("/" +s+ q).
    rewrite comps_app. change (p' +s+ str1 slash) with (p' +s+ "/" +s+ ""). rewrite comps_app. cbn. now rewrite app_nil_r.
  - destruct p as [|d p]; [reflexivity|]. exfalso. clear - E. revert d E. induction p as [|d' p IH]; [discriminate|]. intros d E. exact (IH d' E).
Qed.

Lemma split_plain s : forall acc, scontains "/" s = false -> split_slash s acc = [acc +s+ s].
Proof.
  induction s as [|c s IH]; intros acc H; cbn.
  - now rewrite app_nil_r_s.
  - cbn in H. apply orb_false_elim in H as [H1 H2]. unfold slash. rewrite Ascii.eqb_sym, H1. rewrite IH by exact H2. now rewrite app_assoc_s.
Qed.

Lemma comps_plain s : scontains "/" s = false -> is_empty s = false -> String.eqb s "." = false -> comps s = [s].
Proof. intros H1 H2 H3. unfold comps. rewrite split_plain by exact H1. cbn. now rewrite H2, H3. Qed.

Lemma join_nonempty p q : is_empty q = false -> is_empty (path_join p q) = false.
Proof. intros H. unfold path_join. destruct (last_chr p) as [c|] eqn:E; [|exact H]. destruct p; [discriminate|]. destruct (Ascii.eqb c slash); reflexivity. Qed.

Lemma list_eqb_iff a : forall b, list_eqb a b = true <-> a = b.
Proof.
  induction a as [|x a IH]; intros [|y b]; cbn; try (split; [discriminate|discriminate] || now split).
  rewrite andb_true_iff, String.eqb_eq, IH. split; [now intros [-> ->]|now intros [= -> ->]].
Qed.
Lemma list_eqb_refl a : list_eqb a a = true.
Proof. now apply list_eqb_iff. Qed.
Lemma prefixb_refl a : list_prefixb a a = true.
Proof. induction a; cbn; [reflexivity|]. now rewrite String.eqb_refl. Qed.

Lemma upd_same f k n : upd f k n k = n.
Proof. unfold upd. now rewrite list_eqb_refl. Qed.
Lemma upd_other f k n k' : k <> k' -> upd f k n k' = f k'.
Proof. intros H. unfold upd. destruct (list_eqb k k') eqn:E; [|reflexivity]. apply list_eqb_iff in E. contradiction. Qed.

(** ** Effects of the file operations *)

Lemma create_only f p k : k <> comps p -> fst (create_directory f p) k = f k.
Proof.
  intros H. unfold create_directory. destruct (is_empty p); [reflexivity|]. destruct (f (comps p)) as [[]|]; try reflexivity.
  destruct (parent_writable f (comps p)); [|reflexivity]. cbn. now apply upd_other, not_eq_sym.
Qed.
Lemma open_write_only f p k : k <> comps p -> fst (open_write f p) k = f k.
Proof.
  intros H. unfold open_write. destruct (is_empty p); [reflexivity|]. destruct (f (comps p)) as [[s m|m|m]|]; try reflexivity.
  - destruct (f_writable m); [|reflexivity]. now apply upd_other, not_eq_sym.
  - destruct (parent_writable f (comps p)); [|reflexivity]. now apply upd_other, not_eq_sym.
Qed.
Lemma remove_only f p k : k <> comps p -> fst (remove f p) k = f k.
Proof.
  intros H. unfold remove. destruct (lookup f p); [|reflexivity]. destruct (parent_writable f (comps p)); [|reflexivity]. now apply upd_other, not_eq_sym.
Qed.
Lemma guard_only f p k : list_prefixb (comps p) k = false -> fst (guard_destroy f p) k = f k.
Proof.
  intros H. unfold guard_destroy, remove_all. destruct (lookup f p); [|reflexivity]. destruct (parent_writable f (comps p)); [|reflexivity]. cbn. now rewrite H.
Qed.
Lemma write_file_only f p s k : k <> comps p -> fst (write_file p s f) k = f k.
Proof.
  intros H. unfold write_file. pose proof (open_write_only f p k H) as X. destruct (open_write f p) as [f' ok]. cbn [fst] in *.
  destruct ok; [|exact X]. destruct (f' (comps p)) as [[]|]; cbn; try exact X. now rewrite upd_other by now apply not_eq_sym.
Qed.

(** ** get_path, in general *)

Lemma on_fs_eq {A} (g : fs -> fs * A) st : on_fs g st = ({| vs_fs := fst (g (vs_fs st)); vs_log := vs_log st |}, Ret (snd (g (vs_fs st)))).
Proof. unfold on_fs. now destruct (g (vs_fs st)). Qed.

Lemma comps_config home : comps (path_join home ".config") = config_dir home.
Proof. rewrite comps_join. reflexivity. Qed.
Lemma comps_cookie_dir home : comps (path_join (path_join home ".config") "seqan") = cookie_dir home.
Proof. rewrite !comps_join. reflexivity. Qed.
Lemma comps_dummy p : comps (path_join p "dummy.txt") = comps p ++ ["dummy.txt"].
Proof. rewrite comps_join. reflexivity. Qed.

Lemma spares_refl e f : spares e f f.
Proof. intros k _ _. reflexivity. Qed.
Lemma spares_trans e f g h : spares e f g -> spares e g h -> spares e f h.
Proof. intros H1 H2 k K1 K2. rewrite H2, H1; auto. Qed.

Lemma probe_spares e home p f :
  ve_home e = Some home -> p = path_join (path_join home ".config") "seqan" \/ p = ve_tmp e ->
  spares e f (fst (open_write f (path_join p "dummy.txt"))) /\
  spares e f (fst (remove f (path_join p "dummy.txt"))) /\
  spares e f (fst (guard_destroy f (path_join p "dummy.txt"))).
Proof.
  intros H Hp.
  assert (X : forall k, (forall home, ve_home e = Some home -> k <> config_dir home /\ k <> cookie_dir home /\ list_prefixb (cookie_dir home ++ ["dummy.txt"]) k = false) ->
      list_prefixb (comps (ve_tmp e) ++ ["dummy.txt"]) k = false -> list_prefixb (comps (path_join p "dummy.txt")) k = false).
  { intros k K1 K2. rewrite comps_dummy. destruct Hp as [-> | ->]; [|exact K2]. rewrite comps_cookie_dir. now apply (K1 home H). }
  assert (Y : forall k, list_prefixb (comps (path_join p "dummy.txt")) k = false -> k <> comps (path_join p "dummy.txt")).
  { intros k K ->. rewrite prefixb_refl in K. discriminate. }
  repeat split; intros k K1 K2; [apply open_write_only, Y, X|apply remove_only, Y, X|apply guard_only, X]; assumption.
Qed.

Lemma get_path_spares e st : spares e (vs_fs st) (vs_fs (fst (get_path e st))) /\ vs_log (fst (get_path e st)) = vs_log st.
Proof.
  set (P := fun r : vstate * res string => spares e (vs_fs st) (vs_fs (fst r)) /\ vs_log (fst r) = vs_log st). change (P (get_path e st)).
  unfold get_path. destruct (ve_home e) as [home|] eqn:H; [|split; [apply spares_refl|reflexivity]].
  unfold bind at 1. rewrite on_fs_eq. set (f1 := fst (create_directory _ _)). set (e1 := snd (create_directory _ _)).
  assert (S1 : spares e (vs_fs st) f1).
  { intros k K _. unfold f1. apply create_only. rewrite comps_config. now apply (K home H). }
  clearbody f1 e1.
  assert (X : exists f2 e2, (if e1 then ret true else on_fs (fun f => create_directory f (path_join (path_join home ".config") "seqan")))
                {| vs_fs := f1; vs_log := vs_log st |} = ({| vs_fs := f2; vs_log := vs_log st |}, Ret e2) /\ spares e (vs_fs st) f2).
  { destruct e1; [exists f1, true; split; [reflexivity|exact S1]|]. rewrite on_fs_eq. eexists. eexists. split; [reflexivity|]. cbn [vs_fs].
    apply (spares_trans _ _ f1); [exact S1|]. intros k K _. apply create_only. rewrite comps_cookie_dir. now apply (K home H). }
  destruct X as (f2 & e2 & E2 & S2). unfold bind at 1. cbn [vs_log]. rewrite E2. clear E2.
  assert (X : forall p, p = path_join (path_join home ".config") "seqan" \/ p = ve_tmp e -> forall g, spares e (vs_fs st) g ->
    let r := (do good <- on_fs (fun f => open_write f (path_join p "dummy.txt"));
              do _ <- on_fs (fun f => if is_directory f (path_join p "dummy.txt") then (f, false) else remove f (path_join p "dummy.txt"));
              do removed <- on_fs (fun f => guard_destroy f (path_join p "dummy.txt"));
              if negb removed && negb (ve_ndebug e) then fail AssertFail else ret (if good then p else "")) {| vs_fs := g; vs_log := vs_log st |} in
    spares e (vs_fs st) (vs_fs (fst r)) /\ vs_log (fst r) = vs_log st).
  { intros p Hp g Hg. cbn zeta. unfold bind. rewrite !on_fs_eq. cbn [vs_fs vs_log].
    destruct (probe_spares e home p g H Hp) as [P1 _]. set (g1 := fst (open_write g _)) in *.
    set (g2 := fst (if is_directory g1 _ then _ else _)).
    assert (P2 : spares e g1 g2). { unfold g2. destruct (is_directory g1 _); [apply spares_refl|]. now apply (probe_spares e home p g1 H Hp). }
    destruct (probe_spares e home p g2 H Hp) as (_ & _ & P3). set (g3 := fst (guard_destroy g2 _)) in *.
    assert (P0 : spares e (vs_fs st) g3) by (eapply spares_trans; [exact Hg|]; eapply spares_trans; [exact P1|]; eapply spares_trans; [exact P2|exact P3]).
    destruct (negb (snd _) && negb _); cbn; split; auto. }
  unfold bind at 1. destruct e2.
  - unfold temp_directory_path. cbn [vs_fs]. destruct (is_directory f2 (ve_tmp e)).
    + exact (X (ve_tmp e) (or_intror eq_refl) f2 S2).
    + split; [exact S2|reflexivity].
  - exact (X _ (or_introl eq_refl) f2 S2).
Qed.

(** ** A usable configuration directory *)

Lemma lookup_at f p : is_empty p = false -> lookup f p = f (comps p).
Proof. intros H. unfold lookup. now rewrite H. Qed.

Lemma create_existing f p m : is_empty p = false -> f (comps p) = Some (NDir m) -> create_directory f p = (f, false).
Proof. intros H1 H2. unfold create_directory. now rewrite H1, H2. Qed.

Lemma longer_key (a : key) x : a <> a ++ [x].
Proof. intros H. apply (f_equal (@List.length string)) in H. rewrite app_length in H. cbn in H. lia. Qed.

Definition seqan_dir (home : string) : string := path_join (path_join home ".config") "seqan".

Lemma get_path_usable e home name f l : ve_home e = Some home -> usable (ve_ndebug e) home name f ->
  exists g, get_path e {| vs_fs := f; vs_log := l |} = ({| vs_fs := g; vs_log := l |}, Ret (seqan_dir home)) /\ forall k, g k = f k.
Proof.
  intros H ((m1 & U1) & (m2 & U2 & W2) & U3 & _). unfold get_path. rewrite H. unfold bind. rewrite on_fs_eq. cbn [vs_fs vs_log].
  rewrite (create_existing f _ m1) by (try (rewrite comps_config; exact U1); apply join_nonempty; reflexivity). cbn [fst snd].
  rewrite on_fs_eq. cbn [vs_fs vs_log].
  rewrite (create_existing f _ m2) by (try (rewrite comps_cookie_dir; exact U2); apply join_nonempty; reflexivity). cbn [fst snd ret].
  fold (seqan_dir home). set (d := path_join (seqan_dir home) "dummy.txt").
  assert (Hd : comps d = cookie_dir home ++ ["dummy.txt"]) by (unfold d; rewrite comps_dummy; unfold seqan_dir; now rewrite comps_cookie_dir).
  assert (Nd : is_empty d = false) by (apply join_nonempty; reflexivity).
  assert (PW : forall g, g (cookie_dir home) = Some (NDir m2) -> parent_writable g (comps d) = true).
  { intros g Hg. rewrite Hd. unfold parent_writable, parent_key. rewrite removelast_last, Hg. destruct (cookie_dir home ++ ["dummy.txt"]) eqn:E; [now destruct (cookie_dir home)|exact W2]. }
  assert (Other : forall g n, upd g (comps d) n (cookie_dir home) = g (cookie_dir home)).
  { intros g n. apply upd_other. rewrite Hd. apply not_eq_sym, longer_key. }
  rewrite on_fs_eq. cbn [vs_fs vs_log].
  set (f1 := upd f (comps d) (Some (NFile "" rw))).
  assert (E : open_write f d = (f1, true)). { unfold open_write. rewrite Nd, Hd, U3, <- Hd, (PW f U2). reflexivity. }
  rewrite E. cbn [fst snd].
  rewrite on_fs_eq. cbn [vs_fs vs_log].
  assert (E2 : (if is_directory f1 d then (f1, false) else remove f1 d) = (upd f1 (comps d) None, false)).
  { unfold is_directory, remove. rewrite lookup_at by exact Nd. rewrite PW by (unfold f1; now rewrite Other).
    replace (f1 (comps d)) with (Some (NFile "" rw)) by (unfold f1; now rewrite upd_same). reflexivity. }
  rewrite E2. cbn [fst snd]. rewrite on_fs_eq. cbn [vs_fs vs_log].
  assert (E3 : guard_destroy (upd f1 (comps d) None) d = (upd f1 (comps d) None, true)).
  { unfold guard_destroy, remove_all. rewrite lookup_at by exact Nd. now rewrite upd_same. }
  rewrite E3. cbn [fst snd negb andb]. eexists. split; [reflexivity|].
  intros k. destruct (list_eqb (comps d) k) eqn:K.
  - apply list_eqb_iff in K. subst k. rewrite upd_same, Hd. now rewrite U3.
  - unfold f1, upd. now rewrite K.
Qed.

(** ** The cookie *)

Lemma name_no_slash s : name_matches s = true -> scontains "/" s = false /\ is_empty s = false.
Proof.
  unfold name_matches. rewrite andb_true_iff, negb_true_iff. intros [H1 H2]. split; [|exact H1]. clear H1.
  induction s as [|c s IH]; [reflexivity|]. cbn [sall scontains] in *. apply andb_prop in H2 as [H2 H3]. rewrite (IH H3), orb_false_r.
  destruct (Ascii.eqb_spec "/" c) as [<-|]; [discriminate H2|reflexivity].
Qed.

Lemma scontains_app c a b : scontains c (a +s+ b) = scontains c a || scontains c b.
Proof. induction a as [|d a IH]; cbn; [reflexivity|]. now rewrite IH, orb_assoc. Qed.

Definition stamp (nd : bool) (name : string) : string := name +s+ if nd then "_usr.timestamp" else "_dev.timestamp".

Lemma stamp_plain nd name : name_matches name = true -> comps (stamp nd name) = [stamp nd name].
Proof.
  intros H. apply name_no_slash in H as [H1 H2]. unfold stamp. apply comps_plain.
  - rewrite scontains_app, H1. now destruct nd.
  - destruct name; [discriminate|reflexivity].
  - destruct name as [|c [|d n]]; [discriminate| |]; destruct nd; apply String.eqb_neq; discriminate.
Qed.

Lemma stamp_ends nd name : exists p, stamp nd name = p +s+ "timestamp".
Proof. exists (name +s+ if nd then "_usr." else "_dev."). unfold stamp. rewrite app_assoc_s. now destruct nd. Qed.

Lemma last_app p c s : last_chr (p +s+ String c s) = last_chr (String c s).
Proof.
  induction p as [|d p IH]; [reflexivity|]. rewrite <- IH. change ((String d p) +s+ String c s) with (String d (p +s+ String c s)).
  destruct (p +s+ String c s) eqn:E; [now destruct p|reflexivity].
Qed.

Lemma stamp_not_dummy nd name : stamp nd name <> "dummy.txt".
Proof.
  intros E. destruct (stamp_ends nd name) as [p H]. rewrite H in E. apply (f_equal last_chr) in E. rewrite last_app in E. discriminate.
Qed.

Lemma comps_stamp nd home name : name_matches name = true -> comps (path_join (seqan_dir home) (stamp nd name)) = cookie nd home name.
Proof. intros H. rewrite comps_join, stamp_plain by exact H. unfold seqan_dir. now rewrite comps_cookie_dir. Qed.

Lemma cookie_others nd home name : cookie nd home name <> config_dir home /\ cookie nd home name <> cookie_dir home /\ cookie nd home name <> cookie_dir home ++ ["dummy.txt"].
Proof.
  unfold cookie. repeat split; intros H.
  - unfold cookie_dir in H. rewrite <- app_assoc in H. apply (f_equal (@List.length string)) in H. rewrite app_length in H. cbn in H. lia.
  - exact (longer_key _ _ (eq_sym H)).
  - apply app_inv_head in H. injection H as H. exact (stamp_not_dummy nd name H).
Qed.

Definition a_checker (e : venv) (home : string) (m : meta) : checker :=
  {| ck_name := m_app_name m; ck_version := version_of_app (m_version m); ck_url := m_url m; ck_path := seqan_dir home;
     ck_timestamp := path_join (seqan_dir home) (stamp (ve_ndebug e) (m_app_name m)) |}.

Lemma version_checker_usable e home m f l : ve_home e = Some home -> usable (ve_ndebug e) home (m_app_name m) f -> name_matches (m_app_name m) = true ->
  exists g, version_checker e (m_app_name m) (m_version m) (m_url m) {| vs_fs := f; vs_log := l |}
            = ({| vs_fs := g; vs_log := l |}, Ret (a_checker e home m)) /\ forall k, g k = f k.
Proof.
  intros H U HN. destruct (get_path_usable e home _ f l H U) as (g & E & G). exists g. split; [|exact G].
  unfold version_checker, bind. rewrite E, HN. reflexivity.
Qed.

Lemma usable_ext nd home name f g : (forall k, g k = f k) -> usable nd home name f -> usable nd home name g.
Proof. intros E. unfold usable. now rewrite !E. Qed.

Section cookie.
Variables (e : venv) (home : string) (m : meta).
Hypothesis HN : name_matches (m_app_name m) = true.
Let nd := ve_ndebug e.
Let K := cookie nd home (m_app_name m).
Let k := a_checker e home m.

Lemma write_usable f l msg : usable nd home (m_app_name m) f ->
  exists g, write_cookie e k msg {| vs_fs := f; vs_log := l |} = ({| vs_fs := g; vs_log := l |}, Ret tt)
    /\ stored nd home (m_app_name m) g (ve_now e) msg /\ usable nd home (m_app_name m) g /\ forall x, x <> K -> g x = f x.
Proof.
  intros U. unfold write_cookie, bind. rewrite on_fs_eq. cbn [vs_fs vs_log ret]. set (s := _ +s+ nl +s+ msg).
  assert (Hk : comps (ck_timestamp k) = K) by (apply comps_stamp, HN).
  assert (Nk : is_empty (ck_timestamp k) = false). { apply join_nonempty. unfold stamp. destruct (m_app_name m) as [|c r]; [discriminate HN|reflexivity]. }
  assert (X : exists mm, f_readable mm = true /\ f_writable mm = true /\
              forall x, fst (write_file (ck_timestamp k) s f) x = if list_eqb K x then Some (NFile s mm) else f x).
  { destruct U as (_ & (m2 & U2 & W2) & _ & U). unfold write_file, open_write. rewrite Nk, Hk. fold K in U. destruct U as [U|(c & mm & U & R & W)].
    - rewrite U. assert (PW : parent_writable f K = true).
      { unfold parent_writable, parent_key, K, cookie. rewrite removelast_last, U2. destruct (cookie_dir home ++ [_]) eqn:E; [now destruct (cookie_dir home)|exact W2]. }
      rewrite PW. exists rw. split; [reflexivity|]. split; [reflexivity|]. intros x. rewrite upd_same. cbn [fst]. unfold upd. now destruct (list_eqb K x).
    - rewrite U, W. exists mm. split; [exact R|]. split; [exact W|]. intros x. rewrite upd_same. cbn [fst]. unfold upd. now destruct (list_eqb K x). }
  destruct X as (mm & R & W & X). set (g := fst (write_file _ _ _)) in *. exists g. split; [reflexivity|].
  assert (XK : g K = Some (NFile s mm)) by (rewrite X, list_eqb_refl; reflexivity).
  assert (XO : forall x, x <> K -> g x = f x).
  { intros x Hx. rewrite X. destruct (list_eqb K x) eqn:E; [|reflexivity]. apply list_eqb_iff in E. congruence. }
  split; [|split; [|exact XO]].
  - exists mm. exact (conj XK (conj R W)).
  - destruct (cookie_others nd home (m_app_name m)) as (N1 & N2 & N3). destruct U as ((m1 & U1) & (m2 & U2) & U3 & _).
    split; [|split; [|split]].
    + exists m1. rewrite XO by apply not_eq_sym, N1. exact U1.
    + exists m2. rewrite XO by apply not_eq_sym, N2. exact U2.
    + rewrite XO by apply not_eq_sym, N3. exact U3.
    + right. exists s, mm. exact (conj XK (conj R W)).
Qed.

Lemma cut_line_nl a b : scontains "010" a = false -> cut_line (a +s+ nl +s+ b) = (a, Some b).
Proof.
  induction a as [|c a IH]; intros H; [reflexivity|]. cbn [scontains] in H. apply orb_false_elim in H as [H1 H2].
  cbn [append cut_line]. rewrite Ascii.eqb_sym, H1, IH by exact H2. reflexivity.
Qed.
Lemma cut_line_end a : scontains "010" a = false -> cut_line a = (a, None).
Proof.
  induction a as [|c a IH]; intros H; [reflexivity|]. cbn [scontains] in H. apply orb_false_elim in H as [H1 H2].
  cbn [cut_line]. rewrite Ascii.eqb_sym, H1, IH by exact H2. reflexivity.
Qed.

Lemma prefix_one x c a : String.prefix (String x "") (String c a) = Ascii.eqb c x.
Proof.
  unfold String.prefix. destruct (ascii_dec x c) as [->|N].
  - rewrite Ascii.eqb_refl. destruct a; reflexivity.
  - symmetry. now apply Ascii.eqb_neq, not_eq_sym.
Qed.

Lemma ask_usable f l : usable nd home (m_app_name m) f ->
  let v := if ve_tty e then verdict (ve_answer e) else (false, "ASK") in
  exists g, ask_or_default e k {| vs_fs := f; vs_log := l |}
      = ({| vs_fs := g; vs_log := l ++ if ve_tty e then [Message question] else [] |}, Ret (fst v))
    /\ stored nd home (m_app_name m) g (ve_now e) (snd v) /\ usable nd home (m_app_name m) g /\ forall x, x <> K -> g x = f x.
Proof.
  intros U. cbn zeta. unfold ask_or_default. unfold bind at 1. destruct (write_usable f l "ASK" U) as (g & -> & S & U' & O).
  destruct (ve_tty e); [|exists g; rewrite app_nil_r; split; [reflexivity|auto]].
  unfold ask_user. unfold bind at 1. cbn [log modify vs_fs vs_log].
  destruct (ve_answer e) as [|c a]; [exists g; split; [reflexivity|auto]|].
  assert (V : verdict (String c a) = if Ascii.eqb c "y" then (true, "ASK") else if Ascii.eqb c "a" then (true, "ALWAYS")
                                     else if Ascii.eqb c "n" then (false, "NEVER") else (false, "ASK")).
  { unfold verdict. rewrite !prefix_one. destruct (Ascii.eqb_spec c "y") as [->|N1]; [reflexivity|]. destruct (Ascii.eqb_spec c "a"), (Ascii.eqb c "n"); reflexivity. }
  rewrite V. clear V. destruct (Ascii.eqb c "y"); [exists g; split; [reflexivity|auto]|].
  destruct (Ascii.eqb c "a"); [|destruct (Ascii.eqb c "n"); [|exists g; split; [reflexivity|auto]]].
  - unfold bind. destruct (write_usable g (l ++ [Message question]) "ALWAYS" U') as (h & -> & S' & U'' & O'). exists h. split; [reflexivity|].
    split; [exact S'|]. split; [exact U''|]. intros x Hx. now rewrite O', O.
  - unfold bind. destruct (write_usable g (l ++ [Message question]) "NEVER" U') as (h & -> & S' & U'' & O'). exists h. split; [reflexivity|].
    split; [exact S'|]. split; [exact U''|]. intros x Hx. now rewrite O', O.
Qed.

Lemma read_stored f s mm : usable nd home (m_app_name m) f -> f K = Some (NFile s mm) -> f_readable mm = true ->
  (if exists_ f (ck_path k) then read_file f (ck_timestamp k) else None) = Some s.
Proof.
  intros (_ & (m2 & U2 & _) & _) HK R. unfold exists_. cbn [ck_path k a_checker].
  rewrite lookup_at by (apply join_nonempty; reflexivity). unfold seqan_dir. rewrite comps_cookie_dir, U2.
  unfold read_file, open_read. rewrite lookup_at.
  - cbn [ck_timestamp k a_checker]. rewrite comps_stamp by exact HN. fold nd K. now rewrite HK, R.
  - cbn [ck_timestamp k a_checker]. apply join_nonempty. unfold stamp. destruct (m_app_name m); [discriminate HN|reflexivity].
Qed.

Lemma read_none f : f K = None -> (if exists_ f (ck_path k) then read_file f (ck_timestamp k) else None) = None.
Proof.
  intros HK. destruct (exists_ f (ck_path k)); [|reflexivity]. unfold read_file, open_read. unfold lookup. destruct (is_empty (ck_timestamp k)); [reflexivity|].
  cbn [ck_timestamp k a_checker]. rewrite comps_stamp by exact HN. fold nd K. now rewrite HK.
Qed.

Lemma digits_no_nl s : sall is_digit s = true -> scontains "010" s = false.
Proof.
  induction s as [|c s IH]; [reflexivity|]. cbn [sall scontains]. intros H. apply andb_prop in H as [H1 H2]. rewrite (IH H2), orb_false_r.
  destruct (Ascii.eqb_spec "010" c) as [<-|]; [discriminate H1|reflexivity].
Qed.
Lemma Z_string_no_nl z : scontains "010" (Z_to_string z) = false.
Proof.
  destruct (Z_to_string_numeral true z (or_introl eq_refl)) as [s [_ D]|s _ [_ D]].
  - now apply digits_no_nl.
  - cbn. now apply digits_no_nl.
Qed.

Lemma decide_stored f l t d : usable nd home (m_app_name m) f -> stored nd home (m_app_name m) f t d -> scontains "010" d = false -> ve_opt_out e = false ->
  decide e k true None {| vs_fs := f; vs_log := l |} =
  (if ve_recent e (Z_to_string t) (ve_now e) then ({| vs_fs := f; vs_log := l |}, Ret false)
   else if String.eqb d "NEVER" then ({| vs_fs := f; vs_log := l |}, Ret false)
   else if String.eqb d "ALWAYS" then ({| vs_fs := f; vs_log := l |}, Ret true)
   else ask_or_default e k {| vs_fs := f; vs_log := l |}).
Proof.
  intros U (mm & S & R & _) D O. unfold decide. cbn [negb]. rewrite O. cbn [vs_fs]. rewrite (read_stored f _ mm U S R).
  unfold getline at 1. rewrite cut_line_nl by apply Z_string_no_nl. destruct (ve_recent e _ _); [reflexivity|].
  unfold getline. rewrite cut_line_end by exact D. reflexivity.
Qed.

Lemma decide_none f l : usable nd home (m_app_name m) f -> f K = None -> ve_opt_out e = false ->
  decide e k true None {| vs_fs := f; vs_log := l |} = ask_or_default e k {| vs_fs := f; vs_log := l |}.
Proof. intros U HK O. unfold decide. cbn [negb]. rewrite O. cbn [vs_fs]. rewrite read_none by exact HK. reflexivity. Qed.

End cookie.

(** ** The check itself *)

Definition only_logs {A} (n : M vstate A) : Prop := forall st, exists l r, n st = ({| vs_fs := vs_fs st; vs_log := vs_log st ++ l |}, Ret r) /\ ~ asks l.

Lemma logs_ret {A} (a : A) : only_logs (ret a).
Proof. intros [f l]. exists [], a. cbn. rewrite app_nil_r. now split. Qed.
Lemma logs_log x : x <> Message question -> only_logs (log x).
Proof. intros N [f l]. exists [x], tt. split; [reflexivity|]. unfold asks. cbn. intros [E|[]]. contradiction. Qed.
Lemma logs_bind {A B} (n : M vstate A) (g : A -> M vstate B) : only_logs n -> (forall a, only_logs (g a)) -> only_logs (bind n g).
Proof.
  intros H1 H2 st. unfold bind. destruct (H1 st) as (l & r & -> & N). destruct (H2 r {| vs_fs := vs_fs st; vs_log := vs_log st ++ l |}) as (l' & r' & -> & N').
  exists (l ++ l'), r'. cbn. rewrite app_assoc. split; [reflexivity|]. unfold asks. rewrite in_app_iff. tauto.
Qed.
Lemma logs_if {A} (b : bool) (x y : M vstate A) : only_logs x -> only_logs y -> only_logs (if b then x else y).
Proof. now destruct b. Qed.

Lemma logs_messages e k : only_logs (show_messages e k).
Proof.
  unfold show_messages. apply logs_bind.
  - intros st. destruct (read_file (vs_fs st) _) as [c|]; [|apply logs_ret]. destruct (getline (Some c) "") as [s line]. destruct (getline s line) as [s2 line2].
    revert st. apply logs_bind; [|intros; apply logs_ret]. apply logs_if; [|apply logs_ret].
    apply logs_bind; [|intros; apply logs_ret]. apply logs_if; [apply logs_ret|]. apply logs_log. discriminate.
  - intros [a s]. apply logs_bind; [apply logs_if; [apply logs_log; discriminate|apply logs_ret]|]. intros _.
    repeat apply logs_if; try apply logs_ret; apply logs_log; discriminate.
Qed.

Lemma logs_check e k : only_logs (check e k).
Proof.
  unfold check. apply logs_bind; [apply logs_messages|]. intros _. apply logs_bind.
  - unfold get_program. apply logs_bind; [apply logs_log; discriminate|]. intros _. apply logs_if; [apply logs_ret|].
    apply logs_bind; [apply logs_log; discriminate|]. intros _. apply logs_if; apply logs_ret.
  - intros p. apply logs_if; [apply logs_ret|apply logs_log; discriminate].
Qed.

(** ** One run *)

Definition cookie_name (m : meta) : Prop := name_matches (m_app_name m) = true.

(** what the stored decision is allowed to look like *)
Definition word (d : string) : Prop := scontains "010" d = false.

Lemma run_stored e home m user f t d : ve_home e = Some home -> cookie_name m ->
  usable (ve_ndebug e) home (m_app_name m) f -> stored (ve_ndebug e) home (m_app_name m) f t d -> word d ->
  exists st, version_check e m true user {| vs_fs := f; vs_log := [] |} = (st, Ret tt)
    /\ usable (ve_ndebug e) home (m_app_name m) (vs_fs st)
    /\ ((stored (ve_ndebug e) home (m_app_name m) (vs_fs st) t d /\ ~ asks (vs_log st)
         /\ (user = Some true \/ vs_log st = [] \/ (user = None /\ d = "ALWAYS" /\ ve_recent e (Z_to_string t) (ve_now e) = false)))
        \/ (user = None /\ d <> "NEVER" /\ d <> "ALWAYS" /\ ve_recent e (Z_to_string t) (ve_now e) = false
            /\ exists d', (d' = "ASK" \/ (asks (vs_log st) /\ d' = snd (verdict (ve_answer e)))) /\ stored (ve_ndebug e) home (m_app_name m) (vs_fs st) (ve_now e) d'
            /\ (requests (vs_log st) -> asks (vs_log st)))).
Proof.
  intros H HN U S W. destruct (version_checker_usable e home m f [] H U HN) as (g & E & G).
  assert (U' := usable_ext _ _ _ f g G U). assert (S' : stored (ve_ndebug e) home (m_app_name m) g t d).
  { destruct S as (mm & S). exists mm. now rewrite G. }
  unfold version_check. unfold bind at 1. rewrite E.
  assert (Quiet : forall user', user' = Some false \/ user' = None -> (do yes <- (fun st => (st, Ret false)); if yes then check e (a_checker e home m) else ret tt) {| vs_fs := g; vs_log := [] |}
                  = ({| vs_fs := g; vs_log := [] |}, Ret tt)) by reflexivity.
  assert (Loud : exists st, check e (a_checker e home m) {| vs_fs := g; vs_log := [] |} = (st, Ret tt) /\ vs_fs st = g /\ ~ asks (vs_log st)).
  { destruct (logs_check e (a_checker e home m) {| vs_fs := g; vs_log := [] |}) as (l & [] & -> & N). eexists. split; [reflexivity|]. split; [reflexivity|exact N]. }
  assert (NA : ~ asks []) by (intros []).
  destruct (ve_opt_out e) eqn:O.
  { unfold bind, decide. cbn [negb]. rewrite O. cbn [ret]. eexists. split; [reflexivity|]. split; [exact U'|]. left. auto. }
  destruct user as [[]|].
  - unfold bind, decide. cbn [negb]. rewrite O. cbn [ret]. destruct Loud as (st & -> & F & N). exists st. rewrite F. split; [reflexivity|]. split; [exact U'|]. left. auto.
  - unfold bind, decide. cbn [negb]. rewrite O. cbn [ret]. eexists. split; [reflexivity|]. split; [exact U'|]. left. auto.
  - unfold bind at 1. rewrite (decide_stored e home m HN g [] t d U' S' W O).
    destruct (ve_recent e (Z_to_string t) (ve_now e)) eqn:R.
    { eexists. split; [reflexivity|]. split; [exact U'|]. left. auto. }
    destruct (String.eqb_spec d "NEVER") as [->|N1].
    { eexists. split; [reflexivity|]. split; [exact U'|]. left. auto. }
    destruct (String.eqb_spec d "ALWAYS") as [->|N2].
    { destruct Loud as (st & -> & F & N). exists st. rewrite F. split; [reflexivity|]. split; [exact U'|]. left. split; [exact S'|]. split; [exact N|]. auto. }
    destruct (ask_usable e home m HN g [] U') as (h & -> & S2 & U2 & _). cbn [app].
    destruct (ve_tty e).
    + destruct (verdict (ve_answer e)) as [[] d'] eqn:V; cbn [fst snd] in *.
      * destruct (logs_check e (a_checker e home m) {| vs_fs := h; vs_log := [Message question] |}) as (l & [] & -> & N).
        eexists. split; [reflexivity|]. cbn [vs_fs vs_log]. split; [exact U2|]. right. repeat split; auto.
        exists d'. split; [right; split; [now left|reflexivity]|]. split; [exact S2|]. intros _. now left.
      * eexists. split; [reflexivity|]. cbn [vs_fs vs_log]. split; [exact U2|]. right. repeat split; auto.
        exists d'. split; [right; split; [now left|reflexivity]|]. split; [exact S2|]. intros _. now left.
    + cbn [fst snd] in *. eexists. split; [reflexivity|]. cbn [vs_fs vs_log]. split; [exact U2|]. right. repeat split; auto.
      exists "ASK". split; [now left|]. split; [exact S2|]. discriminate.
Qed.

Lemma run_any e home m user f : ve_home e = Some home -> cookie_name m -> usable (ve_ndebug e) home (m_app_name m) f ->
  exists st, version_check e m true user {| vs_fs := f; vs_log := [] |} = (st, Ret tt)
    /\ usable (ve_ndebug e) home (m_app_name m) (vs_fs st)
    /\ (asks (vs_log st) -> user = None /\ stored (ve_ndebug e) home (m_app_name m) (vs_fs st) (ve_now e) (snd (verdict (ve_answer e))))
    /\ (f (cookie (ve_ndebug e) home (m_app_name m)) = None ->
        (vs_fs st (cookie (ve_ndebug e) home (m_app_name m)) = None /\ (user = None -> vs_log st = []))
        \/ exists d', (d' = "ASK" \/ (asks (vs_log st) /\ d' = snd (verdict (ve_answer e)))) /\ stored (ve_ndebug e) home (m_app_name m) (vs_fs st) (ve_now e) d'
            /\ (requests (vs_log st) -> asks (vs_log st))).
Proof.
  intros H HN U. destruct (version_checker_usable e home m f [] H U HN) as (g & E & G).
  assert (U' := usable_ext _ _ _ f g G U).
  unfold version_check. unfold bind at 1. rewrite E.
  assert (Loud : exists st, check e (a_checker e home m) {| vs_fs := g; vs_log := [] |} = (st, Ret tt) /\ vs_fs st = g /\ ~ asks (vs_log st)).
  { destruct (logs_check e (a_checker e home m) {| vs_fs := g; vs_log := [] |}) as (l & [] & -> & N). eexists. split; [reflexivity|]. split; [reflexivity|exact N]. }
  assert (NA : ~ asks []) by (intros []).
  assert (Ask : exists st, (do yes <- ask_or_default e (a_checker e home m); if yes then check e (a_checker e home m) else ret tt) {| vs_fs := g; vs_log := [] |} = (st, Ret tt)
    /\ usable (ve_ndebug e) home (m_app_name m) (vs_fs st)
    /\ (asks (vs_log st) -> stored (ve_ndebug e) home (m_app_name m) (vs_fs st) (ve_now e) (snd (verdict (ve_answer e))))
    /\ exists d', (d' = "ASK" \/ (asks (vs_log st) /\ d' = snd (verdict (ve_answer e)))) /\ stored (ve_ndebug e) home (m_app_name m) (vs_fs st) (ve_now e) d'
            /\ (requests (vs_log st) -> asks (vs_log st))).
  { unfold bind at 1. destruct (ask_usable e home m HN g [] U') as (h & -> & S2 & U2 & _). cbn [app]. destruct (ve_tty e).
    - destruct (verdict (ve_answer e)) as [[] d'] eqn:V; cbn [fst snd] in *.
      + destruct (logs_check e (a_checker e home m) {| vs_fs := h; vs_log := [Message question] |}) as (l & [] & -> & N).
        eexists. split; [reflexivity|]. cbn [vs_fs vs_log]. split; [exact U2|]. split; [auto|]. exists d'. split; [right; split; [now left|reflexivity]|]. split; [exact S2|]. intros _. now left.
      + eexists. split; [reflexivity|]. cbn [vs_fs vs_log]. split; [exact U2|]. split; [auto|]. exists d'. split; [right; split; [now left|reflexivity]|]. split; [exact S2|]. intros _. now left.
    - cbn [fst snd] in *. eexists. split; [reflexivity|]. cbn [vs_fs vs_log]. split; [exact U2|]. split; [intros []|].
      exists "ASK". split; [now left|]. split; [exact S2|]. discriminate. }
  destruct (ve_opt_out e) eqn:O.
  { unfold bind, decide. cbn [negb]. rewrite O. cbn [ret]. eexists. split; [reflexivity|]. split; [exact U'|]. split; [intros []|]. intros F. left. cbn. rewrite G. auto. }
  destruct user as [[]|].
  - unfold bind, decide. cbn [negb]. rewrite O. cbn [ret]. destruct Loud as (st & -> & F & N). exists st. rewrite F. split; [reflexivity|]. split; [exact U'|].
    split; [contradiction|]. intros Hf. left. rewrite G. split; [exact Hf|discriminate].
  - unfold bind, decide. cbn [negb]. rewrite O. cbn [ret]. eexists. split; [reflexivity|]. split; [exact U'|]. split; [intros []|]. intros F. left. cbn. rewrite G. auto.
  - destruct (g (cookie (ve_ndebug e) home (m_app_name m))) as [n|] eqn:C.
    + assert (F : f (cookie (ve_ndebug e) home (m_app_name m)) <> None) by (rewrite <- G, C; discriminate).
      assert (X : forall P : Prop, f (cookie (ve_ndebug e) home (m_app_name m)) = None -> P) by (intros P Hf; contradiction).
      unfold bind at 1. unfold decide. cbn [negb]. rewrite O. cbn [vs_fs].
      destruct (if exists_ g _ then _ else _) as [c|].
      2: { destruct Ask as (st & A & B1 & B2 & _). exists st. split; [exact A|]. split; [exact B1|]. split; [auto|apply X]. }
      destruct (getline (Some c) "") as [s line]. destruct (ve_recent e line (ve_now e)).
      { eexists. split; [reflexivity|]. split; [exact U'|]. split; [intros []|apply X]. }
      destruct (getline s line) as [s2 line2]. destruct (String.eqb line2 "NEVER").
      { eexists. split; [reflexivity|]. split; [exact U'|]. split; [intros []|apply X]. }
      destruct (String.eqb line2 "ALWAYS").
      { destruct Loud as (st & -> & F' & N). exists st. rewrite F'. split; [reflexivity|]. split; [exact U'|]. split; [contradiction|apply X]. }
      destruct Ask as (st & A & B1 & B2 & _). exists st. split; [exact A|]. split; [exact B1|]. split; [auto|apply X].
    + unfold bind at 1. rewrite (decide_none e home m HN g [] U' C O). destruct Ask as (st & A & B1 & B2 & B3). exists st.
      split; [exact A|]. split; [exact B1|]. split; [auto|]. intros _. right. exact B3.
Qed.

(** ** Histories *)

Lemma verdict_cases a : snd (verdict a) = "ASK" \/ snd (verdict a) = "ALWAYS" \/ snd (verdict a) = "NEVER".
Proof. unfold verdict. destruct (String.prefix "a" a), (String.prefix "n" a), (String.prefix "y" a); cbn; auto. Qed.
Lemma verdict_word a : word (snd (verdict a)).
Proof. destruct (verdict_cases a) as [->|[->| ->]]; reflexivity. Qed.

Lemma stored_same nd home name f g t d : g (cookie nd home name) = f (cookie nd home name) -> stored nd home name f t d -> stored nd home name g t d.
Proof. intros E (mm & S). exists mm. now rewrite E. Qed.

Lemma stored_inj nd home name f t d t' d' : stored nd home name f t d -> stored nd home name f t' d' ->
  Z_to_string t +s+ nl +s+ d = Z_to_string t' +s+ nl +s+ d'.
Proof. intros (mm & S & _) (mm' & S' & _). rewrite S in S'. now injection S'. Qed.

Section histories.
Variables (m : meta) (nd : bool) (home : string).
Hypothesis HN : cookie_name m.
Let name := m_app_name m.

(** the day after a question *)
Lemma quiet_day T f l f2 : history m nd home f l f2 ->
  forall t d, stored nd home name f t d -> word d -> (0 <= t < 2 ^ 53)%Z -> (t = T \/ t - T >= 86400)%Z ->
  forall r, In r l -> r_user r = None -> requests (r_events r) \/ asks (r_events r) -> (ve_now (r_env r) - T >= 86400)%Z.
Proof.
  intros Hh. induction Hh as [f|f f1 e user st l f2 U1 C1 End Eh Hc Hnow Run Hh IH]; intros t d S W Ht HT r Hr Hu Hq; [destruct Hr|].
  subst nd. assert (S1 := stored_same _ _ _ f f1 t d C1 S).
  destruct (run_stored e home m user f1 t d Eh HN U1 S1 W) as (st' & Run' & U' & D). rewrite Run in Run'. injection Run' as <-.
  assert (NR : ve_recent e (Z_to_string t) (ve_now e) = false -> (ve_now e - T >= 86400)%Z).
  { intros R. rewrite (Hc t (ve_now e) Ht Hnow) in R. apply Z.ltb_ge in R. lia. }
  destruct D as [(S2 & NA & D)|(Eu & _ & _ & R & d' & Hd & S2 & _)].
  - destruct Hr as [<-|Hr].
    + cbn [r_user r_events r_env] in *. destruct D as [->|[D|(_ & _ & R)]]; [discriminate| |auto].
      rewrite D in Hq. destruct Hq as [Hq|Hq]; [discriminate Hq|destruct Hq].
    + exact (IH t d S2 W Ht HT r Hr Hu Hq).
  - destruct Hr as [<-|Hr].
    + exact (NR R).
    + apply (IH (ve_now e) d' S2) with (r := r); auto. destruct Hd as [->|[_ ->]]; [reflexivity|apply verdict_word].
Qed.

Lemma history_split l1 : forall f l2 f2, history m nd home f (l1 ++ l2) f2 -> exists f1, history m nd home f l1 f1 /\ history m nd home f1 l2 f2.
Proof.
  induction l1 as [|r l1 IH]; intros f l2 f2 H; [exists f; split; [constructor|exact H]|].
  cbn in H. inversion H; subst. match goal with Hh : history m _ home _ (l1 ++ l2) _ |- _ => destruct (IH _ _ _ Hh) as (g & G1 & G2) end. exists g. split; [|exact G2]. econstructor; eauto.
Qed.

(** without the answer "always", every request follows a question *)
Lemma all_ask f l f2 : history m nd home f l f2 ->
  f (cookie nd home name) = None \/ (exists t d, stored nd home name f t d /\ word d /\ d <> "ALWAYS") ->
  (forall r, In r l -> snd (verdict (ve_answer (r_env r))) <> "ALWAYS") ->
  forall r, In r l -> r_user r = None -> requests (r_events r) -> asks (r_events r).
Proof.
  intros Hh. induction Hh as [f|f f1 e user st l f2 U1 C1 End Eh Hc Hnow Run Hh IH]; intros I NA r Hr Hu Hq; [destruct Hr|].
  subst nd.
  assert (X : (vs_fs st (cookie (ve_ndebug e) home name) = None \/ (exists t d, stored (ve_ndebug e) home name (vs_fs st) t d /\ word d /\ d <> "ALWAYS"))
              /\ (user = None -> requests (vs_log st) -> asks (vs_log st))).
  { pose proof (NA _ (or_introl eq_refl)) as NA0. cbn [r_env] in NA0.
    destruct I as [I|(t & d & S & W & ND)].
    - destruct (run_any e home m user f1 Eh HN U1) as (st' & Run' & U' & _ & D). rewrite Run in Run'. injection Run' as <-.
      assert (I1 : f1 (cookie (ve_ndebug e) home (m_app_name m)) = None) by now rewrite C1.
      destruct (D I1) as [[D1 D2]|(d' & Hd & S & Q)].
      + split; [now left|]. intros E Hq'. rewrite (D2 E) in Hq'. discriminate.
      + split; [|auto]. right. exists (ve_now e), d'. split; [exact S|]. destruct Hd as [->|[_ ->]]; [split; [reflexivity|discriminate]|]. split; [apply verdict_word|exact NA0].
    - destruct (run_stored e home m user f1 t d Eh HN U1 (stored_same _ _ _ f f1 t d C1 S) W) as (st' & Run' & U' & D). rewrite Run in Run'. injection Run' as <-.
      destruct D as [(S2 & _ & D)|(_ & _ & _ & _ & d' & Hd & S2 & Q)].
      + split; [right; exists t, d; auto|]. intros E Hq'. destruct D as [D|[D|(_ & D & _)]]; [congruence| |contradiction]. rewrite D in Hq'. discriminate.
      + split; [|auto]. right. exists (ve_now e), d'. split; [exact S2|]. destruct Hd as [->|[_ ->]]; [split; [reflexivity|discriminate]|]. split; [apply verdict_word|exact NA0]. }
  destruct X as [X1 X2]. destruct Hr as [<-|Hr].
  - exact (X2 Hu Hq).
  - apply IH; auto. intros r' Hr'. apply NA. now right.
Qed.

(** a stored NEVER *)
Lemma never_again f l f2 : history m nd home f l f2 -> forall t, stored nd home name f t "NEVER" ->
  (forall r, In r l -> r_user r <> Some true -> r_events r = []) /\ stored nd home name f2 t "NEVER".
Proof.
  intros Hh. induction Hh as [f|f f1 e user st l f2 U1 C1 End Eh Hc Hnow Run Hh IH]; intros t S; [split; [intros r []|exact S]|].
  subst nd. destruct (run_stored e home m user f1 t "NEVER" Eh HN U1 (stored_same _ _ _ f f1 t _ C1 S) eq_refl) as (st' & Run' & U' & D).
  rewrite Run in Run'. injection Run' as <-.
  destruct D as [(S2 & _ & D)|(_ & D & _)]; [|now contradiction D].
  destruct (IH t S2) as [IH1 IH2]. split; [|exact IH2]. intros r [<-|Hr] Hu; [|auto]. cbn [r_user r_events] in *.
  destruct D as [->|[D|(_ & D & _)]]; [contradiction|exact D|discriminate].
Qed.

End histories.

Lemma day_after_question m nd home f l1 r1 l2 r2 l3 f2 (HN : cookie_name m) : history m nd home f (l1 ++ r1 :: l2 ++ r2 :: l3) f2 ->
  asks (r_events r1) -> r_user r2 = None -> requests (r_events r2) \/ asks (r_events r2) ->
  (ve_now (r_env r2) - ve_now (r_env r1) >= 86400)%Z.
Proof.
  intros H A Hu Hq. destruct (history_split m nd home _ _ _ _ H) as (g & _ & H1). inversion H1; subst.
  match goal with U : usable _ _ _ ?f1, Run : version_check ?e m true ?user _ = _, E : ve_home ?e = Some home |- _ =>
    destruct (run_any e home m user f1 E HN U) as (st' & Run' & _ & D & _); rewrite Run in Run'; injection Run' as <- end.
  cbn [r_events r_env] in *. destruct (D A) as [_ S].
  match goal with Hh : history m _ home (vs_fs st) _ _ |- _ => apply (quiet_day m _ home HN (ve_now e) _ _ _ Hh _ _ S (verdict_word _)) with (r := r2); auto end.
  apply in_app_iff. right. now left.
Qed.

Lemma never_after_answer m nd home f l1 r1 l2 f2 (HN : cookie_name m) : history m nd home f (l1 ++ r1 :: l2) f2 ->
  asks (r_events r1) -> snd (verdict (ve_answer (r_env r1))) = "NEVER" ->
  forall r, In r l2 -> r_user r <> Some true -> r_events r = [].
Proof.
  intros H A V. destruct (history_split m nd home _ _ _ _ H) as (g & _ & H1). inversion H1; subst.
  match goal with U : usable _ _ _ ?f1, Run : version_check ?e m true ?user _ = _, E : ve_home ?e = Some home |- _ =>
    destruct (run_any e home m user f1 E HN U) as (st' & Run' & _ & D & _); rewrite Run in Run'; injection Run' as <- end.
  cbn [r_events r_env] in *. destruct (D A) as [_ S]. rewrite V in S.
  match goal with Hh : history m _ home (vs_fs st) _ _ |- _ => apply (never_again m _ home HN _ _ _ Hh _ S) end.
Qed.


Lemma day_between m nd home f l1 r1 l2 r2 l3 f2 (HN : cookie_name m) : history m nd home f (l1 ++ r1 :: l2 ++ r2 :: l3) f2 ->
  f (cookie nd home (m_app_name m)) = None ->
  (forall r, In r (l1 ++ r1 :: l2 ++ r2 :: l3) -> snd (verdict (ve_answer (r_env r))) <> "ALWAYS") ->
  r_user r1 = None -> r_user r2 = None -> requests (r_events r1) -> requests (r_events r2) ->
  (ve_now (r_env r2) - ve_now (r_env r1) >= 86400)%Z.
Proof.
  intros H F NA U1 U2 Q1 Q2. apply (day_after_question m nd home f l1 r1 l2 r2 l3 f2 HN H); auto.
  apply (all_ask m nd home HN f _ f2 H); auto. apply in_app_iff. right. now left.
Qed.

(** ** Opting out *)

Lemma opt_out_lemma e m on user st : on = false \/ ve_opt_out e = true \/ user = Some false ->
  let st' := fst (version_check e m on user st) in vs_log st' = vs_log st /\ spares e (vs_fs st) (vs_fs st').
Proof.
  intros H. cbn zeta. unfold version_check, bind, version_checker, bind. destruct (get_path_spares e st) as [G1 G2].
  destruct (get_path e st) as [st1 r]. cbn [fst] in *. destruct r; try (cbn; auto). destruct (negb _ && negb _); [cbn; auto|]. cbn [ret].
  unfold decide. destruct on; [|cbn; auto]. cbn [negb]. destruct (ve_opt_out e); [cbn; auto|]. destruct H as [H|[H| ->]]; try discriminate. cbn; auto.
Qed.

(** ** Versions *)

Lemma span_digits_spec s : let '(d, r) := span_digits s in
  s = d +s+ r /\ sall is_digit d = true /\ match r with String c _ => is_digit c = false | EmptyString => True end.
Proof.
  induction s as [|c s IH]; cbn; [auto|]. destruct (is_digit c) eqn:D; [|cbn; auto]. destruct (span_digits s) as [d r]. destruct IH as (-> & H & T).
  cbn. rewrite D, H. auto.
Qed.

Lemma span_digits_app d r : sall is_digit d = true -> match r with String c _ => is_digit c = false | EmptyString => True end -> span_digits (d +s+ r) = (d, r).
Proof.
  induction d as [|c d IH]; intros H T.
  - cbn. destruct r as [|c r]; [reflexivity|]. cbn. now rewrite T.
  - cbn in H. apply andb_prop in H as [H1 H2]. cbn. rewrite H1, (IH H2 T). reflexivity.
Qed.

Lemma match_version_iff s p r : match_version s = Some (p, r) <->
  exists a b c, digits a /\ digits b /\ digits c /\ p = a +s+ "." +s+ b +s+ "." +s+ c /\ s = p +s+ r
    /\ match r with String x _ => is_digit x = false | EmptyString => True end.
Proof.
  split.
  - unfold match_version. pose proof (span_digits_spec s) as X. destruct (span_digits s) as [a r1]. destruct X as (-> & Ha & _).
    destruct a as [|a0 a]; [discriminate|]. cbn [is_empty]. destruct r1 as [|x r1]; [discriminate|]. destruct (Ascii.eqb_spec x ".") as [->|]; [|discriminate]. cbn [negb].
    pose proof (span_digits_spec r1) as X. destruct (span_digits r1) as [b r2]. destruct X as (-> & Hb & _).
    destruct b as [|b0 b]; [discriminate|]. cbn [is_empty]. destruct r2 as [|x r2]; [discriminate|]. destruct (Ascii.eqb_spec x ".") as [->|]; [|discriminate]. cbn [negb].
    pose proof (span_digits_spec r2) as X. destruct (span_digits r2) as [c r3]. destruct X as (-> & Hc & T).
    destruct c as [|c0 c]; [discriminate|]. cbn [is_empty]. intros [= <- <-]. exists (String a0 a), (String b0 b), (String c0 c).
    repeat split; try assumption; try discriminate. cbn [append]. rewrite app_assoc_s. cbn [append]. now rewrite app_assoc_s.
  - intros (a & b & c & [Na Ha] & [Nb Hb] & [Nc Hc] & -> & -> & T). unfold match_version.
    assert (E : (a +s+ "." +s+ b +s+ "." +s+ c) +s+ r = a +s+ String "." (b +s+ String "." (c +s+ r))) by now rewrite !app_assoc_s.
    rewrite E. clear E. rewrite span_digits_app by (try exact Ha; reflexivity). destruct a; [contradiction|]. cbn [is_empty].
    change (Ascii.eqb "." ".") with true. cbn [negb].
    rewrite span_digits_app by (try exact Hb; reflexivity). destruct b; [contradiction|]. cbn [is_empty].
    rewrite span_digits_app by assumption. destruct c; [contradiction|]. reflexivity.
Qed.

Lemma read_digits_span d : forall r acc, sall is_digit d = true -> match r with String c _ => is_digit c = false | EmptyString => True end ->
  read_digits (d +s+ r) acc = (fst (read_digits d acc), r).
Proof.
  induction d as [|c d IH]; intros r acc H T.
  - cbn. destruct r as [|c r]; [reflexivity|]. cbn. now rewrite T.
  - cbn in H. apply andb_prop in H as [H1 H2]. cbn. rewrite H1. now apply IH.
Qed.

Lemma read_component_app d r : sall is_digit d = true -> match r with String c _ => is_digit c = false | EmptyString => True end ->
  (weight d < 2 ^ 31)%Z -> read_component (d +s+ r) = (weight d, r).
Proof.
  intros H T W. unfold read_component. rewrite read_digits_span by assumption. rewrite read_digits_all by exact H. cbn [fst].
  rewrite Z.mul_0_l, Z.add_0_l. change (int_max true 32) with (2 ^ 31 - 1)%Z. rewrite (proj2 (Z.leb_le _ _)) by lia. reflexivity.
Qed.

Lemma get_numbers_text s v : version_text s v -> fits_int v -> get_numbers s = v.
Proof.
  intros (a & b & c & Ha & Hb & Hc & -> & ->) (F1 & F2 & F3). unfold get_numbers.
  assert (X : match_version (a +s+ "." +s+ b +s+ "." +s+ c) = Some (a +s+ "." +s+ b +s+ "." +s+ c, "")).
  { apply match_version_iff. exists a, b, c. rewrite app_nil_r_s. auto 8. }
  rewrite X. rewrite read_component_app by (try apply Ha; try reflexivity; exact F1). cbn [append sdrop].
  rewrite read_component_app by (try apply Hb; try reflexivity; exact F2). cbn [append sdrop].
  rewrite <- (app_nil_r_s c) at 1. rewrite read_component_app by (try apply Hc; try reflexivity; exact F3). reflexivity.
Qed.

Lemma get_numbers_other s : (forall v, ~ version_text s v) -> get_numbers s = (0, 0, 0)%Z.
Proof.
  intros H. unfold get_numbers. destruct (match_version s) as [[p r]|] eqn:E; [|reflexivity]. destruct r; [|reflexivity].
  apply match_version_iff in E as (a & b & c & Ha & Hb & Hc & -> & -> & _). rewrite app_nil_r_s in H. exfalso. eapply H. exists a, b, c. eauto 8.
Qed.

Lemma version_of_app_numbers s v : app_version s v -> fits_int v -> get_numbers (version_of_app s) = v.
Proof.
  intros [(p & r & -> & (a & b & c & Ha & Hb & Hc & -> & ->) & T)|[-> N]] F; unfold version_of_app.
  - rewrite (proj2 (match_version_iff _ (a +s+ "." +s+ b +s+ "." +s+ c) r)) by (exists a, b, c; auto 8).
    apply get_numbers_text; [|exact F]. exists a, b, c. auto 8.
  - destruct (match_version s) as [[p r]|] eqn:E; [|reflexivity]. apply match_version_iff in E as (a & b & c & Ha & Hb & Hc & E & -> & T).
    exfalso. eapply N. exists p, r. split; [reflexivity|]. split; [|exact T]. exists a, b, c. eauto 8.
Qed.

Lemma version_ltb_iff v w : version_ltb v w = true <-> newer w v.
Proof. destruct v as [[a b] c], w as [[a' b'] c']. unfold version_ltb, newer. rewrite !orb_true_iff, !andb_true_iff, !orb_true_iff, !andb_true_iff, !Z.ltb_lt, !Z.eqb_eq. intuition lia. Qed.

Lemma version_eqb_iff v w : version_eqb v w = true <-> v = w.
Proof.
  destruct v as [[a b] c], w as [[a' b'] c']. unfold version_eqb. rewrite !andb_true_iff, !Z.eqb_eq. split; [intros [[-> ->] ->]; reflexivity|intros [= -> -> ->]; auto].
Qed.

Lemma cut_first c l : first_line c l -> fst (cut_line c) = l.
Proof. intros [N [->|[r ->]]]; [now rewrite cut_line_end|now rewrite cut_line_nl]. Qed.

Lemma version_text_dec s : (exists v, version_text s v) \/ forall v, ~ version_text s v.
Proof.
  destruct (match_version s) as [[p [|x r]]|] eqn:E.
  - left. apply match_version_iff in E as (a & b & c & Ha & Hb & Hc & -> & -> & _). rewrite app_nil_r_s. eexists. exists a, b, c. eauto 8.
  - right. intros v (a & b & c & Ha & Hb & Hc & -> & ->).
    assert (X : match_version (a +s+ "." +s+ b +s+ "." +s+ c) = Some (a +s+ "." +s+ b +s+ "." +s+ c, "")).
    { apply match_version_iff. exists a, b, c. rewrite app_nil_r_s. auto 8. } rewrite X in E. discriminate.
  - right. intros v (a & b & c & Ha & Hb & Hc & -> & ->).
    assert (X : match_version (a +s+ "." +s+ b +s+ "." +s+ c) = Some (a +s+ "." +s+ b +s+ "." +s+ c, "")).
    { apply match_version_iff. exists a, b, c. rewrite app_nil_r_s. auto 8. } rewrite X in E. discriminate.
Qed.

Lemma version_text_fun s v w : version_text s v -> version_text s w -> v = w.
Proof.
  intros (a & b & c & Ha & Hb & Hc & -> & ->) (a' & b' & c' & Ha' & Hb' & Hc' & E & ->).
  assert (X : forall a b c, digits a -> digits b -> digits c -> span_digits (a +s+ "." +s+ b +s+ "." +s+ c) = (a, "." +s+ b +s+ "." +s+ c)
              /\ span_digits (b +s+ "." +s+ c) = (b, "." +s+ c)).
  { clear. intros a b c [_ Ha] [_ Hb] [_ Hc]. split; apply span_digits_app; try assumption; reflexivity. }
  destruct (X a b c Ha Hb Hc) as [X1 X2]. destruct (X a' b' c' Ha' Hb' Hc') as [X3 X4]. rewrite E, X3 in X1. injection X1 as -> E'.
  pose proof (eq_trans (eq_sym X4) (eq_trans (f_equal span_digits E') X2)) as Y. injection Y as -> ->. reflexivity.
Qed.

Lemma numbers_newer l w0 v : (forall w, version_text l w -> fits_int w) -> get_numbers l = w0 ->
  (0 <= fst (fst v) /\ 0 <= snd (fst v) /\ 0 <= snd v)%Z ->
  (version_eqb w0 (0, 0, 0)%Z = false /\ version_ltb v w0 = true <-> exists w, version_text l w /\ newer w v).
Proof.
  intros F <- P. destruct (version_text_dec l) as [[w V]|N].
  - rewrite (get_numbers_text l w V (F w V)). rewrite version_ltb_iff. split; [intros [_ H]; eauto|].
    intros (w' & V' & H). rewrite <- (version_text_fun _ _ _ V V') in H. split; [|exact H].
    destruct (version_eqb w (0, 0, 0)%Z) eqn:E; [|reflexivity]. apply version_eqb_iff in E. subst w. destruct v as [[a b] c]. cbn in *. lia.
  - rewrite (get_numbers_other l N). split; [intros [H _]; discriminate|intros (w & V & _)]. now apply N in V.
Qed.

Lemma weight_pos s : digits s -> (0 <= weight s)%Z.
Proof. intros [_ H]. now apply weight_nonneg. Qed.

Lemma app_version_pos s v : app_version s v -> (0 <= fst (fst v) /\ 0 <= snd (fst v) /\ 0 <= snd v)%Z.
Proof.
  intros [(p & r & _ & (a & b & c & Ha & Hb & Hc & _ & ->) & _)|[-> _]]; cbn; [|lia].
  pose proof (weight_pos a Ha). pose proof (weight_pos b Hb). pose proof (weight_pos c Hc). lia.
Qed.
