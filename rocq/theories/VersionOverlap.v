(** Overlapping runs of the version check: what holds whatever the order of their steps. *)
From Coq Require Import Decimal DecimalPos DecimalString.
From Verif Require Import Base StrLib Fs Values ValuesSpec FormatParse Parser VersionCheck VersionSpec ValuesProofs VersionProofs VersionRuns VersionSteps OverlapSpec VersionStepsProofs.

(** ** The probe of the directories, for any invariant *)

Section path.
Variables (e : venv) (Inv : fs -> Prop) (G : fs -> fs -> Prop) (Ok : event -> Prop).
Let K (f g : fs) : Prop := Inv g /\ G f g.
Hypothesis same : forall f, Inv f -> K f f.
Hypothesis create1 : forall home f, ve_home e = Some home -> Inv f -> K f (fst (create_directory f (path_join home ".config"))).
Hypothesis create2 : forall home f, ve_home e = Some home -> Inv f -> K f (fst (create_directory f (path_join (path_join home ".config") "seqan"))).
Hypothesis probe : forall home p f, ve_home e = Some home -> p = path_join (path_join home ".config") "seqan" \/ p = ve_tmp e -> Inv f ->
  K f (fst (open_write f (path_join p "dummy.txt"))) /\ K f (fst (remove f (path_join p "dummy.txt"))) /\ K f (fst (guard_destroy f (path_join p "dummy.txt"))).

Lemma sat_path : sat Inv G Ok (at_most (fun _ => True)) (path_steps e).
Proof.
  unfold path_steps. destruct (ve_home e) as [home|] eqn:H; [|exact Logic.I].
  apply (sat_bind_most _ _ _ (fun _ => True)).
  { apply sat_access. intros f Hf. destruct (create1 home f eq_refl Hf). now repeat split. }
  intros err _. apply (sat_bind_most _ _ _ (fun _ => True)).
  { destruct err; [exact Logic.I|]. apply sat_access. intros f Hf. destruct (create2 home f eq_refl Hf). now repeat split. }
  clear err. intros err _.
  apply (sat_bind_most _ _ _ (fun p => p = path_join (path_join home ".config") "seqan" \/ p = ve_tmp e)).
  { destruct err; [|left; reflexivity]. apply (sat_bind_most _ _ _ (fun _ => True)).
    - apply sat_access. intros f Hf. destruct (same f Hf). now repeat split.
    - intros [|] _; [right; reflexivity|exact Logic.I]. }
  intros p Hp. apply (sat_bind_most _ _ _ (fun _ => True)).
  { apply sat_access. intros f Hf. destruct (probe home p f eq_refl Hp Hf) as ((P1 & P2) & _). now repeat split. }
  intros good _. apply (sat_bind_most _ _ _ (fun _ => True)).
  { apply sat_access. intros f Hf. destruct (is_directory f _); [destruct (same f Hf); now repeat split|].
    destruct (probe home p f eq_refl Hp Hf) as (_ & (P1 & P2) & _). now repeat split. }
  intros u _. apply (sat_bind_most _ _ _ (fun _ => True)).
  { apply sat_access. intros f Hf. destruct (probe home p f eq_refl Hp Hf) as (_ & _ & (P1 & P2)). now repeat split. }
  intros removed _. destruct (negb removed && _); exact Logic.I.
Qed.

Lemma sat_checker n v u : sat Inv G Ok (at_most (fun k => ck_name k = n /\ ck_url k = u /\ exists p, ck_path k = p /\ ck_timestamp k = path_join p (cookie_file (ve_ndebug e) n)))
  (checker_steps e n v u).
Proof.
  unfold checker_steps. apply (sat_bind_most _ _ _ (fun _ => True)); [apply sat_path|]. intros p _. destruct (negb _ && _); [exact Logic.I|]. cbn. eauto.
Qed.
End path.

(** anything that only reads *)
Lemma returns_most {A} (Q : A -> Prop) r : returns Q r -> at_most Q r.
Proof. destruct r; cbn; tauto. Qed.

Section reading.
Variables (e : venv) (Inv : fs -> Prop) (G : fs -> fs -> Prop) (Ok : event -> Prop).
Hypothesis G_refl : forall f, G f f.
Lemma sat_read p (Q : option string -> Prop) : Q None -> (forall f, Inv f -> Q (Some (content_of f p))) -> sat Inv G Ok (returns Q) (read_steps p).
Proof.
  intros Q0 Q1. unfold read_steps. apply (sat_bind _ _ _ (fun _ => True)).
  - apply sat_access. intros f Hf. now repeat split.
  - intros [|] _; [|exact Q0]. apply (sat_bind _ _ _ (fun s => Q (Some s))); [|intros s Hs; exact Hs].
    apply sat_access. intros f Hf. split; [exact Hf|]. split; [apply G_refl|exact (Q1 f Hf)].
Qed.
Lemma sat_check k : (forall x, Ok x) -> sat Inv G Ok (returns (fun _ => True)) (check_steps e k).
Proof.
  intros HO. unfold check_steps. apply (sat_bind _ _ _ (fun _ => True)).
  - unfold message_steps. apply (sat_bind _ _ _ (fun _ => True)); [now apply sat_read|]. intros c _. apply (sat_bind _ _ _ (fun _ => True)).
    + destruct c as [c|]; [|exact Logic.I]. destruct (getline (Some c) "") as [s line]. destruct (getline s line) as [s2 line2].
      apply (sat_bind _ _ _ (fun _ => True)); [|now intros]. destruct (String.eqb line _); [|exact Logic.I].
      apply (sat_bind _ _ _ (fun _ => True)); [|now intros]. destruct (ve_ndebug e); [exact Logic.I|now split].
    + intros [a s] _. apply (sat_bind _ _ _ (fun _ => True)); [destruct (negb (ve_ndebug e) && _ && _); [now split|exact Logic.I]|].
      intros _ _. destruct (version_eqb a _); [exact Logic.I|]. destruct (ve_ndebug e); destruct (version_ltb _ _); try exact Logic.I; now split.
  - intros _ _. apply (sat_bind _ _ _ (fun _ => True)).
    + unfold program_steps. cbv zeta. apply (sat_bind _ _ _ (fun _ => True)); [now split|]. intros _ _. destruct (ve_system e _); [exact Logic.I|].
      apply (sat_bind _ _ _ (fun _ => True)); [now split|]. intros _ _. destruct (ve_system e _); exact Logic.I.
    + intros p _. destruct (is_empty p); [exact Logic.I|now split].
Qed.
End reading.

(** ** A run without interest in the check *)

Lemma sat_out l : opted_out l -> sat (fun _ => True) (spares (l_env l)) (fun _ => False) (fun _ => True) (p_prog (start l)).
Proof.
  intros O. apply (sat_weaken _ _ _ (at_most (fun _ => True))); [trivial|]. cbn [start p_prog]. unfold version_steps.
  apply (sat_bind_most _ _ _ (fun _ => True)).
  - apply (sat_weaken _ _ _ (at_most (fun k => ck_name k = m_app_name (l_meta l) /\ ck_url k = m_url (l_meta l) /\ exists p, ck_path k = p /\ ck_timestamp k = path_join p (cookie_file (ve_ndebug (l_env l)) (m_app_name (l_meta l)))))).
    { intros []; exact (fun _ => Logic.I). }
    apply sat_checker.
    + intros f _. split; [trivial|apply spares_refl].
    + intros home f H _. split; [trivial|]. intros k K _. apply create_only. rewrite comps_config. now apply (K home H).
    + intros home f H _. split; [trivial|]. intros k K _. apply create_only. rewrite comps_cookie_dir. now apply (K home H).
    + intros home p f H Hp _. destruct (probe_spares (l_env l) home p f H Hp) as (P1 & P2 & P3). now repeat split.
  - intros k _. apply (sat_bind_most _ _ _ (fun b => b = false)); [|intros b ->; exact Logic.I].
    unfold decide_steps. destruct (l_on l) eqn:E1; cbn [negb]; [|reflexivity]. destruct (ve_opt_out (l_env l)) eqn:E2; [reflexivity|].
    destruct O as [O|[O|O]]; [congruence|congruence|]. rewrite O. reflexivity.
Qed.

Lemma sat_free {A} (p : prog A) : sat (fun _ => True) (fun _ _ => True) (fun _ => True) (fun _ => True) p.
Proof. induction p; cbn; auto. Qed.

Lemma map_nth ls i p : nth_error (map start ls) i = Some p -> exists l, nth_error ls i = Some l /\ p = start l.
Proof. rewrite nth_error_map. destruct (nth_error ls i) as [l|]; [|discriminate]. cbn. intros [= <-]. eauto. Qed.

Lemma opt_out_lemma s f ps i l : nth_error ps i = Some (start l) -> opted_out l ->
  let '(f', ps') := exec s f ps in exists p, nth_error ps' i = Some p /\ p_log p = [] /\ spares (l_env l) f' (fst (proc_step f' p)).
Proof.
  intros Hi O.
  pose (G := fun j (a b : fs) => if Nat.eqb j i then spares (l_env l) a b else True).
  pose (Ok := fun j (_ : event) => if Nat.eqb j i then False else True).
  assert (GR : forall j a, G j a a) by (intros j a; unfold G; destruct (Nat.eqb j i); [apply spares_refl|trivial]).
  pose proof (exec_sound (fun _ => True) G Ok (fun _ _ => True) GR s f ps (fun _ _ _ _ => Logic.I) Logic.I) as X.
  assert (X0 : forall j p, nth_error ps j = Some p -> j = i -> p = start l) by (intros j p Hp ->; congruence).
  pose proof (exec_length s f ps) as L.
  assert (Y : exists q, nth_error (snd (exec s f ps)) i = Some q).
  { destruct (nth_error (snd (exec s f ps)) i) as [q|] eqn:E; [eauto|]. apply nth_error_None in E. apply nth_lt in Hi. lia. }
  destruct (exec s f ps) as [f' ps']. destruct X as [_ X].
  - intros j p Hp. unfold fine. destruct (Nat.eqb_spec j i) as [->|N].
    + rewrite Hi in Hp. injection Hp as <-. split; [constructor|]. unfold G, Ok. rewrite Nat.eqb_refl. now apply sat_out.
    + unfold G, Ok. destruct (Nat.eqb_spec j i) as [|_]; [contradiction|]. split; [apply Forall_forall; trivial|apply sat_free].
  - cbn [snd] in Y. destruct Y as [q Hq]. exists q. split; [exact Hq|]. pose proof (X i q Hq) as F. split.
    + destruct F as [F _]. unfold Ok in F. destruct (p_log q) as [|x r]; [reflexivity|]. inversion F as [|? ? F1]; subst. rewrite Nat.eqb_refl in F1. contradiction.
    + pose proof (fine_step (fun _ => True) G Ok (fun _ _ => True) GR f' i q Logic.I F) as S. destruct (proc_step f' q) as [f2 q2]. destruct S as (_ & S & _).
      unfold G in S. now rewrite Nat.eqb_refl in S.
Qed.

(** ** Files with one of the names of cookies *)

Lemma cookie_file_inj nd name nd' name' : cookie_file nd name = cookie_file nd' name' -> nd = nd' /\ name = name'.
Proof.
  unfold cookie_file. intros H.
  assert (L : String.length name = String.length name').
  { apply (f_equal String.length) in H. rewrite !length_app_s in H. destruct nd, nd'; cbn in H; lia. }
  assert (E : name = name').
  { apply (f_equal (stake (String.length name))) in H. rewrite stake_app in H. now rewrite L, stake_app in H. }
  subst name'. apply app_inv_head_s in H. split; [|reflexivity]. destruct nd, nd'; try reflexivity; discriminate.
Qed.

Lemma last_inv {A} (a b : list A) x y : a ++ [x] = b ++ [y] -> x = y.
Proof. intros H. now apply app_inj_tail in H. Qed.

Section contents.
Variables (file : string) (P : string -> Prop).
Hypothesis P_empty : P "".
Let Inv (f : fs) : Prop := contents file f P.

Lemma inv_open f p : Inv f -> Inv (fst (open_write f p)).
Proof.
  intros H d c m. unfold open_write. destruct (is_empty p); [apply H|]. destruct (f (comps p)) as [[s m'|m'|m']|] eqn:E; try apply H.
  - destruct (f_writable m'); [|apply H]. cbn [fst]. unfold upd. destruct (list_eqb _ _); [|apply H]. now intros [= <- _].
  - destruct (parent_writable f (comps p)); [|apply H]. cbn [fst]. unfold upd. destruct (list_eqb _ _); [|apply H]. now intros [= <- _].
Qed.
Lemma inv_create f p : Inv f -> Inv (fst (create_directory f p)).
Proof.
  intros H d c m. unfold create_directory. destruct (is_empty p); [apply H|]. destruct (f (comps p)) as [[]|]; try apply H.
  destruct (parent_writable f (comps p)); [|apply H]. cbn [fst]. unfold upd. destruct (list_eqb _ _); [discriminate|apply H].
Qed.
Lemma inv_remove f p : Inv f -> Inv (fst (remove f p)).
Proof.
  intros H d c m. unfold remove. destruct (lookup f p); [|apply H]. destruct (parent_writable f (comps p)); [|apply H].
  cbn [fst]. unfold upd. destruct (list_eqb _ _); [discriminate|apply H].
Qed.
Lemma inv_guard f p : Inv f -> Inv (fst (guard_destroy f p)).
Proof.
  intros H d c m. unfold guard_destroy, remove_all. destruct (lookup f p); [|apply H]. destruct (parent_writable f (comps p)); [|apply H].
  cbn [fst]. destruct (list_prefixb _ _); [discriminate|apply H].
Qed.
Lemma inv_write f p s : (forall d, comps p = d ++ [file] -> forall old, P old -> P (overwrite s old)) -> Inv f -> Inv (write_at f p s).
Proof.
  intros W H d c m. unfold write_at. destruct (f (comps p)) as [[old m'|m'|m']|] eqn:E; try apply H.
  unfold upd. destruct (list_eqb (comps p) (d ++ [file])) eqn:E2; [|apply H]. apply list_eqb_iff in E2. intros [= <- _].
  apply (W d E2). rewrite E2 in E. exact (H d old m' E).
Qed.
Lemma inv_read f p d : comps p = d ++ [file] -> Inv f -> P (content_of f p).
Proof.
  intros E H. unfold content_of, lookup. destruct (is_empty p); [exact P_empty|]. rewrite E. destruct (f (d ++ [file])) as [[s m|m|m]|] eqn:X; try exact P_empty.
  exact (H d s m X).
Qed.

(** the texts a run may write into its cookie *)
Definition may_write (l : launch) (d : string) : Prop := d = "ASK" \/ (d = "ALWAYS" /\ answered l "a") \/ (d = "NEVER" /\ answered l "n").

Variables (l : launch) (Ok : event -> Prop) (Yes : Prop).
Let e := l_env l.
Let name := m_app_name (l_meta l).
Hypothesis good_name : name_matches name = true.
(** every text this run may write over a file of that name *)
Hypothesis writes : cookie_file (ve_ndebug e) name = file -> forall d, may_write l d ->
  forall old, P old -> P (overwrite (Z_to_string (ve_now e) +s+ nl +s+ d) old).
Hypothesis ok_question : Ok (Message question).
Hypothesis ok_yes : Yes -> forall x, Ok x.
Hypothesis yes_user : l_user l = Some true -> Yes.
Hypothesis yes_now : answered l "y" -> Yes.
Hypothesis yes_always : answered l "a" -> Yes.
Hypothesis yes_file : forall c, (cookie_file (ve_ndebug e) name = file -> P c) -> (exists a b, c = a +s+ "ALWAYS" +s+ b) -> Yes.

Lemma sat_write p d : comps p = d ++ [cookie_file (ve_ndebug e) name] -> forall w, may_write l w ->
  sat Inv (fun _ _ => True) Ok (at_most (fun _ => True)) (write_steps p (Z_to_string (ve_now e) +s+ nl +s+ w)).
Proof.
  intros E w W. unfold write_steps. apply (sat_bind_most _ _ _ (fun _ => True)).
  - apply sat_access. intros f Hf. split; [now apply inv_open|now repeat split].
  - intros [|] _; [|exact Logic.I]. apply sat_access. intros f Hf. split; [|now repeat split]. cbn [fst]. apply inv_write; [|exact Hf].
    intros d' E' old HO. rewrite E in E'. apply last_inv in E'. now apply writes.
Qed.

Lemma sat_ask k d : comps (ck_timestamp k) = d ++ [cookie_file (ve_ndebug e) name] ->
  sat Inv (fun _ _ => True) Ok (at_most (fun b => b = true -> Yes)) (ask_steps e k).
Proof.
  intros E. unfold ask_steps, cookie_steps. apply (sat_bind_most _ _ _ (fun _ => True)); [apply (sat_write _ d E); now left|]. intros _ _.
  destruct (ve_tty e) eqn:T; [|cbn; discriminate]. apply (sat_bind_most _ _ _ (fun _ => True)); [now split|]. intros _ _. cbv zeta.
  assert (A : forall x, Ascii.eqb (match ve_answer e with String c _ => c | EmptyString => "s"%char end) x = true -> x <> "s"%char -> answered l (String x "")).
  { intros x Hx N. split; [exact T|]. fold e. destruct (ve_answer e) as [|c r]; [apply Ascii.eqb_eq in Hx; congruence|]. now rewrite prefix_one. }
  destruct (Ascii.eqb _ "y") eqn:Y; [cbn; intros _; apply yes_now, A; [exact Y|discriminate]|].
  destruct (Ascii.eqb _ "a") eqn:Z1.
  { apply (sat_bind_most _ _ _ (fun _ => True)); [|cbn; intros _ _ _; apply yes_always, A; [exact Z1|discriminate]].
    apply (sat_write _ d E). right. left. split; [reflexivity|]. apply A; [exact Z1|discriminate]. }
  destruct (Ascii.eqb _ "n") eqn:Z2; [|cbn; discriminate].
  apply (sat_bind_most _ _ _ (fun _ => True)); [|cbn; discriminate].
  apply (sat_write _ d E). right. right. split; [reflexivity|]. apply A; [exact Z2|discriminate].
Qed.

Lemma cut_line_spec s : let '(a, r) := cut_line s in scontains "010" a = false /\ s = a +s+ match r with Some r => nl +s+ r | None => "" end.
Proof.
  induction s as [|c s IH]; [now split|]. cbn [cut_line]. destruct (Ascii.eqb_spec c "010") as [->|N].
  - now split.
  - destruct (cut_line s) as [a r]. destruct IH as [H1 H2]. cbn [scontains append]. split; [|now rewrite H2 at 1].
    rewrite H1, orb_false_r. apply Ascii.eqb_neq. congruence.
Qed.

Lemma sat_decide k d : comps (ck_timestamp k) = d ++ [cookie_file (ve_ndebug e) name] ->
  sat Inv (fun _ _ => True) Ok (at_most (fun b => b = true -> Yes)) (decide_steps e k (l_on l) (l_user l)).
Proof.
  intros E. unfold decide_steps. destruct (negb (l_on l)); [cbn; discriminate|]. destruct (ve_opt_out e); [cbn; discriminate|].
  destruct (l_user l) as [b|] eqn:U; [cbn; intros ->; now apply yes_user|].
  apply (sat_bind_most _ _ _ (fun _ => True)); [apply sat_access; intros f Hf; now repeat split|]. intros there _.
  apply (sat_bind_most _ _ _ (fun c => match c with Some c => cookie_file (ve_ndebug e) name = file -> P c | None => True end)).
  { destruct there; [|exact Logic.I]. eapply sat_weaken; [apply returns_most|]. apply sat_read; [trivial|exact Logic.I|]. intros f Hf N. rewrite N in E. now apply (inv_read f _ d E). }
  intros [c|] Hc; [|now apply (sat_ask k d)]. cbn [getline]. pose proof (cut_line_spec c) as C1. destruct (cut_line c) as [line rest]. destruct C1 as [N1 C1].
  destruct (ve_recent e line (ve_now e)); [cbn; discriminate|].
  destruct rest as [r|]; cbn [getline].
  - pose proof (cut_line_spec r) as C2. destruct (cut_line r) as [line2 rest2]. destruct C2 as [N2 C2].
    destruct (String.eqb line2 "NEVER"); [cbn; discriminate|]. destruct (String.eqb_spec line2 "ALWAYS") as [->|]; [|now apply (sat_ask k d)].
    cbn. intros _. apply (yes_file c Hc). rewrite C1, C2. exists (line +s+ nl), (match rest2 with Some r2 => nl +s+ r2 | None => "" end). now rewrite app_assoc_s.
  - destruct (String.eqb line "NEVER"); [cbn; discriminate|]. destruct (String.eqb_spec line "ALWAYS") as [->|]; [|now apply (sat_ask k d)].
    cbn. intros _. apply (yes_file c Hc). rewrite C1. now exists "", "".
Qed.

Lemma comps_cookie p : comps (path_join p (cookie_file (ve_ndebug e) name)) = comps p ++ [cookie_file (ve_ndebug e) name].
Proof. rewrite comps_join. f_equal. apply (stamp_plain (ve_ndebug e) name good_name). Qed.

Lemma sat_run : sat Inv (fun _ _ => True) Ok (fun _ => True) (p_prog (start l)).
Proof.
  apply (sat_weaken _ _ _ (at_most (fun _ => True))); [trivial|]. cbn [start p_prog]. unfold version_steps.
  apply (sat_bind_most _ _ _ (fun k => exists d, comps (ck_timestamp k) = d ++ [cookie_file (ve_ndebug e) name])).
  - eapply sat_weaken; [|apply sat_checker].
    + intros [k| | | | |]; trivial. cbn. intros (_ & _ & p & _ & ->). exists (comps p). apply comps_cookie.
    + intros f Hf. now split.
    + intros home f _ Hf. split; [now apply inv_create|trivial].
    + intros home f _ Hf. split; [now apply inv_create|trivial].
    + intros home p f _ _ Hf. repeat split; [now apply inv_open|now apply inv_remove|now apply inv_guard].
  - intros k [d E]. apply (sat_bind_most _ _ _ (fun b => b = true -> Yes)); [now apply (sat_decide k d)|].
    intros [|] Y; [|exact Logic.I]. eapply sat_weaken; [apply returns_most|]. apply sat_check; [trivial|]. now apply ok_yes, Y.
Qed.
End contents.

(** ** Nobody is contacted without consent *)

Lemma Z_string_no ch z : is_digit ch = false -> ch <> "-"%char -> scontains ch (Z_to_string z) = false.
Proof.
  intros D N.
  assert (X : forall s, sall is_digit s = true -> scontains ch s = false).
  { induction s as [|c s IH]; [reflexivity|]. cbn [sall scontains]. intros H. apply andb_prop in H as [H1 H2]. rewrite (IH H2), orb_false_r. apply Ascii.eqb_neq. congruence. }
  destruct (ValuesProofs.Z_to_string_numeral true z (or_introl eq_refl)) as [s [_ Ds]|s _ [_ Ds]]; [now apply X|].
  cbn [scontains]. rewrite (X s Ds), orb_false_r. now apply Ascii.eqb_neq.
Qed.
Lemma sdrop_no ch n : forall s, scontains ch s = false -> scontains ch (sdrop n s) = false.
Proof. induction n as [|n IH]; intros [|c s] H; try exact H. cbn in *. apply orb_false_elim in H as [_ H]. now apply IH. Qed.

Definition lacks (ch : chr) (c : string) : Prop := scontains ch c = false.

Lemma overwrite_lacks ch t d old : is_digit ch = false -> ch <> "-"%char -> ch <> "010"%char -> lacks ch d -> lacks ch old -> lacks ch (overwrite (Z_to_string t +s+ nl +s+ d) old).
Proof.
  unfold lacks, overwrite. intros D N1 N2 Hd Ho. rewrite !scontains_app, Z_string_no, Hd by assumption. cbn [orb]. rewrite sdrop_no by exact Ho.
  cbn. destruct (Ascii.eqb_spec ch "010"); [contradiction|reflexivity].
Qed.

Lemma alone_inv file s (P : string -> Prop) : left_alone file s -> forall g h, In (World g) s -> contents file h P -> contents file (g h) P.
Proof. intros W g h Hg H d c m. rewrite (W g h d Hg). apply H. Qed.

Lemma remembers_lacks ch T ds c : is_digit ch = false -> ch <> "-"%char -> ch <> "010"%char -> (forall d, In d ds -> lacks ch d) -> remembers T ds c -> lacks ch c.
Proof.
  intros D N1 N2 H [->|(t & d & _ & Hd & ->)]; [reflexivity|]. unfold lacks. rewrite !scontains_app, Z_string_no, (H d Hd) by assumption.
  cbn. destruct (Ascii.eqb_spec ch "010"); [contradiction|reflexivity].
Qed.

Lemma in_ext {A} (l : list A) i x : nth_error l i = Some x -> In x l.
Proof. apply nth_error_In. Qed.

Lemma consent_lemma nd name ls s f :
  (forall l, In l ls -> name_matches (m_app_name (l_meta l)) = true) -> left_alone (cookie_file nd name) s ->
  contents (cookie_file nd name) f (remembers (fun _ => True) ["ASK"; "NEVER"]) ->
  (forall l, In l ls -> run_of nd name l -> ~ answered l "a") ->
  forall i l p x, nth_error ls i = Some l -> run_of nd name l -> nth_error (snd (exec s f (map start ls))) i = Some p ->
  In x (p_log p) -> x <> Message question -> l_user l = Some true \/ answered l "y".
Proof.
  intros HN W C A i l p x Hi HR Hp Hx Nx.
  pose (Yes := fun l => run_of nd name l -> l_user l = Some true \/ answered l "y").
  pose (Ok := fun j (x : event) => forall l, nth_error ls j = Some l -> x <> Message question -> Yes l).
  pose proof (exec_sound (fun f => contents (cookie_file nd name) f (lacks "W")) (fun _ _ _ => True) Ok (fun _ _ => True) (fun _ _ => Logic.I) s f (map start ls)
               (alone_inv _ _ _ W)) as X.
  destruct (exec s f (map start ls)) as [f' ps'] eqn:E. destruct X as [_ X].
  - intros d c m Hc. eapply remembers_lacks; [| | | |exact (C d c m Hc)]; try reflexivity; try discriminate. intros w [<-|[<-|[]]]; reflexivity.
  - intros j q Hq. apply map_nth in Hq as (l' & Hl' & ->). split; [constructor|].
    apply (sat_run (cookie_file nd name) (lacks "W") eq_refl l' (Ok j) (Yes l')).
    + apply HN. now apply in_ext in Hl'.
    + intros EF d Hd old Ho. apply cookie_file_inj in EF as EF'. destruct Hd as [->|[[-> Hd]|[-> Hd]]]; try (apply overwrite_lacks; try reflexivity; try discriminate; exact Ho).
      exfalso. apply (A l'); [now apply in_ext in Hl'|exact EF'|exact Hd].
    + intros l0 _ N. now contradict N.
    + intros Y y l0 H0 _. rewrite Hl' in H0. now injection H0 as <-.
    + intros U _. now left.
    + intros U _. now right.
    + intros U R. exfalso. now apply (A l'); [apply in_ext in Hl'|exact R|].
    + intros c Hc (a & b & ->) [R1 R2]. subst nd name. specialize (Hc eq_refl). unfold lacks in Hc. rewrite !scontains_app in Hc. cbn in Hc.
      rewrite !orb_true_r in Hc. discriminate.
  - cbn [snd] in Hp. destruct (X i p Hp) as [F _]. rewrite Forall_forall in F. exact (F x Hx l Hi Nx HR).
Qed.

(** ** What a cookie can say *)

Lemma decisions_free ch w letter nd name ls s f (T : Z -> Prop) ds : is_digit ch = false -> ch <> "-"%char -> ch <> "010"%char ->
  (forall l d, may_write l d -> d = w /\ answered l letter \/ lacks ch d) ->
  (forall l, In l ls -> name_matches (m_app_name (l_meta l)) = true) -> left_alone (cookie_file nd name) s ->
  contents (cookie_file nd name) f (remembers T ds) -> (forall d, In d ds -> lacks ch d) ->
  (forall l, In l ls -> run_of nd name l -> ~ answered l letter) ->
  contents (cookie_file nd name) (fst (exec s f (map start ls))) (lacks ch).
Proof.
  intros D1 D2 D3 M HN W C CD A.
  pose proof (exec_sound (fun f => contents (cookie_file nd name) f (lacks ch)) (fun _ _ _ => True) (fun _ _ => True) (fun _ _ => True) (fun _ _ => Logic.I) s f (map start ls)
               (alone_inv _ _ _ W)) as X.
  destruct (exec s f (map start ls)) as [f' ps'] eqn:E. destruct X as [X _].
  - intros d c m Hc. eapply remembers_lacks; [| | | |exact (C d c m Hc)]; assumption.
  - intros j q Hq. apply map_nth in Hq as (l' & Hl' & ->). split; [constructor|].
    apply (sat_run (cookie_file nd name) (lacks ch) eq_refl l' (fun _ => True) True); trivial.
    + apply HN. now apply in_ext in Hl'.
    + intros EF d Hd old Ho. apply cookie_file_inj in EF as EF'. destruct (M l' d Hd) as [[_ Ha]|Hd']; [|now apply overwrite_lacks].
      exfalso. apply (A l'); [now apply in_ext in Hl'|exact EF'|exact Ha].
  - exact X.
Qed.

Lemma answered_dec l w : {answered l w} + {~ answered l w}.
Proof. unfold answered. destruct (ve_tty (l_env l)); [|right; intros [[=] _]]. destruct (String.prefix w _); [left; now split|right; intros [_ [=]]]. Qed.
Lemma run_of_dec nd name l : {run_of nd name l} + {~ run_of nd name l}.
Proof.
  unfold run_of. destruct (Bool.bool_dec (ve_ndebug (l_env l)) nd); [|right; intros [H _]; contradiction].
  destruct (string_dec (m_app_name (l_meta l)) name); [left; now split|right; intros [_ H]; contradiction].
Qed.
Lemma somebody nd name w ls : (exists l, In l ls /\ run_of nd name l /\ answered l w) \/ (forall l, In l ls -> run_of nd name l -> ~ answered l w).
Proof.
  induction ls as [|l ls IH]; [right; intros l []|]. destruct IH as [(l' & H1 & H2)|IH]; [left; exists l'; split; [now right|exact H2]|].
  destruct (run_of_dec nd name l) as [R|R].
  - destruct (answered_dec l w) as [H|H]; [left; exists l; split; [now left|now split]|]. right. intros l' [<-|Hl]; [auto|]. now apply IH.
  - right. intros l' [<-|Hl]; [contradiction|]. now apply IH.
Qed.

Lemma line_lacks ch c l : second_line c l -> scontains ch l = true -> ~ lacks ch c.
Proof.
  intros (a & r & _ & -> & _ & [->|(q & ->)]) H L; unfold lacks in L; rewrite !scontains_app in L; rewrite H in L; rewrite ?orb_true_r in L; discriminate.
Qed.

Lemma decisions_lemma nd name ls s f ds :
  (forall l, In l ls -> name_matches (m_app_name (l_meta l)) = true) -> left_alone (cookie_file nd name) s ->
  (forall d, In d ds -> In d ["ASK"; "ALWAYS"; "NEVER"]) -> contents (cookie_file nd name) f (remembers (fun _ => True) ds) ->
  contents (cookie_file nd name) (fst (exec s f (map start ls))) (fun c =>
    (second_line c "ALWAYS" -> In "ALWAYS" ds \/ exists l, In l ls /\ run_of nd name l /\ answered l "a") /\
    (second_line c "NEVER" -> In "NEVER" ds \/ exists l, In l ls /\ run_of nd name l /\ answered l "n")).
Proof.
  intros HN W HD C d c m Hc. split; intros HS.
  - destruct (in_dec string_dec "ALWAYS" ds) as [I1|I1]; [now left|]. destruct (somebody nd name "a" ls) as [H|H]; [now right|]. exfalso.
    apply (line_lacks "W" c _ HS eq_refl). clear HS. revert d c m Hc.
    apply (decisions_free "W" "ALWAYS" "a" nd name ls s f (fun _ => True) ds); try reflexivity; try discriminate; try assumption.
    + intros l w [->|[[-> Ha]|[-> Ha]]]; [now right|now left|now right].
    + intros w Hw. destruct (HD w Hw) as [<-|[<-|[<-|[]]]]; [reflexivity|contradiction|reflexivity].
  - destruct (in_dec string_dec "NEVER" ds) as [I1|I1]; [now left|]. destruct (somebody nd name "n" ls) as [H|H]; [now right|]. exfalso.
    apply (line_lacks "V" c _ HS eq_refl). clear HS. revert d c m Hc.
    apply (decisions_free "V" "NEVER" "n" nd name ls s f (fun _ => True) ds); try reflexivity; try discriminate; try assumption.
    + intros l w [->|[[-> Ha]|[-> Ha]]]; [now right|now right|now left].
    + intros w Hw. destruct (HD w Hw) as [<-|[<-|[<-|[]]]]; [reflexivity|reflexivity|contradiction].
Qed.

(** ** Times of ten digits *)

Lemma weight_below s : sall is_digit s = true -> (weight s < 10 ^ Z.of_nat (String.length s))%Z.
Proof.
  induction s as [|c s IH]; cbn [weight sall String.length]; [reflexivity|]. rewrite andb_true_iff. intros [Hc Hs]. specialize (IH Hs).
  assert (digit_val c <= 9)%Z.
  { unfold is_digit, in_range in Hc. apply andb_prop in Hc as [Hc1 Hc]. apply N.leb_le in Hc. unfold digit_val. change (code "9") with 57%N in Hc. lia. }
  rewrite Nat2Z.inj_succ, Z.pow_succ_r by lia. assert (0 < 10 ^ Z.of_nat (String.length s))%Z by (apply Z.pow_pos_nonneg; lia). nia.
Qed.

Lemma to_uint_head p u : Pos.to_uint p <> D0 u.
Proof.
  intros E. pose proof (DecimalPos.Unsigned.of_to p) as X. pose proof (DecimalPos.Unsigned.to_of (Pos.to_uint p)) as Y.
  rewrite X in Y. cbn [N.to_uint] in Y. rewrite E in Y.
  assert (L : forall v, nb_digits (nzhead v) <= nb_digits v) by (induction v; cbn; lia).
  unfold unorm in Y. cbn [nzhead] in Y. destruct (nzhead u) eqn:Z0.
  2-11: try discriminate Y; specialize (L u); rewrite Z0 in L; injection Y as Y; subst; cbn in L; lia.
  injection Y as ->. rewrite E in X. discriminate X.
Qed.
Lemma head_weight u : u <> Nil -> (forall v, u <> D0 v) ->
  (10 ^ Z.of_nat (pred (String.length (NilEmpty.string_of_uint u))) <= weight (NilEmpty.string_of_uint u))%Z.
Proof.
  intros N0 N1. assert (W : forall v, (0 <= weight (NilEmpty.string_of_uint v))%Z) by (intros v; rewrite weight_uint; unfold Z.of_uint; lia).
  destruct u as [|u|u|u|u|u|u|u|u|u|u]; [congruence|now destruct (N1 u)|..]; cbn [NilEmpty.string_of_uint String.length pred weight];
    specialize (W u);
    match goal with |- context [digit_val ?c] => let d := eval vm_compute in (digit_val c) in change (digit_val c) with d end;
    assert (0 < 10 ^ Z.of_nat (String.length (NilEmpty.string_of_uint u)))%Z by (apply Z.pow_pos_nonneg; lia); nia.
Qed.

Lemma ten_digits t : our_days t -> String.length (Z_to_string t) = 10.
Proof.
  intros [H1 H2]. destruct t as [|p|p]; try lia. unfold Z_to_string. cbn [Z.to_int NilZero.string_of_int].
  pose proof (DecimalPos.Unsigned.of_to p) as E.
  assert (NN : Pos.to_uint p <> Nil) by (intros X; rewrite X in E; discriminate E).
  assert (NilZero.string_of_uint (Pos.to_uint p) = NilEmpty.string_of_uint (Pos.to_uint p)) as -> by now destruct (Pos.to_uint p).
  pose proof (head_weight _ NN (to_uint_head p)) as L. pose proof (weight_below _ (proj2 (digits_uint _ NN))) as U. rewrite weight_uint in L, U.
  assert (EZ : Z.of_uint (Pos.to_uint p) = Z.pos p) by (unfold Z.of_uint; now rewrite E).
  rewrite EZ in L, U. set (n := String.length _) in *.
  assert (10 <= n). { destruct (Nat.le_gt_cases 10 n); [assumption|]. assert (10 ^ Z.of_nat n <= 10 ^ 9)%Z by (apply Z.pow_le_mono_r; lia). lia. }
  assert (n <= 10). { destruct (Nat.le_gt_cases n 10); [assumption|]. assert (10 ^ 10 <= 10 ^ Z.of_nat (pred n))%Z by (apply Z.pow_le_mono_r; lia). lia. }
  lia.
Qed.

Definition every_word : list string := ["ASK"; "ALWAYS"; "NEVER"; "ASKER"; "ASKAYS"; "NEVERS"; "ASKERS"].

Lemma overwrite_same_length a b s s' : String.length a = String.length b -> overwrite (a +s+ s) (b +s+ s') = a +s+ overwrite s s'.
Proof.
  intros L. unfold overwrite. rewrite length_app_s, L, app_assoc_s. f_equal. f_equal.
  clear. induction b as [|c b IH]; [reflexivity|]. exact IH.
Qed.

Lemma overwrite_words d w : In d ["ASK"; "ALWAYS"; "NEVER"] -> In w every_word -> In (overwrite d w) every_word.
Proof.
  assert (X : forallb (fun d => forallb (fun w => existsb (String.eqb (overwrite d w)) every_word) every_word) ["ASK"; "ALWAYS"; "NEVER"] = true) by reflexivity.
  intros Hd Hw. rewrite forallb_forall in X. specialize (X d Hd). rewrite forallb_forall in X. specialize (X w Hw). apply existsb_exists in X as (x & Hx & E).
  apply String.eqb_eq in E. now rewrite E.
Qed.

Lemma times_lemma nd name ls s f (T : Z -> Prop) :
  (forall l, In l ls -> name_matches (m_app_name (l_meta l)) = true) -> left_alone (cookie_file nd name) s ->
  (forall t, T t -> our_days t) -> (forall l, In l ls -> run_of nd name l -> our_days (ve_now (l_env l))) ->
  contents (cookie_file nd name) f (remembers T ["ASK"; "ALWAYS"; "NEVER"]) ->
  contents (cookie_file nd name) (fst (exec s f (map start ls)))
    (remembers (fun t => T t \/ exists l, In l ls /\ run_of nd name l /\ ve_now (l_env l) = t) every_word).
Proof.
  intros HN W HT HL C. set (P := remembers _ every_word).
  pose proof (exec_sound (fun f => contents (cookie_file nd name) f P) (fun _ _ _ => True) (fun _ _ => True) (fun _ _ => True) (fun _ _ => Logic.I) s f (map start ls)
               (alone_inv _ _ _ W)) as X.
  destruct (exec s f (map start ls)) as [f' ps'] eqn:E. destruct X as [X _].
  - intros d c m Hc. destruct (C d c m Hc) as [->|(t & w & Ht & Hw & ->)]; [now left|]. right. exists t, w. split; [now left|]. split; [|reflexivity].
    destruct Hw as [<-|[<-|[<-|[]]]]; unfold every_word; cbn; tauto.
  - intros j q Hq. apply map_nth in Hq as (l & Hl & ->). apply in_ext in Hl. split; [constructor|].
    apply (sat_run (cookie_file nd name) P (or_introl eq_refl) l (fun _ => True) True); trivial.
    + now apply HN.
    + intros EF d Hd old Ho. apply cookie_file_inj in EF as EF'.
      assert (D : In d ["ASK"; "ALWAYS"; "NEVER"]) by (destruct Hd as [->|[[-> _]|[-> _]]]; cbn; tauto).
      right. exists (ve_now (l_env l)). destruct Ho as [->|(t & w & Ht & Hw & ->)].
      * exists d. split; [right; exists l; now repeat split|]. split; [destruct D as [<-|[<-|[<-|[]]]]; unfold every_word; cbn; tauto|]. apply overwrite_empty.
      * exists (overwrite d w). split; [right; exists l; now repeat split|]. split; [now apply overwrite_words|].
        rewrite overwrite_same_length; [f_equal; now rewrite (overwrite_same_length nl nl) by reflexivity|].
        rewrite !ten_digits; [reflexivity| |now apply HL]. destruct Ht as [Ht|(l' & Hl1 & Hl2 & <-)]; [now apply HT|now apply HL].
  - exact X.
Qed.
