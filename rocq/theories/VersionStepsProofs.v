(** Overlapping runs of the version check: general facts. *)
From Verif Require Import Base StrLib Fs Values FormatParse Parser VersionCheck VersionSpec VersionProofs VersionRuns VersionSteps OverlapSpec.

(** ** An undisturbed run *)

Fixpoint alone {A} (p : prog A) (st : vstate) : vstate * res A :=
  match p with
  | Done r => (st, r)
  | Access act next => let '(f, b) := act (vs_fs st) in alone (next b) {| vs_fs := f; vs_log := vs_log st |}
  | Emit x next => alone next {| vs_fs := vs_fs st; vs_log := vs_log st ++ [x] |}
  end.

Lemma alone_bind {A B} (p : prog A) (g : A -> prog B) : forall st, alone (pbind p g) st = bind (alone p) (fun a => alone (g a)) st.
Proof.
  induction p as [r|C act next IH|x next IH]; intros st; cbn [pbind alone]; unfold bind; cbn [alone].
  - destruct r; reflexivity.
  - destruct (act (vs_fs st)) as [f b]. apply IH.
  - apply IH.
Qed.
Lemma bind_ext {St A B} (m m' : M St A) (g g' : A -> M St B) st : m st = m' st -> (forall a s, g a s = g' a s) -> bind m g st = bind m' g' st.
Proof. unfold bind. intros -> H. destruct (m' st) as [s [a| | | | |]]; auto. Qed.
Lemma alone_access {B : Set} (act : fs -> fs * B) st : alone (access act) st = on_fs act st.
Proof. unfold access, on_fs. cbn [alone]. destruct (act (vs_fs st)). reflexivity. Qed.

Lemma overwrite_empty s : overwrite s "" = s.
Proof. unfold overwrite. rewrite sdrop_all by (cbn; lia). apply app_nil_r_s. Qed.

Lemma alone_write p s st : alone (write_steps p s) st = bind (on_fs (write_file p s)) (fun _ => ret tt) st.
Proof.
  unfold write_steps. rewrite alone_bind. unfold bind. rewrite alone_access, !on_fs_eq. unfold write_file.
  destruct (open_write (vs_fs st) p) as [f' ok] eqn:E. cbn [fst snd]. destruct ok; [|reflexivity].
  rewrite alone_access, on_fs_eq. cbn [fst snd vs_fs vs_log ret]. unfold write_at.
  destruct (f' (comps p)) as [[old m|m|m]|] eqn:F; try reflexivity.
  assert (old = "") as ->; [|now rewrite overwrite_empty].
  unfold open_write in E. destruct (is_empty p); [discriminate|]. destruct (vs_fs st (comps p)) as [[c m'|m'|m']|] eqn:G.
  - destruct (f_writable m'); [|discriminate]. injection E as <-. rewrite upd_same in F. congruence.
  - discriminate.
  - injection E as <- _. congruence.
  - destruct (parent_writable _ _); [|discriminate]. injection E as <-. rewrite upd_same in F. congruence.
Qed.

Lemma alone_read p st : alone (read_steps p) st = (st, Ret (read_file (vs_fs st) p)).
Proof.
  destruct st as [f l]. unfold read_steps. rewrite alone_bind. unfold bind. rewrite alone_access, on_fs_eq. cbn [fst snd vs_fs vs_log]. unfold read_file, content_of.
  destruct (open_read f p); [|reflexivity]. rewrite alone_bind. unfold bind. rewrite alone_access, on_fs_eq. cbn [fst snd vs_fs vs_log alone pret].
  destruct (lookup f p) as [[]|]; reflexivity.
Qed.

Lemma alone_if {A} (b : bool) (p q : prog A) st : alone (if b then p else q) st = (if b then alone p else alone q) st.
Proof. now destruct b. Qed.

Section with_env.
Variable e : venv.

Lemma alone_path st : alone (path_steps e) st = get_path e st.
Proof.
  unfold path_steps, get_path. destruct (ve_home e) as [home|]; [|reflexivity].
  rewrite alone_bind. apply bind_ext; [apply alone_access|]. clear st. intros err st.
  rewrite alone_bind. apply bind_ext; [destruct err; [reflexivity|apply alone_access]|]. clear st err. intros err st.
  rewrite alone_bind. apply bind_ext.
  { destruct err; [|reflexivity]. rewrite alone_bind. unfold bind. rewrite alone_access, on_fs_eq. cbn [fst snd]. unfold temp_directory_path.
    destruct st as [f l]. cbn [vs_fs vs_log]. destruct (is_directory f (ve_tmp e)); reflexivity. }
  clear st err. intros tmp st.
  rewrite alone_bind. apply bind_ext; [apply alone_access|]. clear st. intros good st.
  rewrite alone_bind. apply bind_ext; [apply alone_access|]. clear st. intros u st.
  rewrite alone_bind. apply bind_ext; [apply alone_access|]. clear st. intros removed st.
  destruct (negb removed && negb (ve_ndebug e)); reflexivity.
Qed.

Lemma alone_checker n v u st : alone (checker_steps e n v u) st = version_checker e n v u st.
Proof.
  unfold checker_steps, version_checker. rewrite alone_bind. apply bind_ext; [apply alone_path|]. clear st. intros p st.
  destruct (negb _ && _); reflexivity.
Qed.

Lemma alone_cookie k msg st : alone (cookie_steps e k msg) st = write_cookie e k msg st.
Proof. apply alone_write. Qed.

Lemma alone_ask k st : alone (ask_steps e k) st = ask_or_default e k st.
Proof.
  unfold ask_steps, ask_or_default. rewrite alone_bind. apply bind_ext; [apply alone_cookie|]. clear st. intros _ st.
  destruct (ve_tty e); [|reflexivity]. unfold ask_user. rewrite alone_bind. apply bind_ext; [reflexivity|]. clear st. intros _ st.
  cbv zeta. destruct (Ascii.eqb _ "y"); [reflexivity|]. destruct (Ascii.eqb _ "a"); [|destruct (Ascii.eqb _ "n"); [|reflexivity]];
    (rewrite alone_bind; apply bind_ext; [apply alone_cookie|reflexivity]).
Qed.

Lemma alone_decide k on user st : alone (decide_steps e k on user) st = decide e k on user st.
Proof.
  unfold decide_steps, decide. destruct (negb on); [reflexivity|]. destruct (ve_opt_out e); [reflexivity|]. destruct user as [b|]; [reflexivity|].
  rewrite alone_bind. unfold bind. rewrite alone_access, on_fs_eq. cbn [fst snd]. destruct st as [f l]. cbn [vs_fs vs_log].
  rewrite alone_bind. unfold bind.
  replace (alone (if exists_ f (ck_path k) then read_steps (ck_timestamp k) else pret None) {| vs_fs := f; vs_log := l |})
    with ({| vs_fs := f; vs_log := l |}, Ret (if exists_ f (ck_path k) then read_file f (ck_timestamp k) else None) : res (option string)).
  2:{ destruct (exists_ f (ck_path k)); [now rewrite alone_read|reflexivity]. }
  destruct (if exists_ f (ck_path k) then _ else _) as [c|]; [|apply alone_ask].
  destruct (getline (Some c) "") as [s line]. destruct (ve_recent e line (ve_now e)); [reflexivity|]. destruct (getline s line) as [s2 line2].
  destruct (String.eqb line2 "NEVER"); [reflexivity|]. destruct (String.eqb line2 "ALWAYS"); [reflexivity|]. apply alone_ask.
Qed.

Lemma alone_messages k st : alone (message_steps e k) st = show_messages e k st.
Proof.
  unfold message_steps, show_messages. rewrite alone_bind. unfold bind at 1. rewrite alone_read.
  rewrite alone_bind. apply bind_ext.
  - destruct (read_file (vs_fs st) _) as [c|]; [|reflexivity]. destruct (getline (Some c) "") as [s line]. destruct (getline s line) as [s2 line2].
    rewrite alone_bind. apply bind_ext; [|reflexivity]. destruct (String.eqb line _); [|reflexivity]. rewrite alone_bind. apply bind_ext; [|reflexivity].
    destruct (ve_ndebug e); reflexivity.
  - clear st. intros [a s] st. rewrite alone_bind. apply bind_ext.
    + destruct (negb (ve_ndebug e) && _ && _); reflexivity.
    + intros _ st'. destruct (version_eqb a _); [reflexivity|]. destruct (ve_ndebug e); destruct (version_ltb _ _); reflexivity.
Qed.

Lemma alone_program st : alone (program_steps e) st = get_program e st.
Proof.
  unfold program_steps, get_program. cbv zeta. rewrite alone_bind. apply bind_ext; [reflexivity|]. clear st. intros _ st. destruct (ve_system e _); [reflexivity|].
  rewrite alone_bind. apply bind_ext; [reflexivity|]. clear st. intros _ st. destruct (ve_system e _); reflexivity.
Qed.

Lemma alone_check k st : alone (check_steps e k) st = check e k st.
Proof.
  unfold check_steps, check. rewrite alone_bind. apply bind_ext; [apply alone_messages|]. clear st. intros _ st.
  rewrite alone_bind. apply bind_ext; [apply alone_program|]. clear st. intros p st. destruct (is_empty p); reflexivity.
Qed.

Lemma alone_version m on user st : alone (version_steps e m on user) st = version_check e m on user st.
Proof.
  unfold version_steps, version_check. rewrite alone_bind. apply bind_ext; [apply alone_checker|]. clear st. intros k st.
  rewrite alone_bind. apply bind_ext; [apply alone_decide|]. clear st. intros yes st. destruct yes; [apply alone_check|reflexivity].
Qed.

End with_env.

(** ** Turns *)

Lemma replace_same {A} i (a : A) l : i < List.length l -> nth_error (replace i a l) i = Some a.
Proof. revert i; induction l as [|x l IH]; intros [|i] H; cbn in *; try lia; [reflexivity|]. apply IH. lia. Qed.
Lemma replace_other {A} i j (a : A) l : i <> j -> nth_error (replace i a l) j = nth_error l j.
Proof. revert i j; induction l as [|x l IH]; intros [|i] [|j] H; cbn; try reflexivity; try congruence. apply IH. congruence. Qed.
Lemma replace_length {A} i (a : A) l : List.length (replace i a l) = List.length l.
Proof. revert i; induction l as [|x l IH]; intros [|i]; cbn; auto. Qed.
Lemma replace_twice {A} i (a b : A) l : replace i a (replace i b l) = replace i a l.
Proof. revert i; induction l as [|x l IH]; intros [|i]; cbn; try reflexivity. now rewrite IH. Qed.
Lemma nth_lt {A} (l : list A) i a : nth_error l i = Some a -> i < List.length l.
Proof. intros H. apply nth_error_Some. congruence. Qed.
Lemma replace_id {A} i (a : A) l : nth_error l i = Some a -> replace i a l = l.
Proof. revert i; induction l as [|x l IH]; intros [|i] H; cbn in *; try discriminate; [congruence|]. now rewrite IH. Qed.

Lemma exec_app s1 : forall s2 f ps, exec (s1 ++ s2) f ps = let '(f', ps') := exec s1 f ps in exec s2 f' ps'.
Proof.
  induction s1 as [|t s1 IH]; intros s2 f ps; [reflexivity|]. cbn [app exec]. destruct t as [i|g]; [|apply IH].
  destruct (nth_error ps i) as [p|]; [|apply IH]. destruct (proc_step f p) as [f' p']. apply IH.
Qed.

(** the run by itself, wherever it is in the list *)
Lemma exec_alone : forall (p : prog unit) f log ps i, nth_error ps i = Some {| p_prog := p; p_log := log |} ->
  exists n, forall n', n <= n' -> exec (repeat (Run i) n') f ps =
    let '(st, r) := alone p {| vs_fs := f; vs_log := log |} in (vs_fs st, replace i {| p_prog := Done r; p_log := vs_log st |} ps).
Proof.
  induction p as [r|B act next IH|x next IH]; intros f log ps i Hi.
  - exists 0. intros n' _. cbn [alone vs_fs vs_log]. rewrite replace_id by exact Hi.
    induction n' as [|n' IHn]; [reflexivity|]. cbn [repeat exec]. rewrite Hi. unfold proc_step. cbn [p_prog]. rewrite replace_id by exact Hi. exact IHn.
  - destruct (act f) as [f' b] eqn:E.
    destruct (IH b f' log (replace i {| p_prog := next b; p_log := log |} ps) i (replace_same _ _ _ (nth_lt _ _ _ Hi))) as [n Hn].
    exists (S n). intros [|n'] L; [lia|]. cbn [repeat exec alone vs_fs vs_log]. rewrite Hi. unfold proc_step. cbn [p_prog p_log]. rewrite E.
    rewrite (Hn n') by lia. destruct (alone (next b) _) as [st r]. now rewrite replace_twice.
  - destruct (IH f (log ++ [x]) (replace i {| p_prog := next; p_log := log ++ [x] |} ps) i (replace_same _ _ _ (nth_lt _ _ _ Hi))) as [n Hn].
    exists (S n). intros [|n'] L; [lia|]. cbn [repeat exec alone vs_fs vs_log]. rewrite Hi. unfold proc_step. cbn [p_prog p_log].
    rewrite (Hn n') by lia. destruct (alone next _) as [st r]. now rewrite replace_twice.
Qed.

Lemma alone_lemma l f ps i : nth_error ps i = Some (start l) ->
  exists n, forall n', n <= n' -> exec (repeat (Run i) n') f ps =
    let '(st, r) := version_check (l_env l) (l_meta l) (l_on l) (l_user l) {| vs_fs := f; vs_log := [] |} in
    (vs_fs st, replace i {| p_prog := Done r; p_log := vs_log st |} ps).
Proof.
  intros H. destruct (exec_alone _ f [] ps i H) as [n Hn]. exists n. intros n' L. rewrite (Hn n' L). now rewrite alone_version.
Qed.

(** ** Every run ends after a bounded number of its own steps, whatever the others do *)

Fixpoint bounded {A} (n : nat) (p : prog A) : Prop :=
  match p, n with
  | Done _, _ => True
  | _, O => False
  | Access _ next, S n' => forall b, bounded n' (next b)
  | Emit _ next, S n' => bounded n' next
  end.

Lemma bounded_more {A} (p : prog A) : forall n n', n <= n' -> bounded n p -> bounded n' p.
Proof.
  induction p as [r|B act next IH|x next IH]; intros n n' L H; [destruct n'; exact Logic.I| |];
    (destruct n as [|n]; [destruct H|]); (destruct n' as [|n']; [lia|]); cbn in *.
  - intros b. apply (IH b n); [lia|apply H].
  - apply (IH n); [lia|exact H].
Qed.
Lemma bounded_bind {A B} (p : prog A) (g : A -> prog B) : forall n n', bounded n p -> (forall a, bounded n' (g a)) -> bounded (n + n') (pbind p g).
Proof.
  induction p as [r|C act next IH|x next IH]; intros n n' H1 H2.
  - destruct r; try (destruct (n + n'); exact Logic.I). apply (bounded_more _ n'); [lia|apply H2].
  - destruct n as [|n]; [destruct H1|]. cbn in *. intros b. now apply IH.
  - destruct n as [|n]; [destruct H1|]. cbn in *. now apply IH.
Qed.
Lemma bounded_ret {A} (a : A) : bounded 0 (pret a).
Proof. exact Logic.I. Qed.
Lemma bounded_access {B : Set} (act : fs -> fs * B) : bounded 1 (access act).
Proof. intros b. exact Logic.I. Qed.
Lemma bounded_emit x : bounded 1 (emit x).
Proof. exact Logic.I. Qed.
Lemma bounded_if {A} (b : bool) (p q : prog A) n : bounded n p -> bounded n q -> bounded n (if b then p else q).
Proof. now destruct b. Qed.

Ltac bound := lazymatch goal with
  | |- bounded _ (access ?act) => apply (bounded_more (access act) 1); [lia|apply bounded_access]
  | |- bounded _ (emit ?x) => apply (bounded_more (emit x) 1); [lia|apply bounded_emit]
  | |- bounded _ (pret ?a) => apply (bounded_more (pret a) 0); [lia|apply bounded_ret]
  | |- bounded _ (Done ?r) => apply (bounded_more (Done r) 0); [lia|exact Logic.I]
  end.

Lemma bounded_read p : bounded 2 (read_steps p).
Proof.
  apply (bounded_bind _ _ 1 1); [bound|]. intros b. apply bounded_if; [|bound]. apply (bounded_bind _ _ 1 0); [bound|]. intros s. bound.
Qed.
Lemma bounded_write p s : bounded 2 (write_steps p s).
Proof. apply (bounded_bind _ _ 1 1); [bound|]. intros b. apply bounded_if; bound. Qed.

Section with_env.
Variable e : venv.
Lemma bounded_path : bounded 6 (path_steps e).
Proof.
  unfold path_steps. destruct (ve_home e); [|bound].
  apply (bounded_bind _ _ 1 5); [bound|]. intros err. apply (bounded_bind _ _ 1 4); [apply bounded_if; bound|]. intros err'.
  apply (bounded_bind _ _ 1 3).
  { apply bounded_if; [|bound]. apply (bounded_bind _ _ 1 0); [bound|]. intros b. apply bounded_if; bound. }
  intros p. apply (bounded_bind _ _ 1 2); [bound|]. intros g. apply (bounded_bind _ _ 1 1); [bound|]. intros u.
  apply (bounded_bind _ _ 1 0); [bound|]. intros r. apply bounded_if; bound.
Qed.
Lemma bounded_ask k : bounded 5 (ask_steps e k).
Proof.
  unfold ask_steps. apply (bounded_bind _ _ 2 3); [apply bounded_write|]. intros _. apply bounded_if; [|bound].
  apply (bounded_bind _ _ 1 2); [bound|]. intros _. cbv zeta. repeat apply bounded_if; try bound;
    (apply (bounded_bind _ _ 2 0); [apply bounded_write|intros; bound]).
Qed.
Lemma bounded_decide k on user : bounded 8 (decide_steps e k on user).
Proof.
  unfold decide_steps. repeat apply bounded_if; try bound. destruct user; [bound|].
  apply (bounded_bind _ _ 1 7); [bound|]. intros b. apply (bounded_bind _ _ 2 5); [apply bounded_if; [apply bounded_read|bound]|].
  intros [c|]; [|apply bounded_ask]. destruct (getline (Some c) "") as [s line]. apply bounded_if; [bound|].
  destruct (getline s line) as [s2 line2]. repeat apply bounded_if; try bound. apply bounded_ask.
Qed.
Lemma bounded_check k : bounded 8 (check_steps e k).
Proof.
  unfold check_steps. apply (bounded_bind _ _ 5 3).
  - unfold message_steps. apply (bounded_bind _ _ 2 3); [apply bounded_read|]. intros c. apply (bounded_bind _ _ 1 2).
    + destruct c as [c|]; [|bound]. destruct (getline (Some c) "") as [s line]. destruct (getline s line) as [s2 line2].
      apply (bounded_bind _ _ 1 0); [|intros; bound]. apply bounded_if; [|bound]. apply (bounded_bind _ _ 1 0); [|intros; bound]. apply bounded_if; bound.
    + intros [a s]. apply (bounded_bind _ _ 1 1); [apply bounded_if; bound|]. intros _. repeat apply bounded_if; bound.
  - intros _. apply (bounded_bind _ _ 2 1).
    + unfold program_steps. cbv zeta. apply (bounded_bind _ _ 1 1); [bound|]. intros _. apply bounded_if; [bound|].
      apply (bounded_bind _ _ 1 0); [bound|]. intros _. apply bounded_if; bound.
    + intros p. apply bounded_if; bound.
Qed.
Lemma bounded_version m on user : bounded 22 (version_steps e m on user).
Proof.
  unfold version_steps. apply (bounded_bind _ _ 6 16).
  - unfold checker_steps. apply (bounded_bind _ _ 6 0); [apply bounded_path|]. intros p. apply bounded_if; bound.
  - intros k. apply (bounded_bind _ _ 8 8); [apply bounded_decide|]. intros yes. apply bounded_if; [apply bounded_check|bound].
Qed.
End with_env.

Lemma bounded_exec i : forall s f ps p n, nth_error ps i = Some p -> bounded n (p_prog p) -> n <= turns_of i s ->
  exists r log, nth_error (snd (exec s f ps)) i = Some {| p_prog := Done r; p_log := log |}.
Proof.
  induction s as [|t s IH]; intros f ps p n Hi B L.
  - cbn in *. assert (n = 0) as -> by lia. destruct p as [q log]. cbn [p_prog] in *. destruct q; cbn in B; try contradiction. eauto.
  - cbn [exec]. destruct t as [j|g]; cbn [turns_of] in L; [|exact (IH _ _ _ _ Hi B L)].
    destruct (nth_error ps j) as [q|] eqn:Hj.
    2:{ destruct (Nat.eqb_spec j i) as [->|N]; [congruence|]. exact (IH _ _ _ _ Hi B L). }
    destruct (proc_step f q) as [f' q'] eqn:E. destruct (Nat.eqb_spec j i) as [->|N].
    + rewrite Hi in Hj. injection Hj as ->. pose proof (replace_same i q' ps (nth_lt _ _ _ Hi)) as R. unfold proc_step in E.
      destruct q as [[r|C act next|x next] log]; cbn [p_prog p_log] in *.
      * injection E as <- <-. apply (IH _ _ _ 0 R); [exact Logic.I|lia].
      * destruct n as [|n]; [destruct B|]. destruct (act f) as [f1 b]. injection E as <- <-. apply (IH _ _ _ n R); [apply B|lia].
      * destruct n as [|n]; [destruct B|]. injection E as <- <-. apply (IH _ _ _ n R); [apply B|lia].
    + apply (IH f' (replace j q' ps) p n); [now rewrite replace_other|exact B|exact L].
Qed.

Lemma wait_free s f ps i l : nth_error ps i = Some (start l) -> 22 <= turns_of i s ->
  exists r log, nth_error (snd (exec s f ps)) i = Some {| p_prog := Done r; p_log := log |}.
Proof. intros H L. apply (bounded_exec i s f ps (start l) 22 H); [|exact L]. apply bounded_version. Qed.

(** ** Reasoning about all interleavings *)

(** Whatever happens in between keeps [Inv]; so do the steps of this program, which change the file system as [G] says
    and do only what [Ok] says; [Post]: its result. *)
Fixpoint sat {A} (Inv : fs -> Prop) (G : fs -> fs -> Prop) (Ok : event -> Prop) (Post : res A -> Prop) (p : prog A) : Prop :=
  match p with
  | Done r => Post r
  | Access act next => forall f, Inv f -> Inv (fst (act f)) /\ G f (fst (act f)) /\ sat Inv G Ok Post (next (snd (act f)))
  | Emit x next => Ok x /\ sat Inv G Ok Post next
  end.

(** the result if it is a value, and nothing else *)
Definition returns {A} (Q : A -> Prop) (r : res A) : Prop := match r with Ret a => Q a | _ => False end.
(** any other result is fine *)
Definition at_most {A} (Q : A -> Prop) (r : res A) : Prop := match r with Ret a => Q a | _ => True end.

Section logic.
Variables (Inv : fs -> Prop) (G : fs -> fs -> Prop) (Ok : event -> Prop).

Lemma sat_bind {A B} (Q : A -> Prop) (Post : B -> Prop) (g : A -> prog B) (p : prog A) :
  sat Inv G Ok (returns Q) p -> (forall a, Q a -> sat Inv G Ok (returns Post) (g a)) -> sat Inv G Ok (returns Post) (pbind p g).
Proof.
  intros H K. induction p as [r|C act next IH|x next IH]; cbn [pbind sat] in *.
  - destruct r; try destruct H. now apply K.
  - intros f Hf. destruct (H f Hf) as (H1 & H2 & H3). auto.
  - destruct H. auto.
Qed.
Lemma sat_bind_most {A B} (Q : A -> Prop) (Post : B -> Prop) (g : A -> prog B) (p : prog A) :
  sat Inv G Ok (at_most Q) p -> (forall a, Q a -> sat Inv G Ok (at_most Post) (g a)) -> sat Inv G Ok (at_most Post) (pbind p g).
Proof.
  intros H K. induction p as [r|C act next IH|x next IH]; cbn [pbind sat] in *.
  - destruct r; try exact Logic.I. now apply K.
  - intros f Hf. destruct (H f Hf) as (H1 & H2 & H3). auto.
  - destruct H. auto.
Qed.
Lemma sat_access {B : Set} (Q : res B -> Prop) (act : fs -> fs * B) :
  (forall f, Inv f -> Inv (fst (act f)) /\ G f (fst (act f)) /\ Q (Ret (snd (act f)))) -> sat Inv G Ok Q (access act).
Proof. intros H f Hf. exact (H f Hf). Qed.

Lemma sat_weaken {A} (Q Q' : res A -> Prop) (p : prog A) : (forall r, Q r -> Q' r) -> sat Inv G Ok Q p -> sat Inv G Ok Q' p.
Proof.
  intros HQ. induction p as [r|C act next IH|x next IH]; cbn [sat]; [auto| |].
  - intros H f Hf. destruct (H f Hf) as (H1 & H2 & H3). auto.
  - intros [H1 H2]. auto.
Qed.
End logic.

Section soundness.
Variable Inv : fs -> Prop.
Variable G : nat -> fs -> fs -> Prop.
Variable Ok : nat -> event -> Prop.
Variable Post : nat -> res unit -> Prop.
Hypothesis G_refl : forall i f, G i f f.

Definition fine (i : nat) (p : proc) : Prop := Forall (Ok i) (p_log p) /\ sat Inv (G i) (Ok i) (Post i) (p_prog p).

Lemma fine_step f i p : Inv f -> fine i p -> let '(f', p') := proc_step f p in Inv f' /\ G i f f' /\ fine i p'.
Proof.
  intros HI (H1 & H2). unfold proc_step. destruct p as [[r|C act next|x next] log]; cbn [p_prog p_log sat] in *.
  - split; [exact HI|]. split; [apply G_refl|]. split; assumption.
  - destruct (H2 f HI) as (H3 & H4 & H5). destruct (act f) as [f1 b]. cbn [fst snd] in *. split; [exact H3|]. split; [exact H4|]. split; auto.
  - destruct H2 as [H2 H3]. split; [exact HI|]. split; [apply G_refl|]. split; cbn [p_log p_prog]; [apply Forall_app; auto|exact H3].
Qed.

Lemma exec_sound : forall s f ps, (forall g h, In (World g) s -> Inv h -> Inv (g h)) -> Inv f -> (forall i p, nth_error ps i = Some p -> fine i p) ->
  let '(f', ps') := exec s f ps in Inv f' /\ forall i p, nth_error ps' i = Some p -> fine i p.
Proof.
  induction s as [|t s IH]; intros f ps T HI H; [now split|].
  assert (T' : forall g h, In (World g) s -> Inv h -> Inv (g h)) by (intros g h Hg; apply T; now right). cbn [exec]. destruct t as [j|g].
  - destruct (nth_error ps j) as [q|] eqn:Hj; [|apply IH; auto]. pose proof (fine_step f j q HI (H j q Hj)) as X.
    destruct (proc_step f q) as [f' q']. destruct X as (X1 & _ & X2). apply IH; [exact T'|exact X1|].
    intros i p Hp. destruct (Nat.eq_dec i j) as [->|N].
    + rewrite replace_same in Hp by exact (nth_lt _ _ _ Hj). injection Hp as <-. exact X2.
    + rewrite replace_other in Hp by congruence. now apply H.
  - apply IH; [exact T'| |exact H]. apply T; [now left|exact HI].
Qed.
End soundness.

Lemma exec_length : forall s f ps, List.length (snd (exec s f ps)) = List.length ps.
Proof.
  induction s as [|t s IH]; intros f ps; [reflexivity|]. cbn [exec]. destruct t as [i|g]; [|apply IH].
  destruct (nth_error ps i) as [p|]; [|apply IH]. destruct (proc_step f p) as [f' p']. now rewrite IH, replace_length.
Qed.
