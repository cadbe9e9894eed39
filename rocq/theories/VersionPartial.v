(** The file with the answer of the server is read while it is being written. *)
From Verif Require Import Base StrLib Fs Values ValuesSpec FormatParse Parser VersionCheck VersionSpec ValuesProofs VersionProofs VersionRuns VersionSteps OverlapSpec VersionStepsProofs.

Lemma weight_app s : forall r, weight (s +s+ r) = (weight s * 10 ^ Z.of_nat (String.length r) + weight r)%Z.
Proof.
  induction s as [|c s IH]; intros r; cbn [append weight]; [lia|]. rewrite IH, length_app_s, Nat2Z.inj_add, Z.pow_add_r by lia. lia.
Qed.

Lemma sall_app_inv (p : chr -> bool) a b : sall p (a +s+ b) = true -> sall p a = true /\ sall p b = true.
Proof. induction a as [|c a IH]; cbn; [auto|]. rewrite andb_true_iff. intros [H1 H2]. destruct (IH H2). now rewrite H1. Qed.

(** a version that is cut short is no newer *)
Lemma cut_version l r v w : version_text l v -> version_text (l +s+ r) w ->
  fst v = fst w /\ (snd v <= snd w)%Z.
Proof.
  intros (a & b & c & Ha & Hb & Hc & -> & ->) (a' & b' & c' & Ha' & Hb' & Hc' & E & ->). cbn [fst snd].
  assert (E2 : a +s+ String "." (b +s+ String "." (c +s+ r)) = a' +s+ String "." (b' +s+ String "." c')) by (repeat (rewrite app_assoc_s in E; cbn [append] in E); exact E).
  assert (X1 : a = a' /\ b +s+ String "." (c +s+ r) = b' +s+ String "." c').
  { pose proof (span_digits_app a (String "." (b +s+ String "." (c +s+ r))) (proj2 Ha) eq_refl) as S1.
    pose proof (span_digits_app a' (String "." (b' +s+ String "." c')) (proj2 Ha') eq_refl) as S2. rewrite E2, S2 in S1. injection S1 as <- S1. auto. }
  destruct X1 as [<- E3].
  assert (X2 : b = b' /\ c +s+ r = c').
  { pose proof (span_digits_app b (String "." (c +s+ r)) (proj2 Hb) eq_refl) as S1.
    pose proof (span_digits_app b' (String "." c') (proj2 Hb') eq_refl) as S2. rewrite E3, S2 in S1. injection S1 as <- S1. auto. }
  destruct X2 as [<- <-]. split; [reflexivity|]. rewrite weight_app. destruct Hc' as [_ Hc']. apply sall_app_inv in Hc' as [D1 D2].
  pose proof (weight_nonneg c D1). pose proof (weight_nonneg r D2). assert (1 <= 10 ^ Z.of_nat (String.length r))%Z by (change 1%Z with (10 ^ 0)%Z; apply Z.pow_le_mono_r; lia). nia.
Qed.

Lemma first_line_ex c : exists l, first_line c l.
Proof.
  induction c as [|x c (l & N & H)]; [exists ""; split; [reflexivity|now left]|]. destruct (Ascii.eqb_spec x "010") as [->|D].
  - exists "". split; [reflexivity|]. right. now exists c.
  - exists (String x l). split; [cbn; rewrite N, orb_false_r; apply Ascii.eqb_neq; congruence|]. destruct H as [->|(r & ->)]; [now left|]. right. now exists r.
Qed.

(** the first line of a beginning is a beginning of the first line *)
Lemma first_line_cut c more l : first_line (c +s+ more) l -> forall l', first_line c l' -> exists r, l = l' +s+ r.
Proof.
  intros F l' F'. pose proof (cut_first _ _ F) as E. pose proof (cut_first _ _ F') as E'. subst l l'. clear F F'.
  induction c as [|x c IH]; [now eexists|]. cbn [append cut_line]. destruct (Ascii.eqb x "010"); [now exists ""|].
  destruct (cut_line c) as [l r]. destruct (cut_line (c +s+ more)) as [l2 r2]. cbn [fst] in *. destruct IH as [q ->]. now exists q.
Qed.

Lemma newer_le v w u : fst v = fst w -> (snd v <= snd w)%Z -> newer v u -> newer w u.
Proof. destruct v as [[a b] c], w as [[a' b'] c'], u as [[x y] z]. cbn. intros [= -> ->]. lia. Qed.

Lemma release_cut e home m f c more mm l v w : ve_home e = Some home -> ve_opt_out e = false -> cookie_name m -> ve_ndebug e = true ->
  usable true home (m_app_name m) f -> f (version_file home (m_app_name m)) = Some (NFile c mm) -> f_readable mm = true ->
  first_line (c +s+ more) l -> version_text l w -> fits_int w -> app_version (m_version m) v -> fits_int v ->
  exists st, version_check e m true (Some true) {| vs_fs := f; vs_log := [] |} = (st, Ret tt)
    /\ forall s, In (Message s) (vs_log st) -> s = message_app_update (m_url m) /\ newer w v.
Proof.
  intros H1 H2 H3 H4 H5 H6 H7 F V W A Fv. destruct (first_line_ex c) as [l' F']. destruct (first_line_cut c more l F l' F') as [r ->].
  destruct (release_lemma e home m f c mm l' v H1 H2 H3 H4 H5 H6 H7 F' A Fv) as (st & R & I1 & I2).
  - intros w' V'. destruct (cut_version l' r w' w V' V) as [C1 C2]. destruct w as [[x y] z], w' as [[x' y'] z']. cbn in *. injection C1 as -> ->. lia.
  - exists st. split; [exact R|]. intros s Hs. pose proof (I2 s Hs) as ->. split; [reflexivity|]. apply I1 in Hs as (w' & V' & N).
    destruct (cut_version l' r w' w V' V) as [C1 C2]. exact (newer_le w' w v C1 C2 N).
Qed.
