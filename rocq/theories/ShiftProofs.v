(** Moving an option with its value in an arbitrary argument vector. *)
From Verif Require Import Base StrLib Fs Values Validators FormatParse Invocation InvocationProofs InvocationEffects ValuesSpec ValuesProofs
  ScanSpec ScanProofs ScanFlags DiagnosisSpec DiagnosisProofs ReadingSpec ReadingProofs OrderSpec OrderProofs.

Lemma reads_join k a wa la b wb lb : reads k a wa la -> reads k b wb lb -> reads k (a ++ b) (wa ++ wb) (la ++ lb).
Proof. intros H Hb. induction H; cbn [app]; [exact Hb|constructor; auto..]. Qed.

Lemma app_longer a w : w <> "" -> a +s+ w <> a.
Proof. intros Hw E. assert (L : String.length (a +s+ w) = String.length a) by now rewrite E. rewrite length_app_s in L. destruct w; [congruence|cbn in L; lia]. Qed.

Lemma last_cons {A} (x : A) l d : l <> [] -> last (x :: l) d = last l d.
Proof. now destruct l. Qed.

Lemma reads_split k b : forall n a, List.length a <= n -> last a "" <> dashed k -> forall ws l', reads k (a ++ b) ws l' ->
  exists wa la wb lb, reads k a wa la /\ reads k b wb lb /\ ws = wa ++ wb /\ l' = la ++ lb.
Proof.
  induction n as [|n IH]; intros a Hn Hl ws l' H.
  - destruct a; [|cbn in Hn; lia]. exists [], [], ws, l'. split; [constructor|auto].
  - destruct a as [|x a]; [exists [], [], ws, l'; split; [constructor|auto]|]. cbn [app List.length] in *.
    assert (Hl' : last a "" <> dashed k). { destruct a as [|y a]; [cbn; intros K; symmetry in K; revert K; apply dashed_nonempty|]. now rewrite last_cons in Hl. }
    inversion H as [|y l0 ws0 l0' Hy H0|w l0 ws0 l0' Hs Hw Hb H0|w l0 ws0 l0' Hw H0|w l0 ws0 l0' H0 E]; subst.
    + destruct (IH a) with (ws := ws) (l' := l0') as (wa & la & wb & lb & A & B & -> & ->); auto; [lia|]. exists wa, (x :: la), wb, lb. repeat split; auto. now constructor.
    + destruct (IH a) with (ws := ws0) (l' := l0') as (wa & la & wb & lb & A & B & -> & ->); auto; [lia|]. exists (w :: wa), ("" :: la), wb, lb. repeat split; auto. now constructor.
    + destruct (IH a) with (ws := ws0) (l' := l0') as (wa & la & wb & lb & A & B & -> & ->); auto; [lia|]. exists (w :: wa), ("" :: la), wb, lb. repeat split; auto. now constructor.
    + destruct a as [|y a]; [cbn in Hl; contradiction|]. cbn [app List.length] in *.
      match goal with E : w :: l0 = _ |- _ => injection E as <- -> | E : _ = w :: l0 |- _ => injection E as -> <- end.
      assert (Hl2 : last a "" <> dashed k). { destruct a as [|z a]; [cbn; intros K; symmetry in K; revert K; apply dashed_nonempty|]. now rewrite last_cons in Hl'. }
      destruct (IH a) with (ws := ws0) (l' := l0') as (wa & la & wb & lb & A & B & -> & ->); auto; [lia|]. eexists (_ :: wa), ("" :: "" :: la), wb, lb. repeat split; auto. now constructor.
Qed.
Lemma split_reads k a b ws l' : last a "" <> dashed k -> reads k (a ++ b) ws l' -> exists wa la wb lb, reads k a wa la /\ reads k b wb lb /\ ws = wa ++ wb /\ l' = la ++ lb.
Proof. intros Hl. now apply (reads_split k b (List.length a)). Qed.

Lemma reads_silent k l ws l' : (forall a, In a l -> looks_like k a = false) -> reads k l ws l' -> ws = [] /\ l' = l.
Proof.
  intros Hs H. rewrite <- (app_nil_r l) in H. apply reads_skip_inv in H as (l1 & -> & H); [|exact Hs]. inversion H; subst. split; [reflexivity|apply app_nil_r].
Qed.

Definition lay (o : bool) (p v u q : list string) : list string := p ++ (if o then v ++ u else u ++ v) ++ q.

Lemma reads_lay k o p v u q ws l1 : last p "" <> dashed k -> last v "" <> dashed k -> last u "" <> dashed k ->
  (forall a, In a v -> looks_like k a = false) \/ (forall a, In a u -> looks_like k a = false) ->
  reads k (lay o p v u q) ws l1 ->
  exists p' v' u' q' wv, l1 = lay o p' v' u' q' /\ reads k (lay (negb o) p v u q) ws (lay (negb o) p' v' u' q') /\ thinner p p' /\ thinner u u' /\ reads k v wv v'.
Proof.
  intros Hp Hv Hu Hn H. unfold lay in *. apply split_reads in H as (wp & p' & w1 & l2 & Rp & H & -> & ->); [|exact Hp].
  destruct o; cbn [negb]; rewrite <- app_assoc in H.
  - apply split_reads in H as (wv & v' & w2 & l3 & Rv & H & -> & ->); [|exact Hv]. apply split_reads in H as (wu & u' & wq & q' & Ru & Rq & -> & ->); [|exact Hu].
    exists p', v', u', q', wv. split; [now rewrite <- app_assoc|]. split; [|split; [eapply reads_thinner; eauto|split; [eapply reads_thinner; eauto|exact Rv]]].
    replace (wp ++ wv ++ wu ++ wq) with (wp ++ (wu ++ wv) ++ wq); [repeat apply reads_join; auto|].
    f_equal. rewrite !app_assoc. f_equal. destruct Hn as [Hn|Hn]; [apply reads_silent in Rv as [-> _]|apply reads_silent in Ru as [-> _]]; auto; now rewrite app_nil_r.
  - apply split_reads in H as (wu & u' & w2 & l3 & Ru & H & -> & ->); [|exact Hu]. apply split_reads in H as (wv & v' & wq & q' & Rv & Rq & -> & ->); [|exact Hv].
    exists p', v', u', q', wv. split; [now rewrite <- app_assoc|]. split; [|split; [eapply reads_thinner; eauto|split; [eapply reads_thinner; eauto|exact Rv]]].
    replace (wp ++ wu ++ wv ++ wq) with (wp ++ (wv ++ wu) ++ wq); [repeat apply reads_join; auto|].
    f_equal. rewrite !app_assoc. f_equal. destruct Hn as [Hn|Hn]; [apply reads_silent in Rv as [-> _]|apply reads_silent in Ru as [-> _]]; auto; now rewrite app_nil_r.
Qed.

Lemma thinner_last l l' k : thinner l l' -> last l "" <> dashed k -> last l' "" <> dashed k.
Proof.
  induction 1 as [|a a' l l' Ha H IH]; intros Hl; [exact Hl|]. destruct H as [|b b' l l' Hb H].
  - cbn in *. destruct Ha as [->| ->]; [exact Hl|]. intros K. symmetry in K. revert K. apply dashed_nonempty.
  - rewrite last_cons in Hl |- * by discriminate. now apply IH.
Qed.
Lemma thinner_silent l l' i : thinner l l' -> silent i l -> silent i l'.
Proof.
  intros Ht H a Ha. assert (K : In a l \/ a = ""). { clear -Ht Ha. induction Ht as [|x y l l' Hx Ht IH]; [destruct Ha|]. destruct Ha as [->|Ha]; [|destruct (IH Ha); [left; now right|now right]].
    destruct Hx as [->| ->]; [left; now left|now right]. }
  destruct K as [K| ->]; [now apply H|apply empty_unlike].
Qed.

Definition blank (l : list string) : Prop := forall a, In a l -> a = "".

Section move.
Variables (ids : list ident) (i : ident) (v0 : list string).
Hypothesis Hgood : forall k, In k ids -> good_ident k = true.
Hypothesis Hi : In i ids.
Hypothesis Hv0 : setting ids i v0.

Lemma setting_unlike k : In k ids -> k <> i -> forall a, In a v0 -> looks_like k a = false.
Proof.
  intros Hk Hn a Ha. assert (D : forall b, looks_like i b = true -> looks_like k b = false) by (intros b; apply (like_other i k); auto).
  destruct Hv0 as [w Hw|w [c ->] Hw Hb|w Hw]; cbn in Ha.
  - destruct Ha as [<-|[<-|[]]]; [apply D, dashed_like|now apply Hw].
  - destruct Ha as [<-|[]]. apply D. apply dashed_app_short.
  - destruct Ha as [<-|[]]. apply D. apply dashed_app_equals.
Qed.
Lemma setting_closed k : In k ids -> last v0 "" <> dashed k.
Proof.
  intros Hk E. assert (L : looks_like k (last v0 "") = true) by (rewrite E; apply dashed_like).
  destruct Hv0 as [w Hw|w Hs Hw Hb|w Hw]; cbn [last] in *.
  - rewrite Hw in L by exact Hk. discriminate.
  - destruct Hs as [c ->]. assert (k = IdShort c) by (apply (like_unique k (IdShort c) _ (Hgood k Hk) (Hgood _ Hi) L); apply dashed_app_short). subst k.
    rewrite <- (app_nil_r_s (dashed (IdShort c))) in E at 2. cbn in E. injection E as E. contradiction.
  - assert (k = i) by (apply (like_unique k i _ (Hgood k Hk) (Hgood _ Hi) L); apply dashed_app_equals). subst k. symmetry in E. apply sapp_nil_inv in E. discriminate.
Qed.
Lemma setting_blank ws v' : reads i v0 ws v' -> blank v'.
Proof.
  intros H. assert (L : exists a r, v0 = a :: r /\ looks_like i a = true).
  { destruct Hv0 as [w Hw|w Hs Hw Hb|w Hw]; eexists _, _; (split; [reflexivity|]); [apply dashed_like|destruct Hs as [c ->]; apply dashed_app_short|apply dashed_app_equals]. }
  destruct L as (a & r & E & L). 
  assert (R : r = [] \/ exists w, r = [w] /\ a = dashed i /\ looks_like i w = false).
  { destruct Hv0 as [w Hw|w Hs Hw Hb|w Hw]; injection E as <- <-; [right; exists w; auto|now left|now left]. }
  rewrite E in H. destruct R as [->|(w & -> & -> & Hw)].
  - inversion H as [|y l0 ws0 l0' Hy H0|w l0 ws0 l0' Hs Hw Hb H0|w l0 ws0 l0' Hw H0|w l0 ws0 l0' H0]; subst; try congruence; inversion H0; subst; intros x [<-|[]]; reflexivity.
  - inversion H as [|y l0 ws0 l0' Hy H0|w1 l0 ws0 l0' Hs Hw1 Hb H0|w1 l0 ws0 l0' Hw1 H0|w1 l0 ws0 l0' H0]; subst; try congruence.
    + match goal with K : _ = dashed i |- _ => exfalso; revert K; apply app_longer; assumption end.
    + match goal with K : _ = dashed i |- _ => exfalso; revert K; apply app_longer; discriminate end.
    + inversion H0; subst. intros x [<-|[<-|[]]]; reflexivity.
Qed.

(** what stays true while the options are read one after the other *)
Definition going (p v u : list string) : Prop :=
  complete ids p /\ complete ids u /\ silent i u /\ (v = v0 \/ blank v).

Lemma blank_unlike v k : blank v -> forall a, In a v -> looks_like k a = false.
Proof. intros H a Ha. rewrite (H a Ha). apply empty_unlike. Qed.
Lemma blank_last v k : blank v -> last v "" <> dashed k.
Proof.
  intros H. destruct v as [|a v]; [|]; [cbn; intros K; symmetry in K; revert K; apply dashed_nonempty|]. intros K.
  assert (L : In (last (a :: v) "") (a :: v)). { clear. revert a. induction v as [|b v IH]; intros a; [now left|]. rewrite last_cons by discriminate. right. apply IH. }
  apply H in L. rewrite L in K. symmetry in K. revert K. apply dashed_nonempty.
Qed.
Lemma reads_blank k v ws v' : blank v -> reads k v ws v' -> blank v'.
Proof. intros H R. apply reads_silent in R as [_ ->]; [exact H|now apply blank_unlike]. Qed.

Lemma going_step k o p v u q ws l1 : In k ids -> going p v u -> reads k (lay o p v u q) ws l1 ->
  exists p' v' u' q', l1 = lay o p' v' u' q' /\ reads k (lay (negb o) p v u q) ws (lay (negb o) p' v' u' q') /\ going p' v' u' /\
    (blank v -> blank v') /\ (k = i -> blank v').
Proof.
  intros Hk (Cp & Cu & Su & Hv) H.
  assert (D : k = i \/ k <> i) by (destruct k as [c|s], i as [d|t]; try (right; discriminate); [destruct (Ascii.ascii_dec c d) as [->|]|destruct (string_dec s t) as [->|]]; try (now left); right; congruence).
  assert (Lv : last v "" <> dashed k) by (destruct Hv as [->|Hv]; [now apply setting_closed|now apply blank_last]).
  assert (N : (forall a, In a v -> looks_like k a = false) \/ (forall a, In a u -> looks_like k a = false)).
  { destruct D as [->|Hn]; [right; exact Su|left]. destruct Hv as [->|Hv]; [now apply setting_unlike|now apply blank_unlike]. }
  destruct (reads_lay k o p v u q ws l1 (Cp k Hk) Lv (Cu k Hk) N H) as (p' & v' & u' & q' & wv & -> & R & Tp & Tu & Rv).
  assert (Bi : k = i -> blank v'). { intros ->. destruct Hv as [->|Hv]; [now apply (setting_blank wv)|now apply (reads_blank i v wv)]. }
  exists p', v', u', q'. split; [reflexivity|]. split; [exact R|]. split; [|split; [intros B; now apply (reads_blank k v wv)|exact Bi]].
  split; [intros j Hj; now apply (thinner_last p), Cp|]. split; [intros j Hj; now apply (thinner_last u), Cu|]. split; [now apply (thinner_silent u)|].
  destruct Hv as [->|Hv]; [|right; now apply (reads_blank k v wv)].
  destruct D as [D|D]; [right; auto|left]. apply reads_silent in Rv as [_ ->]; [reflexivity|now apply setting_unlike].
Qed.

Lemma going_each o js : (forall k, In k js -> In k ids) -> forall p v u q wss l1, going p v u -> reads_each js (lay o p v u q) wss l1 ->
  exists p' v' u' q', l1 = lay o p' v' u' q' /\ reads_each js (lay (negb o) p v u q) wss (lay (negb o) p' v' u' q') /\ going p' v' u' /\
    (blank v -> blank v') /\ (In i js -> blank v').
Proof.
  induction js as [|k js IH]; intros Hjs p v u q wss l1 G H; inversion H as [|k0 js0 l ws l0 wss0 l2 R H']; subst.
  - exists p, v, u, q. repeat split; try exact (proj1 G); try apply G; auto; [constructor|intros []].
  - apply going_step in R as (p1 & v1 & u1 & q1 & -> & R & G1 & B1 & B2); [|apply Hjs; now left|exact G].
    destruct (IH (fun k0 K => Hjs k0 (or_intror K)) p1 v1 u1 q1 wss0 l1 G1 H') as (p2 & v2 & u2 & q2 & -> & R2 & G2 & B3 & B4).
    exists p2, v2, u2, q2. split; [reflexivity|]. split; [econstructor; eauto|]. split; [exact G2|]. split; [auto|]. intros [->|K]; auto.
Qed.

Lemma going_options ndebug o ds l vs f l1 vs1 f1 : options_read ndebug ds l vs f l1 vs1 f1 -> (forall k, In k (flat_map option_idents ds) -> In k ids) ->
  forall p v u q, l = lay o p v u q -> going p v u ->
  exists p' v' u' q', l1 = lay o p' v' u' q' /\ options_read ndebug ds (lay (negb o) p v u q) vs f (lay (negb o) p' v' u' q') vs1 f1 /\
    (blank v -> blank v') /\ (In i (flat_map option_idents ds) -> blank v').
Proof.
  induction 1 as [l vs vs' f He|d ds l vs f l' vs' f' Hd H IH|x t c ds l vs f wss l1 v1 vs1 f1 l' vs' f' R Q V B F H IH]; intros Hids p v u q -> G.
  - exists p, v, u, q. split; [reflexivity|]. split; [now constructor|]. split; [auto|intros []].
  - assert (E : option_idents d = []) by (destruct d; [exfalso; eapply Hd; reflexivity|reflexivity..]). cbn [flat_map] in *. rewrite E in *. cbn [app] in *.
    destruct (IH Hids p v u q eq_refl G) as (p' & v' & u' & q' & -> & R' & B'). exists p', v', u', q'. split; [reflexivity|]. split; [now apply options_skip|exact B'].
  - cbn [flat_map option_idents] in *. apply going_each in R as (p1 & v2 & u1 & q1 & -> & R & G1 & B1 & B2); [|intros k K; apply Hids, in_app_iff; now left|exact G].
    destruct (IH (fun k K => Hids k (proj2 (in_app_iff _ _ _) (or_intror K))) p1 v2 u1 q1 eq_refl G1) as (p' & v' & u' & q' & -> & R' & B3 & B4).
    exists p', v', u', q'. split; [reflexivity|]. split; [eapply options_one; eauto|]. split; [auto|]. intros K. apply in_app_iff in K as [K|K]; auto.
Qed.
End move.

(** ** Flags and words do not depend on empty arguments *)

Definition sq (l : list string) : list string := filter (fun a => negb (is_empty a)) l.
Lemma sq_app a b : sq (a ++ b) = sq a ++ sq b.
Proof. apply filter_app. Qed.
Lemma sq_blank v : blank v -> sq v = [].
Proof. induction v as [|a v IH]; intros H; [reflexivity|]. cbn. rewrite (H a (or_introl eq_refl)). cbn. apply IH. intros x Hx. apply H. now right. Qed.
Lemma sq_lay o p v u q : blank v -> sq (lay o p v u q) = sq p ++ sq u ++ sq q.
Proof. intros H. unfold lay. destruct o; rewrite !sq_app, (sq_blank v H), ?app_nil_r; reflexivity. Qed.
Lemma sq_pres c l : pres c (sq l) = pres c l.
Proof. unfold pres. induction l as [|[|d a] l IH]; [reflexivity|exact IH|]. cbn [sq filter is_empty negb existsb]. now rewrite <- IH. Qed.
Lemma sq_has w l : w <> "" -> has w (sq l) = has w l.
Proof.
  intros Hw. unfold has. induction l as [|[|d a] l IH]; [reflexivity| |].
  - cbn [sq filter is_empty negb existsb]. rewrite (proj2 (String.eqb_neq w "") Hw). exact IH.
  - cbn [sq filter is_empty negb existsb]. now rewrite <- IH.
Qed.
Lemma sq_tkl c l : sq (tkl c (sq l)) = sq (tkl c l).
Proof.
  induction l as [|a l IH]; [reflexivity|]. destruct a as [|d a]; [exact IH|]. cbn [sq filter is_empty negb]. cbn [tkl]. destruct (looks_like_cluster_of c (String d a)).
  - cbn [sq filter]. assert (I2 : forall m, filter (fun a => negb (is_empty a)) (filter (fun a => negb (is_empty a)) m) = filter (fun a => negb (is_empty a)) m).
    { clear. induction m as [|x m IH]; [reflexivity|]. cbn [filter]. destruct (negb (is_empty x)) eqn:E; cbn [filter]; rewrite ?E, IH; reflexivity. }
    now rewrite I2.
  - cbn [sq filter is_empty negb]. f_equal. exact IH.
Qed.
Lemma sq_bll w l : w <> "" -> sq (bll w (sq l)) = sq (bll w l).
Proof.
  intros Hw. induction l as [|a l IH]; [reflexivity|]. destruct a as [|d a].
  - cbn [sq filter is_empty negb bll]. rewrite (proj2 (String.eqb_neq w "") Hw). exact IH.
  - cbn [sq filter is_empty negb bll]. destruct (String.eqb w (String d a)).
    + cbn [sq filter is_empty negb]. clear. induction l as [|x m IH]; [reflexivity|]. cbn [filter]. destruct (negb (is_empty x)) eqn:E; cbn [filter]; rewrite ?E, IH; reflexivity.
    + cbn [sq filter is_empty negb]. f_equal. exact IH.
Qed.

Lemma flag_squeeze c b m r b1 r1 g : c_short c <> "-"%char -> sq b = sq m -> flag_read c b r b1 r1 g -> exists m1, flag_read c m r m1 r1 g /\ sq b1 = sq m1.
Proof.
  intros Hc E H. apply flag_read_fun in H. assert (Hl : long_of c <> "") by discriminate. unfold flag_fun in H.
  rewrite <- (sq_pres _ b), <- (sq_has _ b Hl), E, sq_pres, sq_has in H by exact Hl.
  destruct (pres (c_short c) m) eqn:P1; [|destruct (pres (c_short c) r) eqn:P2]; injection H as <- <- <-.
  - exists (tkl (c_short c) m). split; [apply fun_flag_read; auto; unfold flag_fun; now rewrite P1|]. now rewrite <- sq_tkl, E, sq_tkl.
  - exists m. split; [apply fun_flag_read; auto; unfold flag_fun; now rewrite P1, P2|exact E].
  - exists (bll (long_of c) m). split; [apply fun_flag_read; auto; unfold flag_fun; now rewrite P1, P2|]. now rewrite <- sq_bll, E, sq_bll.
Qed.
Lemma flags_squeeze ds b r vs b2 r2 vs2 : flags_read ds b r vs b2 r2 vs2 -> flags_ok ds -> forall m, sq b = sq m ->
  exists m2, flags_read ds m r vs m2 r2 vs2 /\ sq b2 = sq m2.
Proof.
  induction 1 as [b r vs vs' He|d ds b r vs b' r' vs' Hd H IH|x c ds b r vs b1 r1 g vs1 b' r' vs' R B H IH]; intros Hok m E.
  - exists m. split; [now constructor|exact E].
  - destruct (IH (fun x c K => Hok x c (or_intror K)) m E) as (m2 & R2 & E2). exists m2. split; [now apply flags_skip|exact E2].
  - destruct (flag_squeeze c b m r b1 r1 g) as (m1 & R1 & E1); auto; [apply (Hok x); now left|].
    destruct (IH (fun x c K => Hok x c (or_intror K)) m1 E1) as (m2 & R2 & E2). exists m2. split; [eapply flags_one; eauto|exact E2].
Qed.

(** ** The whole *)

Section whole.
Context (ndebug : bool).

Lemma lay_cut o p v u q r : cut (lay o p v u q ++ r) (lay o p v u q) r -> cut (lay (negb o) p v u q ++ r) (lay (negb o) p v u q) r.
Proof.
  intros (_ & H & K). split; [reflexivity|]. split; [|exact K]. intros A. apply H. unfold lay in *. rewrite !in_app_iff in *. destruct o; cbn [negb] in A; rewrite in_app_iff in *; tauto.
Qed.

Lemma understood_shift o ds i p v u q r vs f vs' f' : wf_decls ds = true -> In i (flat_map option_idents ds) -> setting (flat_map option_idents ds) i v ->
  complete (flat_map option_idents ds) p -> complete (flat_map option_idents ds) u -> silent i u ->
  cut (lay o p v u q ++ r) (lay o p v u q) r ->
  understood ndebug ds (lay o p v u q ++ r) vs f vs' f' -> understood ndebug ds (lay (negb o) p v u q ++ r) vs f vs' f'.
Proof.
  intros Hwf Hi Hs Cp Cu Su Hcut (b0 & r0 & b1 & vs1 & f1 & b2 & r2 & vs2 & Hc & Ho & Hf & Hu & Hw).
  destruct (cut_unique _ _ _ _ _ Hcut Hc) as [<- <-].
  assert (Hg : forall k, In k (flat_map option_idents ds) -> good_ident k = true).
  { intros k Hk. pose proof Hwf as W. unfold wf_decls in W. apply andb_true_iff in W as [W _]. apply andb_true_iff in W as [W _]. rewrite forallb_forall in W. apply W.
    apply in_flat_map in Hk as (d & Hd & Hk). apply in_flat_map. exists d. split; [exact Hd|]. unfold decl_idents. apply in_app_iff. now left. }
  destruct (going_options (flat_map option_idents ds) i v Hg Hi Hs ndebug o ds _ vs f b1 vs1 f1 Ho (fun k K => K) p v u q eq_refl) as (p' & v' & u' & q' & -> & Ho' & _ & Bv).
  { split; [exact Cp|]. split; [exact Cu|]. split; [exact Su|now left]. }
  specialize (Bv Hi).
  destruct (flags_squeeze ds _ r vs1 b2 r2 vs2 Hf (wf_flags_ok _ Hwf) (lay (negb o) p' v' u' q')) as (m2 & Hf' & E); [now rewrite !sq_lay|].
  exists (lay (negb o) p v u q), r, (lay (negb o) p' v' u' q'), vs1, f1, m2, r2, vs2. split; [now apply lay_cut|]. split; [exact Ho'|]. split; [exact Hf'|]. split.
  - intros [|c a] Ha; [now left|]. assert (K : In (String c a) (sq m2)) by (apply filter_In; split; [exact Ha|reflexivity]). rewrite <- E in K. apply filter_In in K as [K _]. now apply Hu.
  - fold (sq (m2 ++ List.tl r2)). fold (sq (b2 ++ List.tl r2)) in Hw. rewrite sq_app in *. now rewrite <- E.
Qed.

Lemma shift_lemma ds i p v u q r vs f : wf_decls ds = true -> elems_ok ds -> In i (flat_map option_idents ds) -> setting (flat_map option_idents ds) i v ->
  complete (flat_map option_idents ds) p -> complete (flat_map option_idents ds) u -> silent i u ->
  cut ((p ++ v ++ u ++ q) ++ r) (p ++ v ++ u ++ q) r ->
  (snd (parse_args ndebug ds ((p ++ v ++ u ++ q) ++ r) vs f) = Ret tt <-> snd (parse_args ndebug ds ((p ++ u ++ v ++ q) ++ r) vs f) = Ret tt) /\
  (snd (parse_args ndebug ds ((p ++ v ++ u ++ q) ++ r) vs f) = Ret tt ->
   (forall y, vars (fst (parse_args ndebug ds ((p ++ v ++ u ++ q) ++ r) vs f)) y = vars (fst (parse_args ndebug ds ((p ++ u ++ v ++ q) ++ r) vs f)) y) /\
   fsys (fst (parse_args ndebug ds ((p ++ v ++ u ++ q) ++ r) vs f)) = fsys (fst (parse_args ndebug ds ((p ++ u ++ v ++ q) ++ r) vs f))).
Proof.
  intros Hwf Hel Hi Hs Cp Cu Su Hc.
  assert (E1 : p ++ v ++ u ++ q = lay true p v u q) by (unfold lay; now rewrite <- app_assoc).
  assert (E2 : p ++ u ++ v ++ q = lay false p v u q) by (unfold lay; now rewrite <- app_assoc).
  rewrite E1, E2 in *. clear E1 E2.
  assert (Fwd : forall o, cut (lay o p v u q ++ r) (lay o p v u q) r -> snd (parse_args ndebug ds (lay o p v u q ++ r) vs f) = Ret tt ->
     exists s', parse_args ndebug ds (lay (negb o) p v u q ++ r) vs f = (s', Ret tt) /\
     (forall y, vars s' y = vars (fst (parse_args ndebug ds (lay o p v u q ++ r) vs f)) y) /\ fsys s' = fsys (fst (parse_args ndebug ds (lay o p v u q ++ r) vs f))).
  { intros o Ho E. destruct (parse_args ndebug ds (lay o p v u q ++ r) vs f) as [s x] eqn:Es. cbn [snd fst] in *. subst x. apply (meaning_lemma ndebug ds); auto.
    apply (understood_shift o ds i); auto. apply meaning_lemma; auto. exists s. auto. }
  split; [split|].
  - intros E. destruct (Fwd true Hc E) as (s' & E' & _). cbn [negb] in E'. now rewrite E'.
  - intros E. destruct (Fwd false (lay_cut true _ _ _ _ _ Hc) E) as (s' & E' & _). cbn [negb] in E'. now rewrite E'.
  - intros E. destruct (Fwd true Hc E) as (s' & E' & V & F). cbn [negb] in E'. rewrite E'. cbn [fst]. split; [intros y; now rewrite V|congruence].
Qed.
End whole.
