(** The order of the declarations of options and flags, for arbitrary argument vectors. *)
From Coq Require Import Permutation.
From Verif Require Import Base StrLib Fs Values Validators FormatParse Invocation InvocationProofs InvocationEffects ValuesSpec ValuesProofs
  ScanSpec ScanProofs ScanFlags DiagnosisSpec DiagnosisProofs ReadingSpec ReadingProofs OrderSpec.

(** ** Options *)

Lemma like_form i a : looks_like i a = true -> exists r, a = dashed i +s+ r /\ (r = EmptyString \/ begins "=" r = true \/ (exists c, i = IdShort c)).
Proof.
  intros H. destruct i as [c|s]; cbn -[String.prefix String.eqb dashed] in H.
  - apply prefix_iff in H as [r ->]. exists r. split; [reflexivity|]. right. right. eauto.
  - apply orb_true_iff in H as [H|H].
    + apply String.eqb_eq in H as ->. exists "". split; [now rewrite app_nil_r_s|]. now left.
    + apply prefix_iff in H as [r ->]. exists ("=" +s+ r). split; [now rewrite app_assoc_s|]. right. left. reflexivity.
Qed.

Lemma like_unique i j a : good_ident i = true -> good_ident j = true -> looks_like i a = true -> looks_like j a = true -> i = j.
Proof.
  intros Hi Hj H1 H2. apply like_form in H2 as (r & -> & Hr).
  apply (looks_like_dashed [i; j]) with (r := r); auto; [intros k [<-|[<-|[]]]; assumption|now left|right; now left].
Qed.

Lemma dashed_nonempty i : dashed i <> "".
Proof. destruct i; discriminate. Qed.

Lemma like_other i j a : good_ident i = true -> good_ident j = true -> i <> j -> looks_like i a = true -> looks_like j a = false.
Proof. intros Hi Hj Hn H. apply not_true_iff_false. intros H'. apply Hn. eapply like_unique; eauto. Qed.

(** what is after a name of the one does not look like the other *)
Definition clear (i j : ident) (l : list string) : Prop := forall p w q, l = p ++ dashed i :: w :: q -> looks_like j w = false.

Lemma clear_tail i j a l : clear i j (a :: l) -> clear i j l.
Proof. intros H p w q ->. now apply (H (a :: p) w q). Qed.

Definition thinner (l l' : list string) : Prop := Forall2 (fun a a' => a' = a \/ a' = "") l l'.
Lemma thinner_refl l : thinner l l.
Proof. induction l; constructor; auto. Qed.
Lemma thinner_trans l1 l2 l3 : thinner l1 l2 -> thinner l2 l3 -> thinner l1 l3.
Proof.
  intros H. revert l3; induction H as [|a b l m Hab H IH]; intros l3 G; inversion G as [|? c ? n Hbc G']; subst; constructor.
  - destruct Hbc as [->| ->]; auto.
  - now apply IH.
Qed.
Lemma reads_thinner i l ws l' : reads i l ws l' -> thinner l l'.
Proof. unfold thinner. induction 1; repeat (constructor; auto). Qed.
Lemma each_thinner ids l wss l' : reads_each ids l wss l' -> thinner l l'.
Proof. induction 1; [apply thinner_refl|]. eapply thinner_trans; [eapply reads_thinner; eassumption|assumption]. Qed.
Lemma thinner_split l p w w2 q : thinner l (p ++ w :: w2 :: q) -> w <> "" -> exists p0 w3 q0, l = p0 ++ w :: w3 :: q0 /\ (w2 = w3 \/ w2 = "").
Proof.
  intros H Hw. apply Forall2_app_inv_r in H as (p0 & l1 & _ & H & ->). inversion H as [|a ? l2 ? Ha H2]; subst. inversion H2 as [|a2 ? l3 ? Ha2 H3]; subst.
  destruct Ha as [->| ->]; [|contradiction]. exists p0, a2, l3. auto.
Qed.
Lemma clear_thinner i j l l' : thinner l l' -> clear i j l -> clear i j l'.
Proof.
  intros Ht H p w q ->. apply thinner_split in Ht as (p0 & w3 & q0 & -> & [->| ->]); [|apply empty_unlike|apply dashed_nonempty].
  eapply H. reflexivity.
Qed.
Lemma apart_thinner ds l l' : thinner l l' -> apart ds l -> apart ds l'.
Proof. intros Ht H d d' i j p w q Hd Hd' Hn Hi Hj E. 
  assert (C : clear i j l) by (intros p0 w0 q0 E0; now apply (H d d' i j p0 w0 q0)). exact (clear_thinner i j l l' Ht C p w q E). Qed.

Lemma reads_head_empty i l ws l' : reads i ("" :: l) ws l' -> exists l1, l' = "" :: l1 /\ reads i l ws l1.
Proof. intros H. change ("" :: l) with ([""] ++ l) in H. apply reads_skip_inv in H as (l1 & -> & H); [exists l1; now split|]. intros y [<-|[]]. apply empty_unlike. Qed.

Lemma reads_commute i j : good_ident i = true -> good_ident j = true -> i <> j ->
  forall n l, List.length l <= n -> clear i j l -> clear j i l -> forall ws l1 us l2, reads i l ws l1 -> reads j l1 us l2 ->
  exists m, reads j l us m /\ reads i m ws l2.
Proof.
  intros Hi Hj Hn. induction n as [|n IH]; intros l Hl C1 C2 ws l1 us l2 H1 H2.
  - destruct l; [|cbn in Hl; lia]. inversion H1; subst. inversion H2; subst. exists []. split; constructor.
  - inversion H1 as [|a l0 ws0 l0' Ha H|w l0 ws0 l0' Hs Hw Hb H|w l0 ws0 l0' Hw H|w l0 ws0 l0' H]; subst; clear H1; cbn [List.length] in Hl.
    + inversion H2; subst. exists []. split; constructor.
    + inversion H2 as [|? ? ? l0'' Hb H'|w ? ? l0'' Hs Hw Hb H' E|w ? ? l0'' Hw H' E|w l3 ? l0'' H' E]; subst; clear H2.
      * destruct (IH l0) with (ws := ws) (l1 := l0') (us := us) (l2 := l0'') as (m & M1 & M2); try assumption; [lia|eapply clear_tail; eauto..|].
        exists (a :: m). split; constructor; auto.
      * destruct (IH l0) with (ws := ws) (l1 := l0') (us := ws0) (l2 := l0'') as (m & M1 & M2); try assumption; [lia|eapply clear_tail; eauto..|].
        exists ("" :: m). split; [now apply reads_joined|]. constructor; [apply empty_unlike|exact M2].
      * destruct (IH l0) with (ws := ws) (l1 := l0') (us := ws0) (l2 := l0'') as (m & M1 & M2); try assumption; [lia|eapply clear_tail; eauto..|].
        exists ("" :: m). split; [now apply reads_equals|]. constructor; [apply empty_unlike|exact M2].
      * destruct l0 as [|w0 l0]; [inversion H|]. pose proof (C2 [] w0 l0 eq_refl) as Hw0.
        assert (E : w0 = w /\ reads i l0 ws l3).
        { apply (reads_skip_inv i [w0]) in H as (l4 & El & H); [|intros y [<-|[]]; exact Hw0]. cbn [app] in El. injection El as -> ->. auto. }
        destruct E as [-> E]. cbn [List.length] in Hl.
        destruct (IH l0) with (ws := ws) (l1 := l3) (us := ws0) (l2 := l0'') as (m & M1 & M2); try assumption; [lia|do 2 eapply clear_tail; eauto..|].
        exists ("" :: "" :: m). split; [now apply reads_separate|]. repeat (constructor; [apply empty_unlike|]). exact M2.
    + apply reads_head_empty in H2 as (l3 & -> & H2).
      destruct (IH l0) with (ws := ws0) (l1 := l0') (us := us) (l2 := l3) as (m & M1 & M2); try assumption; [lia|eapply clear_tail; eauto..|].
      exists ((dashed i +s+ w) :: m). split; [|now apply reads_joined]. constructor; [|exact M1]. destruct Hs as [c ->]. apply (like_other (IdShort c)); auto. apply dashed_app_short.
    + apply reads_head_empty in H2 as (l3 & -> & H2).
      destruct (IH l0) with (ws := ws0) (l1 := l0') (us := us) (l2 := l3) as (m & M1 & M2); try assumption; [lia|eapply clear_tail; eauto..|].
      exists ((dashed i +s+ "=" +s+ w) :: m). split; [|now apply reads_equals]. constructor; [|exact M1]. apply (like_other i); auto. apply dashed_app_equals.
    + apply reads_head_empty in H2 as (l3 & -> & H2). apply reads_head_empty in H2 as (l4 & -> & H2). cbn [List.length] in Hl.
      destruct (IH l0) with (ws := ws0) (l1 := l0') (us := us) (l2 := l4) as (m & M1 & M2); try assumption; [lia|do 2 eapply clear_tail; eauto..|].
      exists (dashed i :: w :: m). split; [|now apply reads_separate]. constructor; [apply (like_other i); auto; apply dashed_like|]. constructor; [exact (C1 [] w l0 eq_refl)|exact M1].
Qed.

(** names of two options *)
Definition strangers (ids js : list ident) (l : list string) : Prop :=
  (forall i, In i ids -> good_ident i = true) /\ (forall j, In j js -> good_ident j = true) /\
  forall i j, In i ids -> In j js -> i <> j /\ clear i j l /\ clear j i l.

Lemma strangers_thinner ids js l l' : thinner l l' -> strangers ids js l -> strangers ids js l'.
Proof. intros Ht (A & B & C). split; [exact A|]. split; [exact B|]. intros i j Hi Hj. destruct (C i j Hi Hj) as (D & E & F). eauto using clear_thinner. Qed.

Lemma reads_past i js : forall l ws l1 wss l2, strangers [i] js l -> reads i l ws l1 -> reads_each js l1 wss l2 ->
  exists m, reads_each js l wss m /\ reads i m ws l2.
Proof.
  induction js as [|j js IH]; intros l ws l1 wss l2 Hs H1 H2; inversion H2 as [|? ? ? us l3 uss ? Hu H3]; subst.
  - exists l. split; [constructor|exact H1].
  - destruct (proj2 (proj2 Hs) i j) as (Hn & C1 & C2); [now left..|].
    destruct (reads_commute i j) with (n := List.length l) (l := l) (ws := ws) (l1 := l1) (us := us) (l2 := l3) as (m & M1 & M2); auto;
      [apply (proj1 Hs); now left|apply (proj1 (proj2 Hs)); now left|].
    destruct (IH m ws l3 uss l2) as (m2 & N1 & N2); auto.
    { eapply strangers_thinner; [eapply reads_thinner; exact M1|]. destruct Hs as (A & B & C). split; [exact A|]. split; [intros k Hk; apply B; now right|]. intros a b Ha Hb. apply C; [exact Ha|now right]. }
    exists m2. split; [econstructor; eauto|exact N2].
Qed.

Lemma each_commute ids js : forall l wss l1 uss l2, strangers ids js l -> reads_each ids l wss l1 -> reads_each js l1 uss l2 ->
  exists m, reads_each js l uss m /\ reads_each ids m wss l2.
Proof.
  induction ids as [|i ids IH]; intros l wss l1 uss l2 Hs H1 H2; inversion H1 as [|? ? ? ws l3 wss0 ? Hw H3]; subst.
  - exists l2. split; [exact H2|constructor].
  - destruct (IH l3 wss0 l1 uss l2) as (m & M1 & M2); auto.
    { eapply strangers_thinner; [eapply reads_thinner; exact Hw|]. destruct Hs as (A & B & C). split; [intros k Hk; apply A; now right|]. split; [exact B|]. intros a b Ha Hb. apply C; [now right|exact Hb]. }
    destruct (reads_past i js l ws l3 uss m) as (m2 & N1 & N2); auto.
    { destruct Hs as (A & B & C). split; [intros k [<-|[]]; apply A; now left|]. split; [exact B|]. intros a b [<-|[]] Hb. apply C; [now left|exact Hb]. }
    exists m2. split; [exact N1|econstructor; eauto].
Qed.

(** ** Options in another order *)

Record fit (ds : list decl) : Prop := {
  fit_bound : NoDup (map bound_addr ds);
  fit_pure : validators_pure ds;
  fit_good : forall i, In i (flat_map decl_idents ds) -> good_ident i = true;
  fit_names : NoDup (flat_map decl_idents ds) }.

Lemma fit_perm ds ds' : Permutation ds ds' -> fit ds -> fit ds'.
Proof.
  intros Hp [A B C D]. constructor.
  - eapply Permutation_NoDup; [apply Permutation_map, Hp|exact A].
  - intros x t c H. eapply B. eapply Permutation_in; [apply Permutation_sym, Hp|exact H].
  - intros i Hi. apply C. eapply Permutation_in; [apply flat_map_perm, Permutation_sym, Hp|exact Hi].
  - eapply Permutation_NoDup; [apply flat_map_perm, Hp|exact D].
Qed.
Lemma fit_tail d ds : fit (d :: ds) -> fit ds.
Proof.
  intros [A B C D]. constructor.
  - now inversion A.
  - intros x t c H. eapply B. right. exact H.
  - intros i Hi. apply C. cbn [flat_map]. apply in_app_iff. now right.
  - cbn [flat_map] in D. induction (decl_idents d) as [|i l IH]; [exact D|]. cbn [app] in D. inversion D; subst. now apply IH.
Qed.
Lemma apart_perm ds ds' l : Permutation ds ds' -> apart ds l -> apart ds' l.
Proof. intros Hp H d d' i j p w q Hd Hd'. apply (H d d' i j p w q); eapply Permutation_in; try apply Permutation_sym; eauto. Qed.
Lemma apart_tail d ds l : apart (d :: ds) l -> apart ds l.
Proof. intros H e e' i j p w q He He'. apply (H e e' i j p w q); now right. Qed.

Lemma becomes_swap x1 v1 x2 v2 vs vs1 vs2 : x1 <> x2 -> becomes x1 v1 vs vs1 -> becomes x2 v2 vs1 vs2 ->
  becomes x2 v2 vs (set_var vs x2 v2) /\ becomes x1 v1 (set_var vs x2 v2) vs2.
Proof.
  intros Hn [A1 A2] [B1 B2]. split; [apply becomes_set|]. destruct (becomes_set x2 v2 vs) as [S1 S2]. split.
  - rewrite B2 by exact Hn. exact A1.
  - intros y Hy. destruct (Nat.eq_dec y x2) as [->|Hx]; [congruence|]. now rewrite B2, A2, S2.
Qed.

Section build.
Context (ndebug : bool).

Lemma options_swap d1 d2 ds l vs f l' vs' f' : fit (d1 :: d2 :: ds) -> apart (d1 :: d2 :: ds) l ->
  options_read ndebug (d1 :: d2 :: ds) l vs f l' vs' f' -> options_read ndebug (d2 :: d1 :: ds) l vs f l' vs' f'.
Proof.
  intros Hfit Ha H. inversion H as [|d0 ds0 ? ? ? ? ? ? Hd H1|x1 t1 c1 ds0 ? ? ? wss1 l1 v1 vs1 f1 ? ? ? R1 Q1 V1 B1 F1 H1]; subst.
  - inversion H1 as [|d0 ds0 ? ? ? ? ? ? Hd2 H2|x2 t2 c2 ds0 ? ? ? wss2 l2 v2 vs2 f2 ? ? ? R2 Q2 V2 B2 F2 H2]; subst.
    + apply options_skip; [exact Hd2|]. now apply options_skip.
    + eapply options_one; eauto. now apply options_skip.
  - inversion H1 as [|d0 ds0 ? ? ? ? ? ? Hd2 H2|x2 t2 c2 ds0 ? ? ? wss2 l2 v2 vs2 f2 ? ? ? R2 Q2 V2 B2 F2 H2]; subst.
    + apply options_skip; [exact Hd2|]. eapply options_one; eauto.
    + assert (Hx : x1 <> x2). { pose proof (fit_bound _ Hfit) as Hb. cbn in Hb. inversion Hb as [|? ? Hn _]; subst. intros ->. apply Hn. now left. }
      assert (E1 : f1 = f). { destruct (List.concat wss1); [exact F1|]. pose proof (fit_pure _ Hfit x1 t1 c1 (or_introl eq_refl) f v1) as E. rewrite F1 in E. exact E. }
      assert (E2 : f2 = f). { subst f1. destruct (List.concat wss2); [exact F2|]. pose proof (fit_pure _ Hfit x2 t2 c2 (or_intror (or_introl eq_refl)) f v2) as E. rewrite F2 in E. exact E. }
      subst f1 f2.
      destruct (each_commute (config_idents c1) (config_idents c2) l wss1 l1 wss2 l2) as (m & M1 & M2); auto.
      { pose proof (fit_good _ Hfit) as G. pose proof (fit_names _ Hfit) as N.
        assert (Ed : forall x t c, decl_idents (DOption x t c) = config_idents c) by (intros x t c; unfold decl_idents; cbn [option_idents flag_idents]; apply app_nil_r).
        cbn [flat_map] in G, N. rewrite !Ed in N. setoid_rewrite Ed in G.
        split; [intros i Hi; apply G; apply in_app_iff; now left|]. split; [intros j Hj; apply G; apply in_app_iff; right; apply in_app_iff; now left|].
        intros i j Hi Hj. split.
        - intros ->. revert N Hi Hj. clear. intros N Hi Hj. induction (config_idents c1) as [|k ks IH]; [destruct Hi|]. cbn [app] in N. inversion N as [|? ? Hk N']; subst.
          destruct Hi as [->|Hi]; [|now apply IH]. apply Hk. apply in_app_iff. right. apply in_app_iff. now left.
        - split; intros p w q E.
          + apply (Ha (DOption x1 t1 c1) (DOption x2 t2 c2) i j p w q); [now left|right; now left|exact Hx|exact Hi|exact Hj|exact E].
          + apply (Ha (DOption x2 t2 c2) (DOption x1 t1 c1) j i p w q); [right; now left|now left|cbn; congruence|exact Hj|exact Hi|exact E]. }
      destruct (becomes_swap _ _ _ _ _ _ _ Hx B1 B2) as [B3 B4].
      assert (Ev2 : vs1 x2 = vs x2) by (apply (proj2 B1); congruence). rewrite Ev2 in V2.
      assert (Ev1 : set_var vs x2 v2 x1 = vs x1) by (apply (proj2 B3); exact Hx).
      eapply options_one; [exact M1|exact Q2|exact V2|exact B3|exact F2|]. eapply options_one; [exact M2|exact Q1|rewrite Ev1; exact V1|exact B4|exact F1|exact H2].
Qed.

Lemma options_perm ds ds' : Permutation ds ds' -> fit ds -> forall l vs f l' vs' f', apart ds l ->
  options_read ndebug ds l vs f l' vs' f' -> options_read ndebug ds' l vs f l' vs' f'.
Proof.
  induction 1 as [|d ds ds' Hp IH|d1 d2 ds|ds ds1 ds' Hp1 IH1 Hp2 IH2]; intros Hfit l vs f l' vs' f' Ha H.
  - exact H.
  - inversion H as [|d0 ds0 ? ? ? ? ? ? Hd H1|x1 t1 c1 ds0 ? ? ? wss1 l1 v1 vs1 f1 ? ? ? R1 Q1 V1 B1 F1 H1]; subst.
    + apply options_skip; [exact Hd|]. apply IH; [now apply fit_tail in Hfit|now apply apart_tail in Ha|exact H1].
    + eapply options_one; eauto. apply IH; [now apply fit_tail in Hfit| |exact H1].
      eapply apart_thinner; [eapply each_thinner; exact R1|now apply apart_tail in Ha].
  - now apply options_swap.
  - apply IH2; [now apply (fit_perm ds)|now apply (apart_perm ds)|]. now apply IH1.
Qed.

Lemma each_app ids js : forall l wss l1 uss l2, reads_each ids l wss l1 -> reads_each js l1 uss l2 -> reads_each (ids ++ js) l (wss ++ uss) l2.
Proof. intros l wss l1 uss l2 H. induction H; intros G; [exact G|]. cbn [app]. econstructor; eauto. Qed.
Lemma options_each ds l vs f l' vs' f' : options_read ndebug ds l vs f l' vs' f' -> exists wss, reads_each (flat_map option_idents ds) l wss l'.
Proof.
  induction 1 as [l vs vs' f He|d ds l vs f l' vs' f' Hd H [wss IH]|x t c ds l vs f wss1 l1 v vs1 f1 l' vs' f' R Q V B F H [wss IH]].
  - exists []. constructor.
  - exists wss. destruct d; [exfalso; eapply Hd; reflexivity|exact IH|exact IH].
  - exists (wss1 ++ wss). cbn [flat_map option_idents]. eapply each_app; eauto.
Qed.
End build.

(** ** Flags *)

Fixpoint del (c : chr) (s : string) : string :=
  match s with EmptyString => EmptyString | String d s' => if Ascii.eqb c d then s' else String d (del c s') end.
Definition cut1 (c : chr) (a : string) : string := if String.eqb (del c a) "-" then "" else del c a.
Definition pres (c : chr) (l : list string) : bool := existsb (looks_like_cluster_of c) l.
Fixpoint tkl (c : chr) (l : list string) : list string :=
  match l with [] => [] | a :: l' => if looks_like_cluster_of c a then cut1 c a :: l' else a :: tkl c l' end.
Definition has (w : string) (l : list string) : bool := existsb (String.eqb w) l.
Fixpoint bll (w : string) (l : list string) : list string :=
  match l with [] => [] | a :: l' => if String.eqb w a then "" :: l' else a :: bll w l' end.
Definition long_of (c : config) : string := "--" +s+ c_long c.
Definition flag_fun (c : config) (b r : list string) : list string * list string * bool :=
  if pres (c_short c) b then (tkl (c_short c) b, r, true)
  else if pres (c_short c) r then (b, tkl (c_short c) r, true)
  else (bll (long_of c) b, r, has (long_of c) b).

Lemma del_first c p q : ~ In c (chars p) -> del c (p +s+ String c q) = p +s+ q.
Proof.
  induction p as [|d p IH]; intros H; cbn [append del]; [now rewrite Ascii.eqb_refl|].
  cbn [chars] in H. destruct (Ascii.eqb_spec c d) as [->|_]; [exfalso; apply H; now left|]. rewrite IH; [reflexivity|]. intros K. apply H. now right.
Qed.
Lemma pres_no c l : pres c l = false <-> no_cluster c l.
Proof.
  unfold pres, no_cluster. induction l as [|a l IH]; cbn [existsb]; [split; [intros _ ? []|reflexivity]|]. rewrite orb_false_iff, IH. split.
  - intros [A B] x [<-|Hx]; auto.
  - intros H. split; [apply H; now left|]. intros x Hx. apply H. now right.
Qed.
Lemma takes_tkl c l l' : takes_short c l l' -> pres c l = true /\ l' = tkl c l.
Proof.
  induction 1 as [p q l Hl Hp|a l l' Ha H [I1 I2]]; cbn [pres existsb tkl].
  - rewrite Hl. split; [reflexivity|]. unfold cut1. now rewrite del_first.
  - unfold pres in I1. rewrite Ha, I1. split; [reflexivity|]. now f_equal.
Qed.
Lemma has_in w l : has w l = false <-> ~ In w l.
Proof.
  unfold has. induction l as [|a l IH]; cbn [existsb In]; [tauto|]. rewrite orb_false_iff, IH. destruct (String.eqb_spec w a) as [->|Hn].
  - split; [intros [? _]; discriminate|]. intros H. exfalso. apply H. now left.
  - intuition congruence.
Qed.
Lemma bll_here w b1 b2 : ~ In w b1 -> bll w (b1 ++ w :: b2) = b1 ++ "" :: b2.
Proof.
  induction b1 as [|a b1 IH]; intros H; cbn [app bll]; [now rewrite String.eqb_refl|]. destruct (String.eqb_spec w a) as [->|_]; [exfalso; apply H; now left|].
  rewrite IH; [reflexivity|]. intros K. apply H. now right.
Qed.
Lemma bll_none w l : has w l = false -> bll w l = l.
Proof. unfold has. induction l as [|a l IH]; cbn [existsb bll]; [reflexivity|]. intros H. apply orb_false_iff in H as [-> H]. now rewrite IH. Qed.

Lemma flag_read_fun c b r b' r' g : flag_read c b r b' r' g -> flag_fun c b r = (b', r', g).
Proof.
  unfold flag_fun. intros H. inversion H as [b0 r0 b1 Ht|b0 r0 r1 Hn Ht|b1 b2 r0 Hn Hn' Hi|b0 r0 Hn Hn' Hi]; subst.
  - apply takes_tkl in Ht as [-> ->]. reflexivity.
  - apply pres_no in Hn. apply takes_tkl in Ht as [Ht ->]. now rewrite Hn, Ht.
  - apply pres_no in Hn. apply pres_no in Hn'. fold (long_of c) in *. rewrite Hn, Hn', bll_here by exact Hi. f_equal.
    destruct (has (long_of c) (b1 ++ long_of c :: b2)) eqn:E; [reflexivity|]. apply has_in in E. exfalso. apply E. apply in_app_iff. right. now left.
  - apply pres_no in Hn. apply pres_no in Hn'. fold (long_of c) in *. apply has_in in Hi. rewrite Hn, Hn', Hi, bll_none by exact Hi. reflexivity.
Qed.
Lemma fun_flag_read c b r b' r' g : c_short c <> "-"%char -> flag_fun c b r = (b', r', g) -> flag_read c b r b' r' g.
Proof.
  intros Hc H. destruct (flag_exists c b r Hc) as (b1 & r1 & g1 & H1). pose proof (flag_read_fun _ _ _ _ _ _ H1) as E. rewrite E in H. injection H as <- <- <-. exact H1.
Qed.

(** *** one argument *)

Lemma del_other c d s : c <> d -> (In d (chars (del c s)) <-> In d (chars s)).
Proof.
  intros Hn. induction s as [|e s IH]; cbn [del chars]; [reflexivity|]. destruct (Ascii.eqb_spec c e) as [<-|He]; cbn [chars In].
  - split; [now right|]. intros [E|E]; [contradiction|exact E].
  - change (chars (String e (del c s))) with (e :: chars (del c s)). cbn [In]. rewrite IH. reflexivity.
Qed.
Lemma del_sub c s x : In x (chars (del c s)) -> In x (chars s).
Proof.
  induction s as [|e s IH]; cbn [del]; [auto|]. destruct (Ascii.eqb c e); cbn; [auto|]. intros [->|H]; [now left|right; auto].
Qed.
Lemma del_comm c d s : del c (del d s) = del d (del c s).
Proof.
  induction s as [|e s IH]; cbn [del]; [reflexivity|]. destruct (Ascii.eqb_spec d e) as [->|Hd], (Ascii.eqb_spec c e) as [->|Hc]; cbn [del]; rewrite ?Ascii.eqb_refl; auto.
  rewrite (proj2 (Ascii.eqb_neq d e) Hd), (proj2 (Ascii.eqb_neq c e) Hc). now f_equal.
Qed.

Lemma cluster_form c a : looks_like_cluster_of c a = true <-> exists s, a = String "-" s /\ begins "-" s = false /\ In c (chars s).
Proof.
  split.
  - intros H. destruct a as [|d [|e a]]; try discriminate. cbn [looks_like_cluster_of] in H. apply andb_true_iff in H as [H H3]. apply andb_true_iff in H as [H1 H2].
    apply Ascii.eqb_eq in H1 as ->. exists (String e a). split; [reflexivity|]. split; [|now apply scontains_In].
    cbn [begins]. apply negb_true_iff in H2. now rewrite Ascii.eqb_sym.
  - intros (s & -> & H & Hc). destruct s as [|e a]; [destruct Hc|]. cbn [looks_like_cluster_of begins] in *. rewrite Ascii.eqb_refl, Ascii.eqb_sym, H. now apply scontains_In.
Qed.

Lemma no_dash_begins s : ~ In "-"%char (chars s) -> begins "-" s = false.
Proof. destruct s as [|e s]; [reflexivity|]. intros H. cbn [begins]. apply Ascii.eqb_neq. intros <-. apply H. now left. Qed.

(** what is left of a neat cluster *)
Lemma cut1_form c s : c <> "-"%char -> cut1 c (String "-" s) = (if String.eqb (del c s) "" then "" else String "-" (del c s)).
Proof.
  intros Hc. unfold cut1. cbn [del]. rewrite (proj2 (Ascii.eqb_neq c "-") Hc). destruct (del c s) as [|e u]; [reflexivity|]. reflexivity.
Qed.

Lemma cut1_cluster c d a : c <> "-"%char -> c <> d -> neat a -> looks_like_cluster_of c a = true ->
  looks_like_cluster_of d (cut1 c a) = looks_like_cluster_of d a.
Proof.
  intros Hc Hn Ha H. apply cluster_form in H as (s & -> & Hb & Hi). destruct (Ha s eq_refl Hb) as [Hd _]. rewrite cut1_form by exact Hc.
  apply eq_true_iff_eq. rewrite !cluster_form. destruct (String.eqb_spec (del c s) "") as [E|E].
  - split; [intros (u & K & _); discriminate|]. intros (u & K & _ & Hu). injection K as <-. apply (del_other c d s Hn) in Hu. rewrite E in Hu. destruct Hu.
  - split; intros (u & K & Hu & Hv); injection K as <-.
    + exists s. split; [reflexivity|]. split; [exact Hb|]. now apply (del_other c d s Hn).
    + exists (del c s). split; [reflexivity|]. split; [|now apply del_other]. apply no_dash_begins. intros K. apply del_sub in K. contradiction.
Qed.
Lemma cut1_neat c a : c <> "-"%char -> neat a -> looks_like_cluster_of c a = true -> neat (cut1 c a).
Proof.
  intros Hc Ha H. apply cluster_form in H as (s & -> & Hb & Hi). destruct (Ha s eq_refl Hb) as [Hd Hz]. rewrite cut1_form by exact Hc.
  destruct (String.eqb_spec (del c s) "") as [E|E]; intros r Er Hr; [discriminate|]. injection Er as <-. split; intros K; apply del_sub in K; contradiction.
Qed.
Lemma cut1_long c a w : c <> "-"%char -> neat a -> looks_like_cluster_of c a = true -> cut1 c a <> "--" +s+ w.
Proof.
  intros Hc Ha H. apply cluster_form in H as (s & -> & Hb & Hi). destruct (Ha s eq_refl Hb) as [Hd Hz]. rewrite cut1_form by exact Hc.
  destruct (String.eqb_spec (del c s) "") as [E|E]; [discriminate|]. cbn [append]. intros K. injection K as K. apply Hd. apply (del_sub c). rewrite K. now left.
Qed.
Lemma long_unlike c w : looks_like_cluster_of c ("--" +s+ w) = false.
Proof. reflexivity. Qed.
Lemma cut1_comm c d a : c <> "-"%char -> d <> "-"%char -> c <> d -> neat a -> looks_like_cluster_of c a = true -> looks_like_cluster_of d a = true ->
  cut1 c (cut1 d a) = cut1 d (cut1 c a).
Proof.
  intros Hc Hd Hn Ha H1 H2. apply cluster_form in H1 as (s & -> & Hb & Hi). apply cluster_form in H2 as (s2 & E & _ & Hi2). injection E as <-.
  rewrite !cut1_form by assumption. destruct (String.eqb_spec (del d s) "") as [E|_].
  { exfalso. apply (del_other d c s) in Hi; [|congruence]. rewrite E in Hi. destruct Hi. }
  destruct (String.eqb_spec (del c s) "") as [E|_].
  { exfalso. apply (del_other c d s) in Hi2; [|congruence]. rewrite E in Hi2. destruct Hi2. }
  now rewrite !cut1_form, del_comm by assumption.
Qed.
Lemma neat_nul l : (forall a, In a l -> neat a) -> pres "000"%char l = false.
Proof.
  intros H. apply pres_no. intros a Ha. apply not_true_iff_false. intros K. apply cluster_form in K as (s & -> & Hb & Hi). now apply (H _ Ha s eq_refl Hb).
Qed.

(** *** the list *)

Lemma tkl_none c l : pres c l = false -> tkl c l = l.
Proof. unfold pres. induction l as [|a l IH]; cbn [existsb tkl]; [reflexivity|]. intros H. apply orb_false_iff in H as [-> H]. now rewrite IH. Qed.

Definition all_neat (l : list string) : Prop := forall a, In a l -> neat a.
Lemma all_neat_cons a l : all_neat (a :: l) -> neat a /\ all_neat l.
Proof. intros H. split; [apply H; now left|intros x Hx; apply H; now right]. Qed.
Lemma neat_nothing : neat "".
Proof. intros r Hr. discriminate. Qed.
Lemma tkl_neat c l : c <> "-"%char -> all_neat l -> all_neat (tkl c l).
Proof.
  intros Hc. induction l as [|a l IH]; intros H; cbn [tkl]; [exact H|]. apply all_neat_cons in H as [Ha H].
  destruct (looks_like_cluster_of c a) eqn:E; intros x [<-|Hx]; auto; [now apply cut1_neat|now apply IH].
Qed.
Lemma bll_neat w l : all_neat l -> all_neat (bll w l).
Proof.
  induction l as [|a l IH]; intros H; cbn [bll]; [exact H|]. apply all_neat_cons in H as [Ha H].
  destruct (String.eqb w a); intros x [<-|Hx]; auto; [apply neat_nothing|now apply IH].
Qed.
Lemma tkl_pres c d l : c <> "-"%char -> c <> d \/ pres c l = false -> all_neat l -> pres d (tkl c l) = pres d l.
Proof.
  intros Hc [Hn|Hn] H; [|now rewrite tkl_none]. unfold pres. induction l as [|a l IH]; cbn [tkl]; [reflexivity|]. apply all_neat_cons in H as [Ha H].
  destruct (looks_like_cluster_of c a) eqn:E; cbn [existsb]; [now rewrite cut1_cluster|]. now rewrite IH.
Qed.
Lemma bll_pres w d l : pres d (bll ("--" +s+ w) l) = pres d l.
Proof.
  unfold pres. induction l as [|a l IH]; cbn [bll]; [reflexivity|]. destruct (String.eqb_spec ("--" +s+ w) a) as [<-|Hn]; cbn [existsb]; [now rewrite long_unlike|now rewrite IH].
Qed.
Lemma tkl_has c w l : c <> "-"%char -> all_neat l -> has ("--" +s+ w) (tkl c l) = has ("--" +s+ w) l.
Proof.
  intros Hc. unfold has. induction l as [|a l IH]; intros H; cbn [tkl]; [reflexivity|]. apply all_neat_cons in H as [Ha H].
  destruct (looks_like_cluster_of c a) eqn:E; cbn [existsb]; [|now rewrite IH]. f_equal.
  rewrite (proj2 (String.eqb_neq _ (cut1 c a))) by (intros K; symmetry in K; revert K; now apply cut1_long).
  symmetry. apply String.eqb_neq. intros <-. rewrite long_unlike in E. discriminate.
Qed.
Lemma bll_has w u l : ("--" +s+ w <> "--" +s+ u) \/ has ("--" +s+ w) l = false -> has ("--" +s+ u) (bll ("--" +s+ w) l) = has ("--" +s+ u) l.
Proof.
  intros [Hn|Hn]; [|now rewrite bll_none]. unfold has. induction l as [|a l IH]; cbn [bll]; [reflexivity|].
  destruct (String.eqb_spec ("--" +s+ w) a) as [<-|Ha]; cbn [existsb]; [|now rewrite IH]. f_equal. rewrite (proj2 (String.eqb_neq _ ("--" +s+ w))) by congruence. reflexivity.
Qed.
Lemma tkl_comm c d l : c <> "-"%char -> d <> "-"%char -> all_neat l -> tkl c (tkl d l) = tkl d (tkl c l).
Proof.
  intros Hc Hd. destruct (Ascii.ascii_dec c d) as [->|Hn]; [reflexivity|]. induction l as [|a l IH]; intros H; [reflexivity|]. apply all_neat_cons in H as [Ha H].
  cbn [tkl]. destruct (looks_like_cluster_of d a) eqn:E1, (looks_like_cluster_of c a) eqn:E2; cbn [tkl]; rewrite ?E1, ?E2, ?cut1_cluster, ?E1, ?E2 by (auto; congruence); try reflexivity.
  - now rewrite cut1_comm by auto.
  - now rewrite IH.
Qed.
Lemma tkl_bll c w l : c <> "-"%char -> all_neat l -> tkl c (bll ("--" +s+ w) l) = bll ("--" +s+ w) (tkl c l).
Proof.
  intros Hc. induction l as [|a l IH]; intros H; [reflexivity|]. apply all_neat_cons in H as [Ha H]. cbn [tkl bll].
  destruct (String.eqb_spec ("--" +s+ w) a) as [<-|Hn].
  - rewrite long_unlike. cbn [tkl bll]. now rewrite String.eqb_refl.
  - destruct (looks_like_cluster_of c a) eqn:E; cbn [tkl bll]; rewrite E.
    + rewrite (proj2 (String.eqb_neq _ (cut1 c a))) by (intros K; symmetry in K; revert K; now apply cut1_long). reflexivity.
    + rewrite (proj2 (String.eqb_neq _ a) Hn). now rewrite IH.
Qed.
Lemma bll_comm w u l : bll w (bll u l) = bll u (bll w l) \/ w = "" \/ u = "".
Proof.
  destruct (string_dec w "") as [->|Hw]; [auto|]. destruct (string_dec u "") as [->|Hu]; [auto|]. left.
  destruct (string_dec w u) as [->|Hn]; [reflexivity|]. induction l as [|a l IH]; [reflexivity|]. cbn [bll].
  destruct (String.eqb_spec u a) as [<-|Ha]; [|destruct (String.eqb_spec w a) as [<-|Hb]].
  - rewrite (proj2 (String.eqb_neq w u) Hn). cbn [bll]. rewrite String.eqb_refl, (proj2 (String.eqb_neq w "") Hw). reflexivity.
  - cbn [bll]. rewrite String.eqb_refl, (proj2 (String.eqb_neq u "") Hu). reflexivity.
  - cbn [bll]. rewrite (proj2 (String.eqb_neq u a) Ha), (proj2 (String.eqb_neq w a) Hb). now rewrite IH.
Qed.
Lemma bll_long_comm w u l : bll ("--" +s+ w) (bll ("--" +s+ u) l) = bll ("--" +s+ u) (bll ("--" +s+ w) l).
Proof. destruct (bll_comm ("--" +s+ w) ("--" +s+ u) l) as [H|[H|H]]; [exact H|discriminate..]. Qed.

(** *** two flags *)

Definition distinct_flags (c1 c2 : config) : Prop :=
  (c_short c1 <> c_short c2 \/ c_short c1 = "000"%char /\ c_short c2 = "000"%char) /\
  (c_long c1 <> c_long c2 \/ c_long c1 = "" /\ c_long c2 = "").

Lemma flag_commute c1 c2 b r : c_short c1 <> "-"%char -> c_short c2 <> "-"%char -> distinct_flags c1 c2 ->
  all_neat b -> all_neat r -> ~ In "--" b ->
  let '(b1, r1, g1) := flag_fun c1 b r in let '(b2, r2, g2) := flag_fun c2 b1 r1 in
  let '(m, n, h2) := flag_fun c2 b r in let '(m2, n2, h1) := flag_fun c1 m n in m2 = b2 /\ n2 = r2 /\ h1 = g1 /\ h2 = g2.
Proof.
  intros H1 H2 [Hs Hl] Hb Hr He.
  assert (P : forall l, all_neat l -> pres (c_short c2) (tkl (c_short c1) l) = pres (c_short c2) l).
  { intros l K. apply tkl_pres; auto. destruct Hs as [Hs|[-> _]]; [now left|right; now apply neat_nul]. }
  assert (P' : forall l, all_neat l -> pres (c_short c1) (tkl (c_short c2) l) = pres (c_short c1) l).
  { intros l K. apply tkl_pres; auto. destruct Hs as [Hs|[_ ->]]; [left; congruence|right; now apply neat_nul]. }
  assert (Q : has (long_of c2) (bll (long_of c1) b) = has (long_of c2) b).
  { unfold long_of. apply bll_has. destruct Hl as [Hl|[-> _]]; [left|right; apply has_in; exact He]. cbn [append]. congruence. }
  assert (Q' : has (long_of c1) (bll (long_of c2) b) = has (long_of c1) b).
  { unfold long_of. apply bll_has. destruct Hl as [Hl|[_ ->]]; [left|right; apply has_in; exact He]. cbn [append]. congruence. }
  unfold flag_fun.
  destruct (pres (c_short c1) b) eqn:A1, (pres (c_short c2) b) eqn:A2, (pres (c_short c1) r) eqn:A3, (pres (c_short c2) r) eqn:A4; cbv beta iota zeta;
    unfold long_of in *; rewrite ?P, ?P', ?bll_pres, ?A1, ?A2, ?A3, ?A4, ?tkl_has, ?tkl_bll, ?Q, ?Q' by assumption; cbv beta iota zeta;
    rewrite ?P, ?P', ?bll_pres, ?A1, ?A2, ?A3, ?A4, ?tkl_has, ?tkl_bll, ?Q, ?Q' by assumption; cbv beta iota zeta;
    auto 10 using tkl_comm, bll_long_comm.
Qed.

Lemma flag_fun_keeps c b r b' r' g : c_short c <> "-"%char -> flag_fun c b r = (b', r', g) -> all_neat b -> all_neat r -> ~ In "--" b ->
  all_neat b' /\ all_neat r' /\ ~ In "--" b'.
Proof.
  intros Hc H Hb Hr He. unfold flag_fun in H. destruct (pres (c_short c) b); [|destruct (pres (c_short c) r)]; injection H as <- <- <-.
  - split; [now apply tkl_neat|]. split; [exact Hr|]. apply has_in. change "--" with ("--" +s+ ""). rewrite tkl_has by assumption. now apply has_in.
  - split; [exact Hb|]. split; [now apply tkl_neat|exact He].
  - split; [now apply bll_neat|]. split; [exact Hr|]. intros K. apply He. revert K. clear. induction b as [|a b IH]; cbn [bll]; [auto|].
    destruct (String.eqb (long_of c) a); cbn [In]; [intros [K|K]; [discriminate|now right]|intros [K|K]; [now left|right; auto]].
Qed.

(** ** Flags in another order *)

Definition flags_fit (ds : list decl) : Prop := flags_ok ds /\ NoDup (map bound_addr ds) /\ NoDup (flat_map decl_idents ds).
Lemma flags_fit_perm ds ds' : Permutation ds ds' -> flags_fit ds -> flags_fit ds'.
Proof.
  intros Hp (A & B & C). split; [|split].
  - intros x c H. apply (A x c). eapply Permutation_in; [apply Permutation_sym, Hp|exact H].
  - eapply Permutation_NoDup; [apply Permutation_map, Hp|exact B].
  - eapply Permutation_NoDup; [apply flat_map_perm, Hp|exact C].
Qed.
Lemma flags_fit_tail d ds : flags_fit (d :: ds) -> flags_fit ds.
Proof.
  intros (A & B & C). split; [intros x c H; apply (A x c); now right|]. split; [now inversion B|].
  cbn [flat_map] in C. induction (decl_idents d) as [|i l IH]; [exact C|]. cbn [app] in C. inversion C; subst. now apply IH.
Qed.

Lemma fit_distinct x1 c1 x2 c2 ds : flags_fit (DFlag x1 c1 :: DFlag x2 c2 :: ds) -> distinct_flags c1 c2.
Proof.
  intros (_ & _ & N). cbn [flat_map decl_idents option_idents flag_idents app] in N.
  assert (D : forall i, In i (config_idents c1) -> In i (config_idents c2) -> False).
  { intros i Hi Hj. unfold decl_idents in N. cbn [option_idents flag_idents app] in N. induction (config_idents c1) as [|k ks IH]; [destruct Hi|]. cbn [app] in N. inversion N as [|? ? Hk N']; subst.
    destruct Hi as [->|Hi]; [|now apply IH]. apply Hk. apply in_app_iff. right. apply in_app_iff. now left. }
  unfold config_idents in D. split.
  - destruct (Ascii.eqb_spec (c_short c1) (c_short c2)) as [E|E]; [right|now left]. destruct (Ascii.eqb_spec (c_short c2) nul) as [E2|E2].
    + rewrite E, E2. now split.
    + exfalso. rewrite E in D. rewrite (proj2 (Ascii.eqb_neq _ nul) E2) in D. apply (D (IdShort (c_short c2))); apply in_app_iff; left; now left.
  - destruct (string_dec (c_long c1) (c_long c2)) as [E|E]; [right|now left]. rewrite E in *. destruct (c_long c2) as [|a w] eqn:E2; [now split|]. exfalso.
    apply (D (IdLong (String a w))); apply in_app_iff; right; now left.
Qed.

Lemma flags_swap d1 d2 ds b r vs b' r' vs' : flags_fit (d1 :: d2 :: ds) -> all_neat b -> all_neat r -> ~ In "--" b ->
  flags_read (d1 :: d2 :: ds) b r vs b' r' vs' -> flags_read (d2 :: d1 :: ds) b r vs b' r' vs'.
Proof.
  intros Hfit Hb Hr He H. inversion H as [|d0 ds0 ? ? ? ? ? ? Hd H1|x1 c1 ds0 ? ? ? b1 r1 g1 vs1 ? ? ? R1 B1 H1]; subst.
  - inversion H1 as [|d0 ds0 ? ? ? ? ? ? Hd2 H2|x2 c2 ds0 ? ? ? b2 r2 g2 vs2 ? ? ? R2 B2 H2]; subst.
    + apply flags_skip; [exact Hd2|]. now apply flags_skip.
    + eapply flags_one; eauto. now apply flags_skip.
  - inversion H1 as [|d0 ds0 ? ? ? ? ? ? Hd2 H2|x2 c2 ds0 ? ? ? b2 r2 g2 vs2 ? ? ? R2 B2 H2]; subst.
    + apply flags_skip; [exact Hd2|]. eapply flags_one; eauto.
    + pose proof (fit_distinct _ _ _ _ _ Hfit) as Hdis. destruct Hfit as (Hok & Hbd & _).
      assert (Hx : x1 <> x2). { cbn in Hbd. inversion Hbd as [|? ? Hn _]; subst. intros ->. apply Hn. now left. }
      assert (K1 : c_short c1 <> "-"%char) by (apply (Hok x1); now left). assert (K2 : c_short c2 <> "-"%char) by (apply (Hok x2); right; now left).
      pose proof (flag_commute c1 c2 b r K1 K2 Hdis Hb Hr He) as C. apply flag_read_fun in R1. rewrite R1 in C. apply flag_read_fun in R2. rewrite R2 in C.
      destruct (flag_fun c2 b r) as [[m n] h2] eqn:E2. destruct (flag_fun c1 m n) as [[m2 n2] h1] eqn:E1. destruct C as (-> & -> & -> & ->).
      apply fun_flag_read in E1; [|exact K1]. apply fun_flag_read in E2; [|exact K2].
      destruct (becomes_swap _ _ _ _ _ _ _ Hx B1 B2) as [B3 B4].
      assert (Ev2 : vs1 x2 = vs x2) by (apply (proj2 B1); congruence). rewrite Ev2 in B3, B4.
      eapply flags_one; [exact E2|exact B3|]. eapply flags_one; [exact E1| |exact H2].
      match goal with |- becomes _ (if g1 then _ else VBool (was_true (?s x1))) _ _ => assert (Ev1 : s x1 = vs x1) by (apply (proj2 B3); exact Hx) end. rewrite Ev1. exact B4.
Qed.

Lemma flags_perm ds ds' : Permutation ds ds' -> flags_fit ds -> forall b r vs b' r' vs', all_neat b -> all_neat r -> ~ In "--" b ->
  flags_read ds b r vs b' r' vs' -> flags_read ds' b r vs b' r' vs'.
Proof.
  induction 1 as [|d ds ds' Hp IH|d1 d2 ds|ds ds1 ds' Hp1 IH1 Hp2 IH2]; intros Hfit b r vs b' r' vs' Hb Hr He H.
  - exact H.
  - inversion H as [|d0 ds0 ? ? ? ? ? ? Hd H1|x1 c1 ds0 ? ? ? b1 r1 g1 vs1 ? ? ? R1 B1 H1]; subst.
    + apply flags_skip; [exact Hd|]. apply IH; auto. now apply flags_fit_tail in Hfit.
    + eapply flags_one; eauto. assert (K1 : c_short c1 <> "-"%char) by (apply (proj1 Hfit x1); now left).
      apply flag_read_fun in R1. destruct (flag_fun_keeps _ _ _ _ _ _ K1 R1 Hb Hr He) as (N1 & N2 & N3). apply IH; auto. now apply flags_fit_tail in Hfit.
  - now apply flags_swap.
  - apply IH2; auto. now apply (flags_fit_perm ds).
Qed.

(** ** Words *)

Section whole.
Context (ndebug : bool).

Lemma words_filter ds ws vs f vs' f' : words_read ndebug ds ws vs f vs' f' <-> words_read ndebug (filter is_positional ds) ws vs f vs' f'.
Proof.
  split.
  - induction 1 as [vs vs' f He|d ds ws vs f vs' f' Hd H IH|x e c ds w ws vs f v vs1 f1 vs' f' Hm Hb Hv H IH|x e c ds ws vals vs f vs1 f1 vs' f' Hn Hm Hb Hv H IH]; cbn [filter is_positional].
    + now constructor.
    + destruct d; [exact IH|exact IH|exfalso; eapply Hd; reflexivity].
    + eapply words_one; eauto.
    + eapply words_list; eauto.
  - revert ws vs f; induction ds as [|d ds IH]; intros ws vs f H; cbn [filter] in H; [exact H|]. destruct d as [x t c|x c|x t c]; cbn [is_positional] in H.
    + apply words_skip; [discriminate|auto].
    + apply words_skip; [discriminate|auto].
    + inversion H; subst.
      * apply words_skip; [assumption|auto].
      * eapply words_one; eauto.
      * eapply words_list; eauto.
Qed.

Lemma understood_perm ds ds' args b r vs f vs' f' : fit ds -> flags_ok ds -> Permutation ds ds' -> filter is_positional ds = filter is_positional ds' ->
  cut args b r -> apart ds b -> (forall b1 vs1 f1, options_read ndebug ds b vs f b1 vs1 f1 -> all_neat (b1 ++ r)) ->
  understood ndebug ds args vs f vs' f' -> understood ndebug ds' args vs f vs' f'.
Proof.
  intros Hfit Hfl Hp Hpos Hcut Ha Hn (b0 & r0 & b1 & vs1 & f1 & b2 & r2 & vs2 & Hc & Ho & Hf & Hu & Hw).
  destruct (cut_unique args b r b0 r0 Hcut Hc) as [-> ->].
  assert (E : exists wss, reads_each (flat_map option_idents ds) b0 wss b1) by (eapply options_each; exact Ho). destruct E as [wss E].
  exists b0, r0, b1, vs1, f1, b2, r2, vs2. split; [exact Hc|]. split; [now apply (options_perm ndebug ds)|]. split.
  - apply (flags_perm ds); auto.
    + split; [exact Hfl|]. split; [apply (fit_bound _ Hfit)|apply (fit_names _ Hfit)].
    + intros a Hin. eapply Hn; [exact Ho|]. apply in_app_iff. now left.
    + intros a Hin. eapply Hn; [exact Ho|]. apply in_app_iff. now right.
    + intros K. apply (proj1 (proj2 Hc)). apply each_thinner in E. revert K. clear -E. induction E as [|a a' l l' Ha H IH]; [auto|]. intros [K|K]; [|right; auto].
      subst a'. destruct Ha as [<-|Ha]; [now left|discriminate].
  - split; [exact Hu|]. apply (proj2 (words_filter _ _ _ _ _ _)). rewrite <- Hpos. apply (proj1 (words_filter _ _ _ _ _ _)). exact Hw.
Qed.

Lemma wf_fit ds : wf_decls ds = true -> NoDup (map bound_addr ds) -> validators_pure ds -> fit ds.
Proof.
  intros H Hb Hv. unfold wf_decls in H. apply andb_true_iff in H as [H _]. apply andb_true_iff in H as [H1 H2]. rewrite forallb_forall in H1.
  constructor; auto. now apply nodup_idents_NoDup.
Qed.

Lemma any_order_lemma ds ds' args b r vs f : wf_decls ds = true -> elems_ok ds -> NoDup (map bound_addr ds) -> validators_pure ds ->
  Permutation ds ds' -> filter is_positional ds = filter is_positional ds' ->
  cut args b r -> apart ds b -> leaves_neat ds b r ->
  (snd (parse_args ndebug ds args vs f) = Ret tt <-> snd (parse_args ndebug ds' args vs f) = Ret tt) /\
  (snd (parse_args ndebug ds args vs f) = Ret tt ->
   (forall y, vars (fst (parse_args ndebug ds args vs f)) y = vars (fst (parse_args ndebug ds' args vs f)) y) /\
   fsys (fst (parse_args ndebug ds args vs f)) = fsys (fst (parse_args ndebug ds' args vs f))).
Proof.
  intros Hwf Hel Hb Hv Hp Hpos Hc Ha Hn. pose proof (wf_fit _ Hwf Hb Hv) as Hfit. pose proof (wf_flags_ok _ Hwf) as Hfl.
  assert (Hwf' : wf_decls ds' = true) by (eapply wf_decls_perm; eauto).
  assert (Hel' : elems_ok ds'). { intros t Ht. apply Hel. eapply Permutation_in; [apply flat_map_perm, Permutation_sym, Hp|exact Ht]. }
  assert (Hfit' : fit ds') by now apply (fit_perm ds).
  assert (N1 : forall b1 vs1 f1, options_read ndebug ds b vs f b1 vs1 f1 -> all_neat (b1 ++ r)).
  { intros b1 vs1 f1 O. apply options_each in O as [wss O]. exact (Hn wss b1 O). }
  assert (N2 : forall b1 vs1 f1, options_read ndebug ds' b vs f b1 vs1 f1 -> all_neat (b1 ++ r)).
  { intros b1 vs1 f1 O. apply (N1 b1 vs1 f1). apply (options_perm ndebug ds'); [now apply Permutation_sym|exact Hfit'|now apply (apart_perm ds)|exact O]. }
  assert (Fwd : snd (parse_args ndebug ds args vs f) = Ret tt -> exists s', parse_args ndebug ds' args vs f = (s', Ret tt) /\
     (forall y, vars s' y = vars (fst (parse_args ndebug ds args vs f)) y) /\ fsys s' = fsys (fst (parse_args ndebug ds args vs f))).
  { intros E. destruct (parse_args ndebug ds args vs f) as [s q] eqn:Es. cbn [snd fst] in *. subst q. apply (meaning_lemma ndebug ds'); auto.
    apply (understood_perm ds ds' args b r); auto. apply meaning_lemma; auto. exists s. auto. }
  split; [split|].
  - intros E. destruct (Fwd E) as (s' & -> & _). reflexivity.
  - intros E. destruct (parse_args ndebug ds' args vs f) as [s q] eqn:Es. cbn [snd] in E. subst q.
    assert (U : understood ndebug ds args vs f (vars s) (fsys s)).
    { apply (understood_perm ds' ds args b r); auto; [now apply wf_flags_ok|now apply Permutation_sym|now apply (apart_perm ds)|]. apply meaning_lemma; auto. exists s. auto. }
    apply meaning_lemma in U as (s2 & -> & _); auto.
  - intros E. destruct (Fwd E) as (s' & -> & V & F). cbn [fst]. split; [intros y; now rewrite V|congruence].
Qed.
End whole.
