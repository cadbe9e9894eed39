(** Every argument of an accepted vector is consumed. *)
From Verif Require Import Base StrLib Fs Values Validators FormatParse Invocation InvocationProofs ValuesSpec ScanSpec ScanProofs DiagnosisSpec DiagnosisProofs
  ReadingSpec ReadingProofs OrderProofs UnknownSpec.

Lemma dashed_nonempty i : dashed i <> "".
Proof. destruct i; discriminate. Qed.

Lemma may_cons ids x y l : may_be_value ids (x :: y :: l) <-> may_be_value ids (y :: l).
Proof.
  split.
  - intros (l0 & i & E & Hi). destruct l0 as [|z l0]; [discriminate|]. injection E as _ E. exists l0, i. auto.
  - intros (l0 & i & E & Hi). exists (x :: l0), i. rewrite E. auto.
Qed.
Lemma may_nil ids : ~ may_be_value ids [].
Proof. intros (l & i & E & _). destruct l; discriminate. Qed.
Lemma may_empty ids : ~ may_be_value ids [""].
Proof. intros (l & i & E & _). destruct l as [|x [|y l]]; try discriminate. injection E as E. now destruct i. Qed.

(** [l1] and [l1'] have the same length, and a name at the end of [l1'] was there before *)
Definition after_names (ids : list ident) (l1 l1' : list string) : Prop :=
  List.length l1' = List.length l1 /\ (may_be_value ids l1' -> may_be_value ids l1).

Lemma after_cons ids x x' l l' : x' = x \/ x' = "" -> after_names ids l l' -> after_names ids (x :: l) (x' :: l').
Proof.
  intros Hx [L H]. split; [cbn; congruence|]. destruct l' as [|y' l'], l as [|y l]; try discriminate L.
  - destruct Hx as [->| ->]; [auto|]. intros K. now apply may_empty in K.
  - rewrite !may_cons. exact H.
Qed.

Lemma not_may_tail ids x l : ~ may_be_value ids (x :: l) -> ~ may_be_value ids l.
Proof. intros H K. apply H. destruct l as [|y l]; [now apply may_nil in K|]. now apply may_cons. Qed.

Lemma reads_stands ids a i l ws l' : reads i l ws l' -> In i ids -> looks_like i a = false ->
  forall l1 l2, l = l1 ++ a :: l2 -> ~ may_be_value ids l1 ->
  exists l1' l2', l' = l1' ++ a :: l2' /\ after_names ids l1 l1'.
Proof.
  intros R Hi Ha. induction R as [|x l ws l' Hx R IH|w l ws l' Hc Hw He R IH|w l ws l' Hw R IH|w l ws l' R IH]; intros l1 l2 E M1.
  - destruct l1; discriminate.
  - destruct l1 as [|y l1]; cbn [app] in E; injection E as -> E.
    + exists [], l'. split; [reflexivity|]. split; auto.
    + destruct (IH l1 l2 E (not_may_tail _ _ _ M1)) as (l1' & l2' & -> & K). exists (y :: l1'), l2'. split; [reflexivity|]. apply after_cons; auto.
  - destruct l1 as [|y l1]; cbn [app] in E; injection E as Ey E.
    + exfalso. destruct Hc as [c ->]. rewrite <- Ey, dashed_app_short in Ha. discriminate.
    + destruct (IH l1 l2 E (not_may_tail _ _ _ M1)) as (l1' & l2' & -> & K). exists ("" :: l1'), l2'. split; [reflexivity|]. apply after_cons; auto.
  - destruct l1 as [|y l1]; cbn [app] in E; injection E as Ey E.
    + exfalso. pose proof (dashed_app_equals i w) as K. cbn [append] in K, Ey. rewrite Ey in K. congruence.
    + destruct (IH l1 l2 E (not_may_tail _ _ _ M1)) as (l1' & l2' & -> & K). exists ("" :: l1'), l2'. split; [reflexivity|]. apply after_cons; auto.
  - destruct l1 as [|y l1]; cbn [app] in E; injection E as Ey E.
    + exfalso. rewrite <- Ey, dashed_like in Ha. discriminate.
    + destruct l1 as [|z l1]; cbn [app] in E; injection E as Ez E.
      * exfalso. apply M1. exists [], i. subst y. auto.
      * destruct (IH l1 l2 E (not_may_tail _ _ _ (not_may_tail _ _ _ M1))) as (l1' & l2' & -> & K). exists ("" :: "" :: l1'), l2'.
        split; [reflexivity|]. apply after_cons; auto. apply after_cons; auto.
Qed.

Lemma each_stands ids a : forall js l wss l', reads_each js l wss l' -> incl js ids -> (forall i, In i ids -> looks_like i a = false) ->
  forall l1 l2, l = l1 ++ a :: l2 -> ~ may_be_value ids l1 -> exists l1' l2', l' = l1' ++ a :: l2'.
Proof.
  intros js l wss l' R. induction R as [l|i js l ws l1 wss l2 R1 R2 IH]; intros Hin Ha k1 k2 E Hm; [eauto|].
  destruct (reads_stands ids a i l ws l1 R1 (Hin i (or_introl eq_refl)) (Ha i (Hin i (or_introl eq_refl))) k1 k2 E Hm) as (k1' & k2' & -> & _ & K).
  apply (IH (fun j Hj => Hin j (or_intror Hj)) Ha k1' k2' eq_refl). auto.
Qed.

(** ** Flags *)

Lemma takes_in c b b' a : takes_short c b b' -> In a b -> In a b' \/
  exists p q, a = p +s+ String c q /\ looks_like_cluster_of c (p +s+ String c q) = true /\ ~ In c (chars p) /\
    In (if String.eqb (p +s+ q) "-" then "" else p +s+ q) b'.
Proof.
  induction 1 as [p q l Hl Hp|x l l' Hx T IH]; intros Hi.
  - destruct Hi as [<-|Hi]; [|left; now right]. right. exists p, q. split; [reflexivity|]. split; [exact Hl|]. split; [exact Hp|]. now left.
  - destruct Hi as [<-|Hi]; [left; now left|]. destruct (IH Hi) as [K|(p & q & E & H1 & H2 & K)]; [left; now right|].
    right. exists p, q. split; [exact E|]. split; [exact H1|]. split; [exact H2|now right].
Qed.

Lemma flags_consumed ds b r vs b' r' vs' : flags_read ds b r vs b' r' vs' -> (forall a, In a b' -> a = "" \/ plain_word a) ->
  forall a, In a b -> consumed (flag_configs ds) a.
Proof.
  induction 1 as [b r vs vs' E|d ds b r vs b' r' vs' D R IH|x c ds b r vs b1 r1 given vs1 b' r' vs' F B R IH]; intros Ok a Ha.
  - constructor. now apply Ok.
  - destruct d as [x t c|x c|x t c]; [now apply IH|exfalso; now apply (D x c)|now apply IH].
  - change (flag_configs (DFlag x c :: ds)) with (c :: flag_configs ds). specialize (IH Ok).
    destruct F as [b r b1 T|b r r1 N T|b1 b2 r N1 N2 N3|b r N1 N2 N3].
    + destruct (takes_in _ _ _ a T Ha) as [K|(p & q & -> & H1 & H2 & K)]; [apply consumed_kept; now apply IH|].
      apply consumed_letter; auto.
    + apply consumed_kept. now apply IH.
    + apply in_app_iff in Ha as [Ha|[<-|Ha]].
      * apply consumed_kept, IH, in_app_iff. now left.
      * apply consumed_long.
      * apply consumed_kept, IH, in_app_iff. right. now right.
    + apply consumed_kept. now apply IH.
Qed.

Lemma consumed_lemma ndebug decls args b r vs f l1 a l2 : wf_decls decls = true -> elems_ok decls -> cut args b r -> b = l1 ++ a :: l2 ->
  (forall i, In i (flat_map option_idents decls) -> looks_like i a = false) -> ~ may_be_value (flat_map option_idents decls) l1 ->
  snd (parse_args ndebug decls args vs f) = Ret tt -> consumed (flag_configs decls) a.
Proof.
  intros Hwf Hel Hc Hb Ha Hm Hr. destruct (parse_args ndebug decls args vs f) as [st q] eqn:E. cbn in Hr. subst q.
  destruct (proj2 (meaning_lemma ndebug decls args vs f (vars st) (fsys st) Hwf Hel)) as (b' & r' & b1 & vs1 & f1 & b2 & r2 & vs2 & Hc' & Ho & Hf & Hw & _); [eauto|].
  destruct (cut_unique _ _ _ _ _ Hc Hc') as [<- _].
  destruct (options_each _ _ _ _ _ _ _ _ Ho) as [wss Re].
  destruct (each_stands _ a _ _ _ _ Re (incl_refl _) Ha l1 l2 Hb Hm) as (k1 & k2 & ->).
  apply (flags_consumed _ _ _ _ _ _ _ Hf Hw). apply in_elt.
Qed.

(** ** One argument alone *)

Lemma flags_used ds b r vs b' r' vs' : flags_read ds b r vs b' r' vs' -> forall a, b = [a] -> r = [] -> b' = [""] -> used_up (flag_configs ds) a.
Proof.
  induction 1 as [b r vs vs' E|d ds b r vs b' r' vs' D R IH|x c ds b r vs b1 r1 given vs1 b' r' vs' F B R IH]; intros a Hb Hr Hb'.
  - rewrite Hb in Hb'. injection Hb' as ->. constructor.
  - destruct d as [x t c|x c|x t c]; [now apply IH|exfalso; now apply (D x c)|now apply IH].
  - change (flag_configs (DFlag x c :: ds)) with (c :: flag_configs ds).
    destruct F as [b r b1 T|b r r1 N T|b1 b2 r N1 N2 N3|b r N1 N2 N3]; subst.
    + inversion T as [p q l Hl Hp E1 E2|y l l' Hy T' E1 E2]; subst; [|inversion T']. apply used_letter; auto.
    + inversion T.
    + destruct b1 as [|y b1]; [|destruct b1; discriminate]. cbn [app] in Hb. injection Hb as <- ->. apply used_long.
    + apply used_kept; [apply N1; now left|intros ->; apply N3; now left|]. now apply IH.
Qed.

Definition all_flags (ds : list decl) : Prop := forall d, In d ds -> exists x c, d = DFlag x c.

Lemma become x v vs : becomes x v vs (fun y => if Nat.eqb y x then v else vs y).
Proof. split; [now rewrite Nat.eqb_refl|]. intros y Hy. now apply Nat.eqb_neq in Hy as ->. Qed.

Lemma flags_blank ds : all_flags ds -> forall vs, exists vs', flags_read ds [""] [] vs [""] [] vs'.
Proof.
  induction ds as [|d ds IH]; intros A vs; [exists vs; constructor; auto|]. destruct (A d (or_introl eq_refl)) as (x & c & ->).
  destruct (IH (fun d' H => A d' (or_intror H)) (fun y => if Nat.eqb y x then VBool (was_true (vs x)) else vs y)) as [vs' H].
  exists vs'. eapply (flags_one x c ds _ _ _ _ _ false); [|apply (become x)|exact H]. apply flag_absent; [intros a [<-|[]]; reflexivity|intros a []|intros [E|[]]; discriminate].
Qed.

Lemma used_flags cs a : used_up cs a -> forall ds, all_flags ds -> flag_configs ds = cs -> forall vs, exists vs', flags_read ds [a] [] vs [""] [] vs'.
Proof.
  induction 1 as [|c cs a N1 N2 U IH|c cs p q Hl Hp U IH|c cs]; intros ds A E vs.
  - destruct ds as [|d ds]; [exists vs; constructor; auto|]. destruct (A d (or_introl eq_refl)) as (x & c & ->). discriminate E.
  - destruct ds as [|d ds]; [discriminate|]. destruct (A d (or_introl eq_refl)) as (x & e & ->). injection E as -> E.
    destruct (IH ds (fun d' H => A d' (or_intror H)) E (fun y => if Nat.eqb y x then VBool (was_true (vs x)) else vs y)) as [vs' H].
    exists vs'. eapply (flags_one x c ds _ _ _ _ _ false); [|apply (become x)|exact H]. apply flag_absent; [intros z [<-|[]]; exact N1|intros z []|intros [K|[]]; congruence].
  - destruct ds as [|d ds]; [discriminate|]. destruct (A d (or_introl eq_refl)) as (x & e & ->). injection E as -> E.
    destruct (IH ds (fun d' H => A d' (or_intror H)) E (fun y => if Nat.eqb y x then VBool true else vs y)) as [vs' H].
    exists vs'. eapply (flags_one x c ds _ _ _ _ _ true); [|apply (become x)|exact H]. apply flag_short. now constructor.
  - destruct ds as [|d ds]; [discriminate|]. destruct (A d (or_introl eq_refl)) as (x & e & ->). injection E as -> E.
    destruct (flags_blank ds (fun d' H => A d' (or_intror H)) (fun y => if Nat.eqb y x then VBool true else vs y)) as [vs' H].
    exists vs'. eapply (flags_one x c ds _ _ _ _ _ true); [|apply (become x)|exact H]. apply (flag_long c [] []); [|intros z []|intros []].
    intros z [<-|[]]. reflexivity.
Qed.

Lemma flags_options ndebug ds : all_flags ds -> forall l vs f, options_read ndebug ds l vs f l vs f.
Proof.
  induction ds as [|d ds IH]; intros A l vs f; [constructor; auto|]. destruct (A d (or_introl eq_refl)) as (x & c & ->).
  constructor; [discriminate|]. apply IH. intros d' H. apply A. now right.
Qed.
Lemma options_flags ndebug ds l vs f l' vs' f' : options_read ndebug ds l vs f l' vs' f' -> all_flags ds -> l' = l.
Proof.
  induction 1 as [l vs vs' f He|d ds l vs f l' vs' f' Hd H IH|x t c ds l vs f wss1 l1 v vs1 f1 l' vs' f' R Q V B F H IH]; intros A; [reflexivity| |].
  - apply IH. intros d' K. apply A. now right.
  - destruct (A (DOption x t c) (or_introl eq_refl)) as (y & e & K). discriminate K.
Qed.
Lemma flags_words ndebug ds : all_flags ds -> forall vs f, words_read ndebug ds [] vs f vs f.
Proof.
  induction ds as [|d ds IH]; intros A vs f; [constructor; auto|]. destruct (A d (or_introl eq_refl)) as (x & c & ->).
  constructor; [discriminate|]. apply IH. intros d' H. apply A. now right.
Qed.
Lemma words_flags ndebug ds ws vs f vs' f' : words_read ndebug ds ws vs f vs' f' -> all_flags ds -> ws = [].
Proof.
  induction 1; intros A; try reflexivity.
  - apply IHwords_read. intros d' K. apply A. now right.
  - destruct (A _ (or_introl eq_refl)) as (y & e' & K). discriminate K.
  - destruct (A _ (or_introl eq_refl)) as (y & e' & K). discriminate K.
Qed.

Lemma flags_one_left ds b r vs b' r' vs' : flags_read ds b r vs b' r' vs' -> r = [] -> List.length b' = List.length b /\ r' = [].
Proof.
  induction 1 as [b r vs vs' E|d ds b r vs b' r' vs' D R IH|x c ds b r vs b1 r1 given vs1 b' r' vs' F B R IH]; intros Hr; [auto|auto|].
  assert (K : List.length b1 = List.length b /\ r1 = []).
  { destruct F as [b r b1 T|b r r1 N T|b1 b2 r N1 N2 N3|b r N1 N2 N3]; subst; auto.
    - split; [|reflexivity]. clear -T. induction T; cbn; congruence.
    - inversion T.
    - split; [now rewrite !app_length|reflexivity]. }
  destruct K as [K1 K2]. destruct (IH K2) as [K3 K4]. split; [congruence|exact K4].
Qed.

Lemma alone_lemma ndebug ds a vs f : wf_decls ds = true -> all_flags ds -> a <> "--" ->
  snd (parse_args ndebug ds [a] vs f) = Ret tt <-> used_up (flag_configs ds) a.
Proof.
  intros Hwf A Ha.
  assert (Hel : elems_ok ds).
  { intros t Ht. apply in_flat_map in Ht as (d & Hd & Ht). destruct (A d Hd) as (x & c & ->). destruct Ht. }
  assert (Hc : cut [a] [a] []).
  { split; [reflexivity|]. split; [intros [E|[]]; congruence|now left]. }
  split.
  - intros Hr. destruct (parse_args ndebug ds [a] vs f) as [st q] eqn:E. cbn in Hr. subst q.
    destruct (proj2 (meaning_lemma ndebug ds [a] vs f (vars st) (fsys st) Hwf Hel)) as (b & r & b1 & vs1 & f1 & b2 & r2 & vs2 & Hc' & Ho & Hf & Hw & Hp); [eauto|].
    destruct (cut_unique _ _ _ _ _ Hc Hc') as [<- <-]. apply options_flags in Ho; [|exact A]. subst b1.
    apply words_flags in Hp; [|exact A]. destruct (flags_one_left _ _ _ _ _ _ _ Hf eq_refl) as [L ->].
    destruct b2 as [|a' [|y b2]]; try discriminate L. cbn in Hp. destruct (is_empty a') eqn:Ee; [|discriminate Hp].
    destruct a'; [|discriminate Ee]. apply (flags_used _ _ _ _ _ _ _ Hf a); reflexivity.
  - intros U. destruct (used_flags _ _ U ds A eq_refl vs) as [vs' H].
    destruct (proj1 (meaning_lemma ndebug ds [a] vs f vs' f Hwf Hel)) as (st & E & _); [|now rewrite E].
    exists [a], [], [a], vs, f, [""], [], vs'. split; [exact Hc|]. split; [now apply flags_options|]. split; [exact H|].
    split; [intros z [<-|[]]; now left|]. now apply flags_words.
Qed.
