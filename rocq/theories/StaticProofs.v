(** Proofs about the decisions of the compiler (C98). *)
From Verif Require Import Base StrLib Values FloatNum Validators HelpBase Static StaticSpec.

(** induction over types, through the value types of classes *)
Lemma cty_ind2 (P : cty -> Prop) (ha : forall a, P (Arith a)) (hs : P Str) (hp : P Path) (hl : forall t, P t -> P (Seq t))
  (hc : forall n i o c a r p d k, (forall u, r = Some u -> P u) -> P (Class n i o c a r p d k)) : forall t, P t.
Proof.
  fix F 1. intros [a| | |u|n i o c a [u|] p d k].
  - apply ha.
  - apply hs.
  - apply hp.
  - apply hl, F.
  - apply hc. intros v e. injection e as <-. apply F.
  - apply hc. discriminate.
Qed.

(** ** The best candidate *)

Lemma better_asym {W} (c d : candidate W) : better c d = true -> better d c = false.
Proof.
  unfold better. destruct (rank c) as [i|], (rank d) as [j|]; try discriminate.
  destruct (Nat.ltb_spec i j), (Nat.ltb_spec j i), (Nat.eqb_spec i j), (Nat.eqb_spec j i); try lia; cbn; try easy.
  destruct (template c), (template d), (subsumes (wants c) (wants d)), (subsumes (wants d) (wants c)); cbn; easy.
Qed.

Lemma filter_single {A} (p : A -> bool) l c : In c l -> p c = true -> NoDup l -> (forall d, In d l -> p d = true -> d = c) -> filter p l = [c].
Proof.
  induction l as [|x l IH]; intros hin hp hnd hu; [easy|]. inversion hnd; subst. cbn.
  destruct hin as [->|hin].
  - rewrite hp. f_equal. assert (hn : forall d, In d l -> p d = false).
    { intros d hd. destruct (p d) eqn:e; [|easy]. assert (d = c) by (apply hu; [now right|easy]). now subst. }
    clear - hn. induction l as [|y l IH]; [easy|]. cbn. rewrite (hn y) by now left. apply IH. intros; apply hn; now right.
  - destruct (p x) eqn:e; [assert (x = c) by (apply hu; [now left|easy]); now subst|]. apply IH; try easy. intros; apply hu; [now right|easy].
Qed.

Definition winner {W} (l : list (candidate W)) (c : candidate W) : Prop :=
  In c l /\ viable c = true /\ forall d, In d l -> viable d = true -> d <> c -> better c d = true.

Lemma NoDup_of_map {A B} (f : A -> B) l : NoDup (map f l) -> NoDup l.
Proof. induction l; cbn; intros h; inversion h; subst; constructor; auto. intros hi. apply H1. now apply in_map. Qed.
Lemma same_number {W} (l : list (candidate W)) c d : NoDup (map number l) -> In c l -> In d l -> number c = number d -> c = d.
Proof.
  induction l as [|x l IH]; cbn; intros h hc hd e; [easy|]. inversion h as [|? ? hx hl]; subst.
  destruct hc as [->|hc], hd as [->|hd]; auto.
  - destruct hx. rewrite e. now apply in_map.
  - destruct hx. rewrite <- e. now apply in_map.
Qed.

Lemma best_iff {W} (l : list (candidate W)) w : NoDup (map number l) -> (best l = Chosen w <-> exists c, winner l c /\ what c = w).
Proof.
  intros nd. unfold best.
  set (vs := filter viable l). set (p := fun c => forallb (fun d => Nat.eqb (number c) (number d) || better c d) vs).
  assert (hv : forall c, In c vs <-> In c l /\ viable c = true) by (intros; apply filter_In).
  assert (hp : forall c, In c vs -> (p c = true <-> winner l c)).
  { intros c hc. unfold p, winner. rewrite forallb_forall. apply hv in hc as [hc1 hc2]. split.
    - intros h. repeat split; try easy. intros d hd hvd hne. specialize (h d (proj2 (hv d) (conj hd hvd))).
      apply orb_true_iff in h as [h|h]; [|easy]. apply Nat.eqb_eq in h. destruct hne. symmetry. now apply (same_number l).
    - intros [_ [_ h]] d hd. apply hv in hd as [hd1 hd2]. apply orb_true_iff.
      destruct (Nat.eqb_spec (number c) (number d)) as [|hne]; [now left|right]. apply h; auto. intros ->. now apply hne. }
  assert (nv : NoDup vs) by (apply NoDup_filter, (NoDup_of_map number l nd)).
  split.
  - intros h. change (match vs with [] => NoMatch | _ => match filter p vs with [c] => Chosen (what c) | _ => Ambiguous end end = Chosen w) in h.
    assert (h' : match filter p vs with [c] => Chosen (what c) | _ => Ambiguous end = Chosen w) by (destruct vs; [discriminate|exact h]).
    destruct (filter p vs) as [|c [|c2 r]] eqn:ef; try discriminate.
    assert (hc : In c (filter p vs)) by (rewrite ef; now left). apply filter_In in hc as [h1 h2].
    exists c. split; [now apply hp|now injection h'].
  - intros [c [hw <-]].
    assert (hc : In c vs) by (apply hv; split; apply hw).
    assert (hf : filter p vs = [c]).
    { apply filter_single; auto; [now apply hp|]. intros d hd hpd. apply (hp d hd) in hpd.
      destruct (Nat.eq_dec (number d) (number c)) as [e|e]; [apply (same_number l); auto; [apply hpd|apply hw]|].
      assert (d <> c) by (intros ->; now apply e).
      assert (a1 : better c d = true) by (apply hw; auto; apply hpd).
      assert (a2 : better d c = true) by (apply hpd; auto; apply hw).
      rewrite (better_asym _ _ a1) in a2. discriminate. }
    fold p. rewrite hf. destruct vs; [easy|reflexivity].
Qed.

(** ** parse_option_value *)

Lemma chosen_some {W} (c : choice W) : is_chosen c = true <-> exists w, c = Chosen w.
Proof. destruct c; cbn; split; try easy; try (intros [? h]; discriminate h). intros _; eauto. Qed.

Lemma resolve_iff t w : resolve t = Chosen w <-> reads t w.
Proof.
  revert w. induction t as [a| | |u IH|n i o c a r p d k IH] using cty_ind2; intros w.
  - assert (h : resolve (Arith a) = match a with Bool => Chosen ByTruth | WChar | Char8 | Char16 | Char32 => NoMatch | _ => Chosen ByNumber end)
      by now destruct a.
    rewrite h. unfold reads, wide. destruct a; cbn; destruct w; intuition (try discriminate; try congruence).
  - cbn. split; [intros h; now injection h|now intros ->].
  - cbn. split; [intros h; now injection h|now intros ->].
  - cbn [resolve reads]. assert (e : is_chosen (resolve u) = true <-> exists w', reads u w').
    { rewrite chosen_some. split; intros [w' h]; exists w'; now apply IH. }
    destruct (is_chosen (resolve u)); cbn.
    + split; [intros h; injection h as <-; split; [reflexivity|now apply e]|now intros [-> _]].
    + split; [discriminate|]. intros [_ h]. apply e in h. discriminate.
  - cbn [resolve reads]. unfold only.
    set (b := match r with Some u => is_chosen (resolve u) | None => false end).
    assert (e : b = true <-> match r with Some u => exists w', reads u w' | None => False end).
    { subst b. destruct r as [u|]; [|easy]. rewrite chosen_some. split; intros [w' h]; exists w'; now apply (IH u eq_refl). }
    set (q := match r with Some u => exists w', reads u w' | None => False end) in *.
    assert (hl : has_push_back (Class n i o c a r p d k) && b = p && b).
    { unfold b. cbn. now destruct r, p. }
    assert (hb : b = false <-> ~ q) by (rewrite <- e; destruct b; intuition discriminate).
    unfold overloads, container_option. cbn [is_str negb andb istreamable named_enumeration is_arith]. rewrite hl. clearbody b q. clear hl IH.
    destruct i, (c || a) eqn:ca, p, b, d; cbn;
      (assert (hn : (c = true \/ a = true) <-> (c || a = true)) by (symmetry; apply orb_true_iff); rewrite ca in hn);
      destruct w; intuition (try discriminate; try congruence).
Qed.

Lemma ambiguous_iff n i o c a r p d k : resolve (Class n i o c a r p d k) = Ambiguous <->
  two_of (i = true) (c = true \/ a = true) (p = true /\ exists u, r = Some u /\ exists w, reads u w).
Proof.
  unfold two_of. cbn [resolve].
  set (b := match r with Some u => is_chosen (resolve u) | None => false end).
  assert (e : b = true <-> exists u, r = Some u /\ exists w, reads u w).
  { subst b. destruct r as [u|]; [|split; [easy|intros [? [? _]]; discriminate]]. rewrite chosen_some. split.
    - intros [w h]. exists u. split; [easy|]. exists w. now apply resolve_iff.
    - intros [v [h [w hw]]]. injection h as <-. exists w. now apply resolve_iff. }
  rewrite <- e.
  assert (hl : has_push_back (Class n i o c a r p d k) && b = p && b) by (unfold b; cbn; now destruct r, p).
  unfold overloads, container_option. cbn [is_str negb andb istreamable named_enumeration is_arith]. rewrite hl. clearbody b. clear hl e.
  rewrite <- orb_true_iff. destruct i, (c || a), p, b, d; cbn; intuition (try discriminate; try congruence).
Qed.

Lemma basic_reads t : plain t -> (basic t <-> parsable t = true).
Proof. destruct t as [a| | |u|]; cbn; intros hp; try easy; try (split; easy). destruct a; cbn; unfold wide; cbn; intuition discriminate. Qed.
Lemma basic_read t : basic t -> exists w, reads t w.
Proof. destruct t as [a| | |u|]; cbn; try easy; [|eauto|eauto]. intros h. destruct a; eauto. Qed.

Lemma accepted_plain t : plain t -> (accepted t = true <-> basic t \/ exists u, t = Seq u /\ basic u).
Proof.
  intros hp. unfold accepted. rewrite orb_true_iff, <- (basic_reads t hp). destruct t as [a| | |u|]; cbn in *; try easy.
  - split; [intros [h|h]; [now left|discriminate]|intros [h|[u [h _]]]; [now left|discriminate]].
  - split; intros _; now left.
  - split; intros _; now left.
  - split.
    + intros [[]|h]. right. exists u. split; [easy|]. now apply basic_reads.
    + intros [[]|[v [h hb]]]. injection h as <-. right. now apply basic_reads.
Qed.
Lemma compiles_plain t : plain t -> compiles t = accepted t.
Proof.
  intros hp. unfold compiles. destruct (accepted t) eqn:e; [|easy]. cbn. apply (accepted_plain t hp) in e. apply chosen_some.
  destruct e as [h|[u [-> h]]].
  - destruct (basic_read t h) as [w hw]. exists w. now apply resolve_iff.
  - exists ByElement. apply resolve_iff. cbn. split; [easy|]. now apply basic_read.
Qed.

Lemma elem_chosen t e : models_elem t e -> resolve t = Chosen (branch (Scalar e)) /\ parsable t = true.
Proof.
  intros h. destruct h; try (split; reflexivity).
  - destruct H as [-> | ->]; [destruct a|destruct c]; destruct d, o; split; reflexivity.
  - destruct d; split; reflexivity.
Qed.
Lemma models_chosen t v : models t v -> resolve t = Chosen (branch v) /\ accepted t = true.
Proof.
  intros h. destruct h as [t e h|t e h]; destruct (elem_chosen t e h) as [h1 h2].
  - split; [easy|]. unfold accepted. now rewrite h2.
  - split; [cbn; now rewrite h1|]. unfold accepted. cbn. now rewrite h2.
Qed.
Lemma models_total t : plain t -> accepted t = true -> exists v, models t v.
Proof.
  assert (hb : forall u, basic u -> exists e, models_elem u e).
  { intros [a| | |u|] h; try easy; [|eexists; constructor..]. cbn in h.
    destruct a; try (now exfalso; apply h; unfold wide; cbn; tauto);
      first [exists (TFloat "float" "" "" (fun _ => FcInvalid)); constructor | exists (TFloat "double" "" "" (fun _ => FcInvalid)); constructor
            |exists (TFloat "long double" "" "" (fun _ => FcInvalid)); constructor | eexists; constructor]. }
  intros hp h. apply (accepted_plain t hp) in h as [h|[u [-> h]]]; destruct (hb _ h) as [e he].
  - exists (Scalar e). now constructor.
  - exists (ListOf e). now constructor.
Qed.
Lemma models_list t v : models t v -> container_option t = is_container v.
Proof. intros h. destruct h as [t e h|t e h]; [|easy]. destruct h; reflexivity. Qed.
Lemma models_name t v : models t v -> ~ long_long t -> get_type_name t = type_name (elem_ty v).
Proof.
  assert (ha : forall s, type_name_as_string 0 "" s false NoRef = s).
  { intros s. unfold type_name_as_string. cbn. induction s; cbn in *; congruence. }
  assert (he : forall u e, models_elem u e -> u <> Arith LLong -> u <> Arith ULLong -> get_type_name u = type_name e).
  { intros u e h h1 h2. destruct h; try reflexivity; try congruence; cbn -[type_name_as_string]; apply ha. }
  intros h hn. unfold long_long in hn. cbn in hn. destruct h as [t e h|t e h]; cbn [get_type_name elem_ty]; apply he; auto; intros ->; apply hn; tauto.
Qed.

Lemma table_priority {T} (custom adl : option T) :
  names_table custom adl = match custom, adl with Some t, _ => Chosen t | None, Some t => Chosen t | None, None => NoMatch end.
Proof. now destruct custom, adl. Qed.

(** ** Validators *)

Lemma range_takes a t : plain t -> (invocable (KRange a) t = true <-> numeral t).
Proof.
  unfold numeral, invocable. intros hp. destruct t as [b| | |[b| | |u|]|]; cbn in *; try easy;
    (split; [intros h; try discriminate h; eauto|intros [h|[x [h|h]]]; try discriminate h; reflexivity]).
Qed.
Lemma numbers_take a t : plain t -> (invocable (KValues (Arith a)) t = true <-> numeral t).
Proof.
  unfold numeral, invocable. intros hp. destruct t as [b| | |[b| | |u|]|]; cbn in *; try easy;
    (split; [intros h; try discriminate h; eauto|intros [h|[x [h|h]]]; try discriminate h; reflexivity]).
Qed.
Lemma texts_take v t : In v [KRegex; KFile; KValues Str; KValues Path] -> plain t -> (invocable v t = true <-> textual t).
Proof.
  unfold textual, invocable. intros hv hp. cbn in hv.
  destruct hv as [<-|[<-|[<-|[<-|[]]]]]; destruct t as [b| | |[b| | |u|]|]; cbn in *; try easy; intuition (try discriminate; try congruence).
Qed.
Lemma chain_takes v w t : invocable (KBoth v w) t = true <-> invocable v t = true /\ invocable w t = true.
Proof. unfold invocable. cbn. destruct (is_chosen (looks v t)), (is_chosen (looks w t)); cbn; intuition discriminate. Qed.

Lemma list_each u t c : (forall v, u <> Seq v) -> is_chosen (call u (Seq t) c) = true -> call u (Seq t) c = Chosen Each.
Proof.
  intros hu. unfold call. assert (hc : conversion (Seq t) u = None) by now destruct u. rewrite hc. cbn.
  destruct (c t); [reflexivity|discriminate].
Qed.

Lemma regex_looks x t : holds x t -> invocable KRegex t = true -> (looks KRegex t = Chosen Each <-> exists l, by_elements x = VList l).
Proof.
  intros h hi. destruct h; try discriminate hi.
  - split; [discriminate|intros [l h]; discriminate h].
  - split; [cbn; eauto|reflexivity].
  - split; [cbn; eauto|intros _; apply list_each; [discriminate|exact hi]].
Qed.
Lemma range_looks a x t : holds x t -> invocable (KRange a) t = true -> (looks (KRange a) t = Chosen Each <-> exists l, by_characters x = VList l).
Proof.
  intros h hi. destruct h; try discriminate hi; try (split; [discriminate|intros [l h]; discriminate h]).
  - split; [cbn; eauto|reflexivity].
  - split; [cbn; eauto|intros _; apply list_each; [discriminate|exact hi]].
Qed.
Lemma values_look u e x t : models_elem u e -> basic u -> holds x t -> invocable (KValues u) t = true ->
  (looks (KValues u) t = Chosen Each <-> exists l, match e with TFloat _ _ _ _ => by_characters x | _ => as_range e x end = VList l).
Proof.
  intros hm hb h hi. destruct hm; cbn in hb; try contradiction; destruct h; try discriminate hi;
    try (split; [discriminate|intros [l0 h0]; discriminate h0]);
    try (split; [cbn; eauto|intros _; first [reflexivity|apply list_each; [discriminate|exact hi]]]).
Qed.

(** ** The constraint, for every type *)

Lemma element_iff u t : element_of u t <-> range_value t = Some u.
Proof.
  split; [now destruct 1|]. destruct t as [a| | |v|n i o c a r p d k]; cbn; intros h; try discriminate; try (injection h as <-; constructor).
  subst r. constructor.
Qed.
Lemma prints_iff t : inserted t = true <-> prints t.
Proof.
  destruct t as [a| | |v|n i o c a r p d k]; cbn; try easy; [destruct a; cbn; unfold wide; cbn; intuition discriminate|].
  now rewrite !orb_true_iff.
Qed.
Lemma parses_iff t : parsable t = true <-> may_parse t.
Proof.
  destruct t as [a| | |v|n i o c a r p d k]; try easy; [destruct a; cbn; unfold wide; cbn; intuition discriminate|].
  unfold parsable, ostreamable, may_parse. rewrite orb_true_iff, andb_true_iff, orb_true_iff, prints_iff. cbn [istreamable named_enumeration range_value prints].
  rewrite orb_true_iff.
  assert (h : match r with Some u => inserted u | None => false end = true <-> exists u, element_of u (Class n i o c a r p d k) /\ prints u).
  { split.
    - destruct r as [u|]; [|discriminate]. intros h. exists u. split; [constructor|now apply prints_iff].
    - intros [u [h1 h2]]. apply element_iff in h1. cbn in h1. subst r. now apply prints_iff. }
  rewrite h. tauto.
Qed.
Lemma admitted_iff t : accepted t = true <-> may_parse t \/ exists u, element_of u t /\ may_parse u.
Proof.
  unfold accepted. rewrite orb_true_iff, parses_iff. split; (intros [h|h]; [now left|right]).
  - destruct (range_value t) as [u|] eqn:e; [|discriminate]. exists u. split; [now apply element_iff|now apply parses_iff].
  - destruct h as [u [h1 h2]]. apply element_iff in h1. rewrite h1. now apply parses_iff.
Qed.

(** ** Names *)

Lemma append_nil s : s +s+ "" = s.
Proof. induction s; cbn; congruence. Qed.
Lemma qualified_iff mangled demangled c r s : type_name_as_string 0 mangled demangled c r = s <-> named_type demangled c r s.
Proof.
  unfold type_name_as_string. cbn [Z.eqb negb]. split.
  - intros <-. destruct c, r; cbn [String.append]; rewrite ?append_nil; constructor.
  - destruct 1; cbn [String.append]; now rewrite ?append_nil.
Qed.
Lemma failed_name z mangled demangled c r w : reason z w ->
  type_name_as_string z mangled demangled c r = mangled +s+ " (abi::__cxa_demangle error status (" +s+ Z_to_string z +s+ "): " +s+ w +s+ ")".
Proof.
  destruct 1 as [| | |z h]; try reflexivity. unfold type_name_as_string. cbn in h.
  destruct (Z.eqb_spec z 0), (Z.eqb_spec z (-1)), (Z.eqb_spec z (-2)), (Z.eqb_spec z (-3)); try (exfalso; apply h; subst; tauto). reflexivity.
Qed.
Lemma models_shown t v : models t v -> ~ long_long t -> type_and_list t = type_info v.
Proof. intros h hn. unfold type_and_list, type_info. rewrite (models_list t v h), (models_name t v h hn). now destruct v. Qed.

(** ** Validators of numbers and files, for classes too *)

Lemma number_each z t : looks (KRange z) t = Chosen Each <-> exists b, element_of (Arith b) t.
Proof.
  assert (h : (exists b, element_of (Arith b) t) <-> match range_value t with Some r => is_arith r | None => false end = true).
  { split.
    - intros [b h]. apply element_iff in h. now rewrite h.
    - destruct (range_value t) as [[b| | | |]|] eqn:e; try discriminate. intros _. exists b. now apply element_iff. }
  rewrite h. cbn [looks]. unfold call. destruct t as [a| | |v|n i o c a r p d k]; cbn [conversion range_value].
  - easy.
  - easy.
  - easy.
  - destruct (is_arith v); split; easy.
  - destruct d, k, (match r with Some x => is_arith x | None => false end); split; easy.
Qed.
Lemma number_whole z t : looks (KRange z) t = Chosen Whole <-> to_number t /\ ~ exists b, element_of (Arith b) t.
Proof.
  rewrite <- (number_each z). cbn [looks]. unfold call. destruct t as [a| | |v|n i o c a r p d k]; cbn [conversion range_value to_number].
  - split; [intros _; now split|reflexivity].
  - split; [discriminate|intros [[] _]].
  - split; [discriminate|intros [[] _]].
  - split; [destruct (is_arith v); discriminate|intros [[] _]].
  - destruct d, k, (match r with Some x => is_arith x | None => false end); cbn; intuition (try discriminate; try congruence).
Qed.

Lemma to_path_iff t : converts t Path = true <-> to_path t.
Proof. destruct t as [a| | |v|n i o c a r p d k]; cbn; try easy. now destruct d, k. Qed.
Lemma file_looks t : (looks KFile t = Chosen Whole <-> to_path t) /\ (looks KFile t = Chosen Each <-> ~ to_path t /\ exists u, element_of u t /\ to_path u).
Proof.
  assert (h : (exists u, element_of u t /\ to_path u) <-> match range_value t with Some r => converts r Path | None => false end = true).
  { split.
    - intros [u [h1 h2]]. apply element_iff in h1. rewrite h1. now apply to_path_iff.
    - destruct (range_value t) as [u|] eqn:e; [|discriminate]. intros hu. exists u. split; [now apply element_iff|now apply to_path_iff]. }
  rewrite h, <- to_path_iff. clear h. cbn [looks]. unfold call.
  assert (hc : converts t Path = match conversion t Path with Some _ => true | None => false end) by reflexivity.
  destruct (converts t Path) eqn:e1, (conversion t Path) as [k|]; try discriminate hc;
    destruct (range_value t) as [r|]; try destruct (converts r Path) eqn:e2; cbn; rewrite ?e1, ?e2; cbn; rewrite ?Nat.eqb_refl; cbn; intuition (try discriminate; try congruence).
Qed.

(** ** Names *)

Lemma says_some : forall t, says t (get_type_name t).
Proof.
  fix IH 1. intros [a| | |t|n i o c ad [t|] [] d k].
  - destruct a; first [apply (says_signed _ "8"); cbn; tauto|apply (says_signed _ "16"); cbn; tauto|apply (says_signed _ "32"); cbn; tauto|apply (says_signed _ "64"); cbn; tauto
      |apply (says_unsigned _ "8"); cbn; tauto|apply (says_unsigned _ "16"); cbn; tauto|apply (says_unsigned _ "32"); cbn; tauto|apply (says_unsigned _ "64"); cbn; tauto
      |apply says_keyword; cbn; tauto].
  - constructor.
  - constructor.
  - apply says_list. exact (IH t).
  - cbn [get_type_name]. apply says_container. exact (IH t).
  - cbn. rewrite !app_nil_r_s. apply says_class. auto.
  - cbn. rewrite !app_nil_r_s. apply says_class. auto.
  - cbn. rewrite !app_nil_r_s. apply says_class. auto.
Qed.

Lemma says_once t w : says t w -> get_type_name t = w.
Proof.
  induction 1 as [a n H|a n H|a w H| | |t w _ IH|n i o c a t d k w _ IH|n i o c a r p d k H]; try reflexivity; try exact IH.
  - cbn [In] in H. repeat (destruct H as [H|H]; [inversion H; subst; reflexivity|]). destruct H.
  - cbn [In] in H. repeat (destruct H as [H|H]; [inversion H; subst; reflexivity|]). destruct H.
  - cbn [In] in H. repeat (destruct H as [H|H]; [inversion H; subst; reflexivity|]). destruct H.
  - destruct H as [->| ->]; cbn; [destruct p|destruct r]; cbn; rewrite ?app_nil_r_s; reflexivity.
Qed.

Lemma says_iff t w : says t w <-> get_type_name t = w.
Proof. split; [apply says_once|]. intros <-. apply says_some. Qed.
