(** The names of the parameters of a tool description (C60). *)
From Verif Require Import Base StrLib Fs Values Validators FormatParse Parser HelpBase HelpExport HelpSpec TdlSpec HelpOther ValuesProofs RegexReading TdlNamesSpec.

Local Open Scope nat_scope.
Lemma name_inj : forall i j, position_name i = position_name j -> i = j.
Proof.
  intros i j H. unfold position_name in H.
  assert (E : nat_to_string i = nat_to_string j) by (cbn [String.append] in H; now injection H).
  pose proof (proj2 (nat_digits i)) as A. rewrite E, (proj2 (nat_digits j)) in A. lia.
Qed.
Lemma positional_names : forall vs l n, map nd_name (tdl_positionals n vs l) = map position_name (seq n (List.length (filter is_positional l))).
Proof.
  intros vs l. induction l as [|o l IH]; intros n; [reflexivity|].
  destruct o as [[]| | | |]; cbn [tdl_positionals filter is_positional]; try apply IH. cbn [List.length seq map]. now rewrite IH.
Qed.
Lemma option_names : forall tags vs l, map nd_name (map fst (tdl_options tags vs l)) = flat_map described_name l.
Proof.
  intros tags vs l. induction l as [|o l IH]; [reflexivity|].
  destruct o as [[x t c|x c|x t c]| | | |]; cbn [tdl_options flat_map described_name app]; try exact IH.
  - destruct (c_hidden c); cbn [app]; [exact IH|]. cbn [map]. rewrite IH. f_equal. unfold tdl_option.
    destruct t as [[]|]; reflexivity.
  - destruct (c_hidden c); cbn [app]; [exact IH|]. cbn [map]. now rewrite IH.
Qed.

Lemma names_lemma : forall tags r, exists l, innermost (ti_params (tool_info_of tags r)) (List.tl (pr_executable r)) l /\
  map nd_name l = map position_name (seq 0 (List.length (filter is_positional (pr_ops r)))) ++ flat_map described_name (pr_ops r).
Proof.
  intros tags r. exists (tdl_positionals 0 (pr_vars r) (pr_ops r) ++ map fst (tdl_options tags (pr_vars r) (pr_ops r))). split.
  - unfold tool_info_of. cbn [ti_params]. rewrite <- (rev_involutive (List.tl (pr_executable r))) at 2. apply wrap_innermost.
  - now rewrite map_app, positional_names, option_names.
Qed.

Lemma nodup_app {A} (a b : list A) : NoDup (a ++ b) <-> NoDup a /\ NoDup b /\ forall x, In x a -> ~ In x b.
Proof.
  induction a as [|x a IH]; cbn [app].
  - split; [intros H; split; [constructor|split; [exact H|intros x []]]|tauto].
  - split.
    + intros H. inversion H as [|? ? N D]; subst. apply IH in D as (D1 & D2 & D3). rewrite in_app_iff in N.
      split; [constructor; tauto|]. split; [exact D2|]. intros y [<-|Y]; [tauto|now apply D3].
    + intros (H & D2 & D3). inversion H as [|? ? N D]; subst. constructor.
      * rewrite in_app_iff. intros [Q|Q]; [contradiction|]. exact (D3 x (or_introl eq_refl) Q).
      * apply IH. split; [exact D|]. split; [exact D2|]. intros y Y. apply D3. now right.
Qed.

Lemma distinct_lemma : forall tags r l, innermost (ti_params (tool_info_of tags r)) (List.tl (pr_executable r)) l ->
  (exists l', l = l' /\ map nd_name l = map position_name (seq 0 (List.length (filter is_positional (pr_ops r)))) ++ flat_map described_name (pr_ops r)) ->
  NoDup (map nd_name l) <->
  NoDup (flat_map described_name (pr_ops r)) /\
  forall i, i < List.length (filter is_positional (pr_ops r)) -> ~ In (position_name i) (flat_map described_name (pr_ops r)).
Proof.
  intros tags r l _ (l' & _ & ->). rewrite nodup_app. split.
  - intros (_ & B & C). split; [exact B|]. intros i Hi. apply C. apply in_map, in_seq. lia.
  - intros (B & C). split; [|split; [exact B|]].
    + apply FinFun.Injective_map_NoDup; [exact name_inj|apply seq_NoDup].
    + intros x H. apply in_map_iff in H as (i & <- & Hi). apply in_seq in Hi. apply C. lia.
Qed.
Lemma names_distinct : forall tags r, exists l, innermost (ti_params (tool_info_of tags r)) (List.tl (pr_executable r)) l /\
  (NoDup (map nd_name l) <->
   NoDup (flat_map described_name (pr_ops r)) /\
   forall i, i < List.length (filter is_positional (pr_ops r)) -> ~ In (position_name i) (flat_map described_name (pr_ops r))).
Proof.
  intros tags r. destruct (names_lemma tags r) as (l & I1 & N). exists l. split; [exact I1|]. apply (distinct_lemma tags r l I1). eauto.
Qed.
