(** The scanner of FormatParse.v refines the specification of Invocation.v. *)
From Verif Require Import Base StrLib Fs Values Validators FormatParse Invocation.
From Coq Require Import Permutation.

(** ** Simulation of scanner computations by specification computations *)

Definition abs (st : pst) : sst := {| s_vars := vars st; s_fs := fsys st |}.

Definition refines {A} (m : M pst A) (m' : M sst unit) (st : pst) (Q : A -> pst -> Prop) : Prop :=
  abs (fst (m st)) = fst (m' (abs st)) /\
  okind_of (snd (m st)) = okind_of (snd (m' (abs st))) /\
  (forall a, snd (m st) = Ret a -> Q a (fst (m st))).

Lemma refines_bind {A B} (m : M pst A) (k : A -> M pst B) m' k' st Q Q' :
  refines m m' st Q ->
  (forall a st', Q a st' -> refines (k a) (k' tt) st' Q') ->
  refines (bind m k) (bind m' k') st Q'.
Proof.
  unfold refines, bind. intros (Ha & Hk & HQ) H.
  destruct (m st) as [st1 r]; destruct (m' (abs st)) as [s1 r']; cbn [fst snd] in *.
  destruct r as [a|e|o| | |]; destruct r' as [u|e'|o'| | |]; cbn in Hk; try discriminate; cbn [fst snd];
    try (split; [assumption|split; [assumption|intros; discriminate]]).
  subst s1. destruct u. apply H, HQ. reflexivity.
Qed.

Lemma refines_bind_ret {A B} (m : M pst A) (k : A -> M pst B) m' k' st Q Q' :
  refines m m' st Q ->
  (forall a st', Q a st' -> okind_of (snd (m' (abs st))) = ORet -> refines (k a) (k' tt) st' Q') ->
  refines (bind m k) (bind m' k') st Q'.
Proof.
  unfold refines, bind. intros (Ha & Hk & HQ) H.
  destruct (m st) as [st1 r]; destruct (m' (abs st)) as [s1 r']; cbn [fst snd] in *.
  destruct r as [a|e|o| | |]; destruct r' as [u|e'|o'| | |]; cbn in Hk; try discriminate; cbn [fst snd];
    try (split; [assumption|split; [assumption|intros; discriminate]]).
  subst s1. destruct u. apply H; [apply HQ|]; reflexivity.
Qed.

(** a scanner step without counterpart in the specification *)
Lemma refines_bind_l {A B} (m : M pst A) (k : A -> M pst B) m' st Q Q' :
  refines m (ret tt) st Q ->
  (forall a st', Q a st' -> refines (k a) m' st' Q') ->
  refines (bind m k) m' st Q'.
Proof.
  intros Hm Hk.
  assert (H : refines (bind m k) (bind (ret tt) (fun _ => m')) st Q')
    by (eapply refines_bind; [exact Hm|intros a st' HQ; apply Hk, HQ]).
  exact H.
Qed.

Lemma refines_bind_r {A} (m : M pst A) m' st Q :
  refines m (bind m' (fun _ => ret tt)) st Q -> refines m m' st Q.
Proof.
  unfold refines, bind, ret. intros (Ha & Hk & HQ).
  destruct (m' (abs st)) as [s1 [[]|e'|o'| | |]]; cbn in *; auto.
Qed.

Lemma refines_ret {A} (a : A) st (Q : A -> pst -> Prop) : Q a st -> refines (ret a) (ret tt) st Q.
Proof. intros H. unfold refines, ret; cbn. split; [reflexivity|]. split; [reflexivity|]. intros a1 E1. injection E1 as <-. exact H. Qed.

Lemma refines_throw {A} k m st (Q : A -> pst -> Prop) : refines (throw k m) (fail k) st Q.
Proof. unfold refines, throw, fail, throw; cbn. split; [reflexivity|]. split; [reflexivity|discriminate]. Qed.

Lemma refines_post {A} (m : M pst A) m' st (Q Q' : A -> pst -> Prop) :
  refines m m' st Q -> (forall a st', Q a st' -> Q' a st') -> refines m m' st Q'.
Proof. unfold refines. intros (Ha & Hk & HQ) Himp; auto. Qed.

Lemma refines_mod (f : pst -> pst) st (Q : unit -> pst -> Prop) :
  abs (f st) = abs st -> Q tt (f st) -> refines (modify f) (ret tt) st Q.
Proof. intros Ha HQ. unfold refines, modify, ret; cbn. split; [exact Ha|]. split; [reflexivity|]. now intros [] _. Qed.

Lemma refines_ext {A} (m : M pst A) m1 m2 st Q :
  m1 (abs st) = m2 (abs st) -> refines m m1 st Q -> refines m m2 st Q.
Proof. unfold refines. intros ->. auto. Qed.

(** only variables and file system may differ *)
Definition same_args (st st' : pst) : Prop := pre st' = pre st /\ post st' = post st /\ count st' = count st.

Lemma same_args_refl st : same_args st st. Proof. repeat split. Qed.
Lemma same_args_trans a b c : same_args a b -> same_args b c -> same_args a c.
Proof. unfold same_args. intros (? & ? & ?) (? & ? & ?). repeat split; congruence. Qed.

Section refinement.
Variable ndebug : bool.

Lemma store_value_refines x t name v st :
  refines (store_value ndebug x t name v) (s_assign ndebug x t v) st (fun _ st' => same_args st st').
Proof.
  unfold refines, store_value, s_assign. cbn [s_vars abs].
  destruct (parse_option_value t (vars st x) v) as [w r|e]; cbn.
  - destruct r; cbn.
    + repeat split.
    + repeat split; discriminate.
    + destruct (is_arithmetic t); cbn; [repeat split; discriminate|].
      destruct ndebug; cbn; repeat split; discriminate.
  - repeat split; discriminate.
Qed.

Lemma set_list_refines x st :
  refines (modify (fun s => set_vars (set_var (vars s) x (VList [])) s)) (s_set x (VList [])) st
          (fun _ st' => same_args st st').
Proof. unfold refines, s_set, modify; cbn. repeat split. Qed.

Lemma run_validator_refines v x p st :
  refines (run_validator v x p) (s_validate v x) st (fun _ st' => same_args st st').
Proof.
  unfold refines, run_validator, s_validate. cbn [s_vars s_fs abs].
  destruct (v (fsys st) (vars st x)) as [f' [|m| |]]; cbn; repeat split; discriminate.
Qed.

(** ** Identifiers and matching *)

Lemma ident_eqb_eq i j : ident_eqb i j = true <-> i = j.
Proof.
  destruct i as [c|s], j as [d|t]; cbn.
  - rewrite Ascii.eqb_eq. split; congruence.
  - split; discriminate.
  - split; discriminate.
  - rewrite String.eqb_eq. split; congruence.
Qed.
Lemma ident_eqb_refl i : ident_eqb i i = true. Proof. now apply ident_eqb_eq. Qed.
Lemma ident_eqb_neq i j : ident_eqb i j = false <-> i <> j.
Proof. rewrite <- not_true_iff_false, ident_eqb_eq. reflexivity. Qed.

Lemma mem_ident_In i l : mem_ident i l = true <-> In i l.
Proof.
  unfold mem_ident. rewrite existsb_exists. split.
  - intros (j & Hj & He). apply ident_eqb_eq in He. now subst.
  - intros H. exists i. split; [exact H|apply ident_eqb_refl].
Qed.
Lemma mem_ident_nIn i l : mem_ident i l = false <-> ~ In i l.
Proof. rewrite <- mem_ident_In. now destruct (mem_ident i l). Qed.

Lemma mem_ident_cons i j l : mem_ident i (j :: l) = ident_eqb i j || mem_ident i l.
Proof. reflexivity. Qed.

Lemma prepend_dash_dashed i : prepend_dash i = dashed i.
Proof. now destruct i. Qed.

(** the scanner's test for a mention of an identifier is the specification's [looks_like] *)
Lemma arg_matches_looks_like i a : arg_matches i a = looks_like i a.
Proof.
  apply eq_true_iff_eq. unfold arg_matches, looks_like. rewrite prepend_dash_dashed.
  destruct i as [c|s].
  - rewrite String.eqb_eq, stake_full_eq, prefix_iff. reflexivity.
  - rewrite andb_true_iff, !orb_true_iff, !String.eqb_eq, stake_full_eq, Nat.eqb_eq, prefix_iff.
    split.
    + intros [[r ->] H]. rewrite length_app_s in H. destruct H as [H|H].
      * left. destruct r; [now rewrite app_nil_r_s|cbn in H; lia].
      * right. rewrite <- (Nat.add_0_r (String.length _)) in H. unfold snth in H. rewrite get_app in H.
        destruct r as [|d r]; cbn in H; [discriminate|]. apply Ascii.eqb_eq in H. subst d.
        exists r. rewrite app_assoc_s. reflexivity.
    + intros [->|[r ->]].
      * split; [exists EmptyString; now rewrite app_nil_r_s|now left].
      * rewrite app_assoc_s. split; [now exists ("=" +s+ r)|]. right.
        rewrite <- (Nat.add_0_r (String.length _)). unfold snth. rewrite get_app. reflexivity.
Qed.

Lemma good_nonempty i : good_ident i = true -> is_empty_id i = false.
Proof.
  destruct i as [c|s]; cbn.
  - intros H. apply andb_prop in H as [H _]. destruct (Ascii.eqb_spec c nul) as [->|]; [discriminate|reflexivity].
  - destruct s; [discriminate|reflexivity].
Qed.

Lemma good_short_nodash c : good_ident (IdShort c) = true -> c <> "-"%char.
Proof. cbn. intros H ->. rewrite andb_false_r in H. discriminate. Qed.
Lemma good_short_nonul c : good_ident (IdShort c) = true -> c <> nul.
Proof. intros H ->. discriminate. Qed.

Lemma good_long_noeq s : good_ident (IdLong s) = true -> scontains "=" s = false.
Proof.
  cbn. intros H. apply andb_prop in H as [H _]. apply andb_prop in H as [_ H].
  induction s as [|c s IH]; [reflexivity|]. cbn in *. apply andb_prop in H as [Hc H].
  rewrite IH by exact H. rewrite orb_false_r. destruct (Ascii.eqb_spec "=" c) as [<-|]; [discriminate|reflexivity].
Qed.
Lemma good_long_first s : good_ident (IdLong s) = true -> begins "-" s = false /\ s <> EmptyString.
Proof.
  cbn. intros H. apply andb_prop in H as [_ H]. destruct s as [|c s]; [discriminate|].
  cbn. rewrite Ascii.eqb_sym. split; [now apply negb_true_iff|discriminate].
Qed.

Lemma app_noeq_inj a b u v : scontains "=" a = false -> scontains "=" b = false ->
  (a +s+ String "=" u = b +s+ String "=" v \/ a = b +s+ String "=" v \/ a +s+ String "=" u = b) -> a = b.
Proof.
  intros Ha Hb [H|[H|H]].
  - revert b Hb H; induction a as [|x a IH]; intros [|y b] Hb H; cbn in *.
    + reflexivity.
    + injection H as <- _. discriminate.
    + injection H as -> _. discriminate.
    + injection H as <- H. f_equal. apply orb_false_iff in Ha as [_ Ha], Hb as [_ Hb]. now apply IH.
  - subst a. rewrite scontains_app in Ha. apply orb_false_iff in Ha as [_ Ha]. discriminate.
  - subst b. rewrite scontains_app in Hb. apply orb_false_iff in Hb as [_ Hb]. discriminate.
Qed.

(** ** Items whose options may have been consumed *)

Inductive citem := CLive (it : item) | CGone (n : nat).

Definition crender1 (c : citem) : list string :=
  match c with CLive it => render_item it | CGone n => repeat EmptyString n end.
Definition crender (cs : list citem) : list string := flat_map crender1 cs.

Definition cvals1 (i : ident) (c : citem) : list (option string) :=
  match c with CLive it => item_values i it | CGone _ => [] end.
Definition cvals (cs : list citem) (i : ident) : list (option string) := flat_map (cvals1 i) cs.

Definition gone1 (i : ident) (c : citem) : citem :=
  match c with
  | CLive (IOpt j sp v) => if ident_eqb i j then CGone (List.length (render_item (IOpt j sp v))) else c
  | _ => c
  end.
Definition gone (i : ident) (cs : list citem) : list citem := map (gone1 i) cs.

Definition cwf (opts : list ident) (c : citem) : bool :=
  match c with CLive it => wf_item opts it | CGone _ => true end.

Fixpoint cdang (cs : list citem) : bool :=
  match cs with
  | [] => true
  | CLive (IDangling _) :: _ :: _ => false
  | _ :: l => cdang l
  end.

Lemma cdang_app a b : cdang (a ++ b) = true -> cdang b = true.
Proof.
  induction a as [|c a IH]; [auto|]. cbn [app]. intros H. apply IH.
  destruct c as [[]|]; cbn in H; try exact H. destruct (a ++ b); [reflexivity|discriminate].
Qed.

Section interface.
Variables opts flags : list ident.
Hypothesis Hgood_o : forall i, In i opts -> good_ident i = true.
Hypothesis Hgood_f : forall i, In i flags -> good_ident i = true.

Lemma looks_like_empty i : looks_like i EmptyString = false.
Proof. now destruct i. Qed.

Lemma looks_like_dashed i j r : In i opts -> In j opts ->
  (r = EmptyString \/ begins "=" r = true \/ (exists c, j = IdShort c)) ->
  looks_like i (dashed j +s+ r) = true -> i = j.
Proof.
  intros Hi Hj Hr H. pose proof (Hgood_o i Hi) as Hg. pose proof (Hgood_o j Hj) as Hgj.
  destruct i as [c|s], j as [d|t]; cbn -[String.prefix String.eqb] in H.
  - apply prefix_iff in H as [u H]. cbn in H. now injection H as <-.
  - apply prefix_iff in H as [u H]. cbn in H. injection H as <- _. now apply good_short_nodash in Hg.
  - apply orb_true_iff in H as [H|H].
    + apply String.eqb_eq in H. injection H as -> _. now apply good_short_nodash in Hgj.
    + apply prefix_iff in H as [u H]. cbn in H. injection H as -> _. now apply good_short_nodash in Hgj.
  - f_equal. symmetry. destruct Hr as [->|[Hr|[c Hr]]]; [| |discriminate].
    + rewrite app_nil_r_s in H. apply orb_true_iff in H as [H|H].
      * apply String.eqb_eq in H. now injection H.
      * apply prefix_iff in H as [u H]. cbn in H. injection H as H. rewrite app_assoc_s in H.
        apply (app_noeq_inj t s u u); auto using good_long_noeq.
    + destruct r as [|e r]; [discriminate|]. cbn in Hr. apply Ascii.eqb_eq in Hr. subst e.
      apply orb_true_iff in H as [H|H].
      * apply String.eqb_eq in H. injection H as H. apply (app_noeq_inj t s r r); auto using good_long_noeq.
      * apply prefix_iff in H as [u H]. cbn in H. injection H as H. rewrite app_assoc_s in H.
        apply (app_noeq_inj t s r u); auto using good_long_noeq.
Qed.

(** no string of a well-formed item is taken for a mention of another option *)
Lemma no_match i c : In i opts -> cwf opts c = true -> cvals1 i c = [] ->
  forallb (fun a => negb (looks_like i a)) (crender1 c) = true.
Proof.
  intros Hi Hwf Hv.
  destruct c as [it|n]; [|clear; cbn [crender1]; induction n as [|n IH]; cbn [repeat forallb]; [reflexivity|now rewrite looks_like_empty, IH]].
  assert (Hex : forall a, negb (existsb (fun j => looks_like j a) opts) = true -> negb (looks_like i a) = true).
  { intros a H. apply negb_true_iff in H. apply negb_true_iff, not_true_iff_false. intros Hl.
    rewrite <- not_true_iff_false in H. apply H, existsb_exists. eauto. }
  destruct it as [j sp v|j|j|cs|s|w]; cbn [cvals1 item_values cwf crender1] in *.
  - assert (Hij : i <> j).
    { intros ->. rewrite ident_eqb_refl in Hv. discriminate. }
    assert (Hj : In j opts).
    { destruct sp; cbn in Hwf; repeat (apply andb_prop in Hwf as [Hwf ?]); now apply mem_ident_In. }
    destruct sp; cbn [render_item forallb]; rewrite andb_true_r.
    + apply andb_true_intro. split.
      * apply negb_true_iff, not_true_iff_false. intros H. apply Hij.
        apply (looks_like_dashed i j EmptyString); auto. now rewrite app_nil_r_s.
      * cbn [wf_item] in Hwf. apply andb_prop in Hwf as [_ Hwf]. now apply Hex.
    + cbn [wf_item] in Hwf. apply andb_prop in Hwf as [_ Hwf]. destruct j as [d|t]; [|discriminate].
      apply negb_true_iff, not_true_iff_false. intros H. apply Hij.
      apply (looks_like_dashed i (IdShort d) v); eauto.
    + apply negb_true_iff, not_true_iff_false. intros H. apply Hij.
      apply (looks_like_dashed i j ("=" +s+ v)); auto.
  - assert (Hij : i <> j).
    { intros ->. rewrite ident_eqb_refl in Hv. discriminate. }
    cbn in Hwf. apply mem_ident_In in Hwf. cbn [render_item forallb]. rewrite andb_true_r.
    apply negb_true_iff, not_true_iff_false. intros H. apply Hij.
    apply (looks_like_dashed i j "="); auto.
  - assert (Hij : i <> j).
    { intros ->. rewrite ident_eqb_refl in Hv. discriminate. }
    cbn in Hwf. apply mem_ident_In in Hwf. cbn [render_item forallb]. rewrite andb_true_r.
    apply negb_true_iff, not_true_iff_false. intros H. apply Hij.
    apply (looks_like_dashed i j EmptyString); auto. now rewrite app_nil_r_s.
  - cbn [wf_item] in Hwf. apply andb_prop in Hwf as [_ Hwf].
    cbn [render_item forallb]. rewrite andb_true_r. now apply Hex.
  - cbn [wf_item] in Hwf. apply andb_prop in Hwf as [_ Hwf].
    cbn [render_item forallb]. rewrite andb_true_r. now apply Hex.
  - (* word *)
    cbn in Hwf. apply andb_prop in Hwf as [Hne Hw].
    cbn [render_item forallb]. rewrite andb_true_r. apply negb_true_iff, not_true_iff_false. intros H.
    apply orb_true_iff in Hw as [Hw|Hw].
    + apply String.eqb_eq in Hw. subst w. destruct i as [c|t]; discriminate.
    + apply negb_true_iff in Hw. destruct i as [c|t]; cbn -[String.prefix String.eqb] in H.
      * apply prefix_iff in H as [r ->]. discriminate.
      * apply orb_true_iff in H as [H|H].
        -- apply String.eqb_eq in H. subst w. discriminate.
        -- apply prefix_iff in H as [r ->]. discriminate.
Qed.

Lemma split_first_none p l : forallb (fun a => negb (p a)) l = true -> split_first p l = None.
Proof.
  induction l as [|a l IH]; cbn; [reflexivity|]. intros H. apply andb_prop in H as [Ha H].
  apply negb_true_iff in Ha. rewrite Ha, IH by exact H. reflexivity.
Qed.

Lemma split_first_skip p l1 a l2 : forallb (fun x => negb (p x)) l1 = true -> p a = true ->
  split_first p (l1 ++ a :: l2) = Some (l1, a, l2).
Proof.
  induction l1 as [|b l IH]; cbn; intros H Ha; [now rewrite Ha|].
  apply andb_prop in H as [Hb H]. apply negb_true_iff in Hb. rewrite Hb, IH by assumption. reflexivity.
Qed.

Lemma split_first_ext p q l : (forall a, p a = q a) -> split_first p l = split_first q l.
Proof. intros H. induction l as [|a l IH]; cbn; [reflexivity|]. now rewrite H, IH. Qed.

Lemma find_option_id_looks i l : is_empty_id i = false -> find_option_id i l = split_first (looks_like i) l.
Proof. intros H. unfold find_option_id. rewrite H. apply split_first_ext, arg_matches_looks_like. Qed.

Lemma no_match_list i cs : In i opts -> forallb (cwf opts) cs = true -> cvals cs i = [] ->
  forallb (fun a => negb (looks_like i a)) (crender cs) = true.
Proof.
  intros Hi. induction cs as [|c cs IH]; [reflexivity|]. intros H Hv.
  cbn [forallb] in H. apply andb_prop in H as [Hc H].
  change (cvals (c :: cs) i) with (cvals1 i c ++ cvals cs i) in Hv. apply app_eq_nil in Hv as [Hv1 Hv2].
  change (crender (c :: cs)) with (crender1 c ++ crender cs).
  rewrite forallb_app, no_match, IH; auto.
Qed.

Lemma gone_none i cs : cvals cs i = [] -> gone i cs = cs.
Proof.
  induction cs as [|c cs IH]; [reflexivity|]. intros H.
  change (cvals (c :: cs) i) with (cvals1 i c ++ cvals cs i) in H. apply app_eq_nil in H as [H1 H2].
  change (gone i (c :: cs)) with (gone1 i c :: gone i cs).
  rewrite IH by exact H2. f_equal. destruct c as [[j sp v|j|j|?|?|?]|n]; cbn in *; try reflexivity.
  destruct (ident_eqb i j); [discriminate|reflexivity].
Qed.

(** the first mention of [i] among the items *)
Lemma first_mention i cs v vs : cvals cs i = v :: vs ->
  exists c1 it c2, cs = c1 ++ CLive it :: c2 /\ cvals c1 i = [] /\ cvals c2 i = vs /\ item_values i it = [v].
Proof.
  induction cs as [|c cs IH]; [discriminate|]. intros H.
  change (cvals (c :: cs) i) with (cvals1 i c ++ cvals cs i) in H.
  destruct (cvals1 i c) as [|w ws] eqn:E; cbn [app] in H.
  - destruct (IH H) as (c1 & it & c2 & -> & H1 & H2 & H3). exists (c :: c1), it, c2.
    change (cvals (c :: c1) i) with (cvals1 i c ++ cvals c1 i). rewrite E. auto.
  - destruct c as [it|n]; [|discriminate]. cbn in E.
    assert (ws = []) as ->.
    { destruct it; cbn in E; try discriminate; destruct (ident_eqb i _); try discriminate; now injection E. }
    injection H as -> H. exists [], it, cs. auto.
Qed.

Lemma item_values_inv i it v : item_values i it = [v] ->
  match v with
  | Some text => exists sp, it = IOpt i sp text
  | None => it = IMissing i \/ it = IDangling i
  end.
Proof.
  destruct it as [j sp u|j|j|cs|s|w]; cbn; try discriminate;
    destruct (ident_eqb i j) eqn:E; try discriminate; apply ident_eqb_eq in E; subst j; intros H; injection H as <-;
    eauto.
Qed.

Lemma crender_app a b : crender (a ++ b) = crender a ++ crender b.
Proof. apply flat_map_app. Qed.

Lemma looks_like_self i v : looks_like i (dashed i) = true /\
  looks_like i (dashed i +s+ "=" +s+ v) = true /\
  (match i with IdShort _ => looks_like i (dashed i +s+ v) = true | IdLong _ => True end).
Proof.
  destruct i as [c|s]; cbn -[String.prefix String.eqb].
  - repeat split; apply prefix_iff; eexists; cbn; reflexivity.
  - rewrite String.eqb_refl. repeat split. apply orb_true_iff. right. apply prefix_iff. exists v.
    cbn. now rewrite app_assoc_s.
Qed.

(** what retrieving the value of a rendered option item does *)
Lemma retrieve_refines i sp v x t before after st :
  cwf opts (CLive (IOpt i sp v)) = true ->
  exists a r, render_item (IOpt i sp v) = a :: r /\ looks_like i a = true /\
  refines (retrieve ndebug i x t before a (r ++ after)) (s_assign ndebug x t v) st
    (fun p st' => same_args st st' /\ snd p = EmptyString :: after /\
       fst p ++ snd p = before ++ crender1 (gone1 i (CLive (IOpt i sp v))) ++ after).
Proof.
  intros Hwf. destruct (looks_like_self i v) as (L1 & L2 & L3).
  cbn [crender1 gone1]. rewrite ident_eqb_refl. cbn [crender1].
  unfold retrieve. rewrite prepend_dash_dashed.
  destruct sp; cbn [render_item] in *.
  - exists (dashed i), [v]. split; [reflexivity|]. split; [exact L1|].
    rewrite Nat.ltb_irrefl. cbn [app List.length repeat].
    apply refines_bind_r. eapply refines_bind; [apply store_value_refines|].
    intros [] st' Hs. apply refines_ret. repeat split; try apply Hs.
    cbn. now rewrite <- app_assoc.
  - cbn in Hwf. apply andb_prop in Hwf as [Hwf Hi]. apply andb_prop in Hwf as [Hwf He].
    apply andb_prop in Hwf as [_ Hne].
    destruct i as [c|s]; [|discriminate]. exists (dashed (IdShort c) +s+ v), [].
    split; [reflexivity|]. split; [exact L3|].
    rewrite length_app_s. destruct v as [|d v]; [discriminate|]. cbn [String.length].
    rewrite (proj2 (Nat.ltb_lt _ _)) by lia. unfold snth.
    rewrite <- (Nat.add_0_r (String.length (dashed (IdShort c)))) at 1. rewrite get_app. cbn [String.get].
    cbn in He. rewrite Ascii.eqb_sym in He. apply negb_true_iff in He. rewrite He.
    rewrite sdrop_app. apply refines_bind_r. eapply refines_bind; [apply store_value_refines|].
    intros [] st' Hs. apply refines_ret. repeat split; try apply Hs.
  - cbn in Hwf. apply andb_prop in Hwf as [_ Hne].
    exists (dashed i +s+ "=" +s+ v), []. split; [reflexivity|]. split; [exact L2|].
    rewrite length_app_s. destruct v as [|d v]; [discriminate|]. cbn [String.length append].
    rewrite (proj2 (Nat.ltb_lt _ _)) by lia. unfold snth.
    rewrite <- (Nat.add_0_r (String.length (dashed i))) at 1. rewrite get_app. cbn [String.get].
    change (Ascii.eqb "=" "=") with true. cbv iota.
    rewrite (proj2 (Nat.eqb_neq _ _)) by lia.
    assert (Hd : sdrop (String.length (dashed i) + 1) (dashed i +s+ String "=" (String d v)) = String d v).
    { replace (dashed i +s+ String "=" (String d v)) with ((dashed i +s+ "=") +s+ String d v)
        by now rewrite app_assoc_s.
      replace (String.length (dashed i) + 1) with (String.length (dashed i +s+ "=")) by now rewrite length_app_s.
      apply sdrop_app. }
    rewrite Hd. apply refines_bind_r. eapply refines_bind; [apply store_value_refines|].
    intros [] st' Hs. apply refines_ret. repeat split; try apply Hs.
Qed.

(** retrieving a missing value *)
Lemma retrieve_missing i it x t before after st :
  it = IMissing i \/ (it = IDangling i /\ after = []) ->
  exists a, render_item it = [a] /\ looks_like i a = true /\
  forall Q, refines (retrieve ndebug i x t before a after) (fail KTooFew) st Q.
Proof.
  intros Hit. destruct (looks_like_self i EmptyString) as (L1 & L2 & _).
  destruct Hit as [->|[-> ->]]; cbn [render_item]; eexists; (split; [reflexivity|]).
  - split; [exact L2|]. intros Q. unfold retrieve. rewrite prepend_dash_dashed, length_app_s. cbn [String.length].
    rewrite (proj2 (Nat.ltb_lt _ _)) by lia. unfold snth.
    rewrite <- (Nat.add_0_r (String.length (dashed i))) at 1. rewrite get_app. cbn [String.get].
    change (Ascii.eqb "=" "=") with true. cbv iota.
    rewrite Nat.eqb_refl. apply refines_throw.
  - split; [exact L1|]. intros Q. unfold retrieve. rewrite prepend_dash_dashed, Nat.ltb_irrefl. apply refines_throw.
Qed.

(** what one identifier's occurrences do *)
Lemma find_first i cs v vs : In i opts -> forallb (cwf opts) cs = true -> cdang cs = true -> cvals cs i = v :: vs ->
  exists c1 it c2 a r, cs = c1 ++ CLive it :: c2 /\ cvals c1 i = [] /\ cvals c2 i = vs /\
    render_item it = a :: r /\
    cwf opts (CLive it) = true /\ forallb (cwf opts) c2 = true /\ cdang c2 = true /\
    find_option_id i (crender cs) = Some (crender c1, a, r ++ crender c2) /\
    match v with
    | Some text => exists sp, it = IOpt i sp text
    | None => it = IMissing i \/ (it = IDangling i /\ c2 = [])
    end.
Proof.
  intros Hi Hwf Hdang Hv. destruct (first_mention i cs v vs Hv) as (c1 & it & c2 & -> & H1 & H2 & H3).
  rewrite forallb_app in Hwf. apply andb_prop in Hwf as [Hw1 Hw2]. cbn [forallb] in Hw2.
  apply andb_prop in Hw2 as [Hw Hw2]. apply cdang_app in Hdang.
  assert (Hd2 : cdang c2 = true).
  { destruct it; cbn in Hdang; try exact Hdang. destruct c2; [reflexivity|discriminate]. }
  set (st0 := {| pre := []; post := []; vars := fun _ => VBool true; count := 0; fsys := fun _ => None |}).
  pose proof (item_values_inv i it v H3) as Hinv.
  assert (Har : exists a r, render_item it = a :: r /\ looks_like i a = true).
  { destruct v as [text|].
    - destruct Hinv as [sp ->].
      destruct (retrieve_refines i sp text 0 (Scalar TString) [] [] st0 Hw) as (a & r & Hr & Hl & _). eauto.
    - destruct (looks_like_self i EmptyString) as (L1 & L2 & _).
      destruct Hinv as [->| ->]; cbn; eauto. }
  destruct Har as (a & r & Hr & Hl).
  exists c1, it, c2, a, r. repeat split; auto.
  - rewrite find_option_id_looks by (apply good_nonempty, Hgood_o, Hi).
    rewrite crender_app. change (crender (CLive it :: c2)) with (render_item it ++ crender c2).
    rewrite Hr. cbn [app].
    apply split_first_skip; [|exact Hl]. now apply no_match_list.
  - destruct v as [text|]; [exact Hinv|]. destruct Hinv as [->| ->]; [now left|]. right. split; [reflexivity|].
    cbn in Hdang. destruct c2; [reflexivity|discriminate].
Qed.

Lemma find_none i cs : In i opts -> forallb (cwf opts) cs = true -> cvals cs i = [] ->
  find_option_id i (crender cs) = None.
Proof.
  intros Hi Hwf Hv. rewrite find_option_id_looks by (apply good_nonempty, Hgood_o, Hi).
  apply split_first_none. now apply no_match_list.
Qed.

Lemma retrieve_refines' i sp v x t before after st a r :
  cwf opts (CLive (IOpt i sp v)) = true -> render_item (IOpt i sp v) = a :: r ->
  refines (retrieve ndebug i x t before a (r ++ after)) (s_assign ndebug x t v) st
    (fun p st' => same_args st st' /\ snd p = EmptyString :: after /\
       fst p ++ snd p = before ++ crender1 (gone1 i (CLive (IOpt i sp v))) ++ after).
Proof.
  intros Hw Hr. destruct (retrieve_refines i sp v x t before after st Hw) as (a' & r' & Hr' & _ & H).
  rewrite Hr in Hr'. injection Hr' as <- <-. exact H.
Qed.

Lemma gone_app i a b : gone i (a ++ b) = gone i a ++ gone i b.
Proof. apply map_app. Qed.

Lemma cwf_cons1 l : forallb (cwf opts) l = true -> forallb (cwf opts) (CGone 1 :: l) = true.
Proof. auto. Qed.

Lemma get_by_id_scalar_refines i x t cs st : In i opts -> forallb (cwf opts) cs = true -> cdang cs = true ->
  pre st = crender cs ->
  refines (get_by_id_scalar ndebug i x t) (s_scalar ndebug x t (cvals cs i)) st
    (fun b st' => b = given (cvals cs i) /\ pre st' = crender (gone i cs) /\
                  post st' = post st /\ count st' = count st).
Proof.
  intros Hi Hwf Hdang Hpre. destruct (cvals cs i) as [|v vs] eqn:Hv.
  - unfold refines, get_by_id_scalar. rewrite Hpre, find_none by assumption. cbn.
    split; [reflexivity|]. split; [reflexivity|]. intros a [= <-]. rewrite gone_none by exact Hv. auto.
  - destruct (find_first i cs v vs Hi Hwf Hdang Hv) as (c1 & it & c2 & a & r & -> & H1 & H2 & Hr & Hw & Hw2 & Hd2 & Hf & Hit).
    set (Q := fun b st' => b = given (v :: vs) /\ pre st' = crender (gone i (c1 ++ CLive it :: c2)) /\
                  post st' = post st /\ count st' = count st).
    assert (Hm : forall m', refines (do p <- retrieve ndebug i x t (crender c1) a (r ++ crender c2);
         modify (set_pre (fst p ++ snd p)) ;;
         match find_option_id i (snd p) with
         | Some _ => throw KMultiple ("Option " +s+ prepend_dash i
                                      +s+ " is no list/container but declared multiple times.")
         | None => ret true
         end) m' st Q -> refines (get_by_id_scalar ndebug i x t) m' st Q).
    { intros m' H. unfold refines, get_by_id_scalar in *. rewrite Hpre, Hf. exact H. }
    apply Hm. cbn [s_scalar]. destruct v as [text|].
    + destruct Hit as [sp ->]. cbn [s_given].
      eapply refines_bind; [apply retrieve_refines'; eassumption|].
      intros [p1 p2] st1 ((Hs1 & Hs2 & Hs3) & Hp2 & Hp); cbn [fst snd] in *.
      eapply refines_bind_l.
      { apply refines_mod with (Q := fun _ st' => pre st' = p1 ++ p2 /\ post st' = post st /\ count st' = count st);
          [reflexivity|]. cbn. auto. }
      intros [] st2 (Hq1 & Hq2 & Hq3).
      rewrite Hp2. change (EmptyString :: crender c2) with (crender (CGone 1 :: c2)).
      destruct vs as [|v' vs'].
      * rewrite find_none; [|exact Hi|exact Hw2|exact H2].
        apply refines_ret. unfold Q. repeat split; auto.
        rewrite gone_app. cbn [gone map]. fold (gone i c2).
        rewrite (gone_none i c1) by exact H1. rewrite (gone_none i c2) by exact H2.
        rewrite crender_app. change (crender (?c :: ?l)) with (crender1 c ++ crender l).
        now rewrite <- Hp.
      * destruct (find_first i (CGone 1 :: c2) v' vs' Hi Hw2 Hd2 H2) as (c1' & it' & c2' & a' & r' & _ & _ & _ & _ & _ & _ & _ & -> & _).
        apply refines_throw.
    + cbn [s_given].
      assert (Hcase : it = IMissing i \/ it = IDangling i /\ crender c2 = []).
      { destruct Hit as [->|[-> ->]]; auto. }
      destruct (retrieve_missing i it x t (crender c1) (crender c2) st Hcase) as (a' & Hr' & _ & Href).
      rewrite Hr in Hr'. injection Hr' as -> ->. cbn [app].
      eapply refines_bind; [apply (Href (fun _ _ => False))|]. intros ? ? [].
Qed.

Lemma get_all_refines i x t vs : In i opts -> forall cs fuel done st,
  forallb (cwf opts) cs = true -> cdang cs = true -> cvals cs i = vs -> List.length vs < fuel ->
  refines (get_all ndebug fuel i x t done (crender cs)) (mapM_ (s_given ndebug x t) vs) st
    (fun _ st' => pre st' = done ++ crender (gone i cs) /\ post st' = post st /\ count st' = count st).
Proof.
  intros Hi. induction vs as [|v vs IH]; intros cs fuel done st Hwf Hdang Hv Hfuel.
  - destruct fuel as [|fuel]; [lia|]. cbn [get_all]. rewrite find_none by assumption.
    apply refines_mod; [reflexivity|]. cbn. now rewrite gone_none.
  - destruct (find_first i cs v vs Hi Hwf Hdang Hv) as (c1 & it & c2 & a & r & -> & H1 & H2 & Hr & Hw & Hw2 & Hd2 & Hf & Hit).
    destruct fuel as [|fuel]; [cbn in Hfuel; lia|]. cbn [get_all mapM_]. rewrite Hf.
    destruct v as [text|].
    + destruct Hit as [sp ->]. cbn [s_given].
      eapply refines_bind; [apply retrieve_refines'; eassumption|].
      intros [p1 p2] st1 ((Hs1 & Hs2 & Hs3) & Hp2 & Hp); cbn [fst snd] in *.
      rewrite Hp2. change (EmptyString :: crender c2) with (crender (CGone 1 :: c2)).
      eapply refines_post; [apply IH|].
      * exact Hw2.
      * exact Hd2.
      * exact H2.
      * cbn in Hfuel; lia.
      * intros _ st' (Hq1 & Hq2 & Hq3). repeat split; try congruence.
        rewrite Hq1. rewrite gone_app. cbn [gone map]. fold (gone i c2).
        rewrite (gone_none i c1) by exact H1. rewrite crender_app.
        change (crender (?c :: ?l)) with (crender1 c ++ crender l).
        cbn [gone1 crender1 repeat app].
        (* both sides are [done ++ crender c1 ++ blanks ++ crender (gone i c2)] *)
        rewrite Hp2 in Hp. cbn [crender1 gone1] in Hp. rewrite ident_eqb_refl in Hp |- *. cbn [crender1] in Hp |- *.
        assert (Hb : p1 ++ [EmptyString] = (done ++ crender c1) ++ repeat EmptyString (List.length (render_item (IOpt i sp text)))).
        { change (EmptyString :: crender c2) with ([EmptyString] ++ crender c2) in Hp.
          rewrite !app_assoc in Hp. now apply app_inv_tail in Hp. }
        change (EmptyString :: crender (gone i c2)) with ([EmptyString] ++ crender (gone i c2)).
        rewrite app_assoc, Hb. now rewrite !app_assoc.
    + cbn [s_given].
      assert (Hcase : it = IMissing i \/ it = IDangling i /\ crender c2 = []).
      { destruct Hit as [->|[-> ->]]; auto. }
      destruct (retrieve_missing i it x t (done ++ crender c1) (crender c2) st Hcase) as (a' & Hr' & _ & Href).
      rewrite Hr in Hr'. injection Hr' as -> ->. cbn [app].
      eapply refines_bind; [apply (Href (fun _ _ => False))|]. intros ? ? [].
Qed.

Lemma cvals_length cs i : List.length (cvals cs i) <= List.length (crender cs).
Proof.
  induction cs as [|c cs IH]; [cbn; lia|].
  change (cvals (c :: cs) i) with (cvals1 i c ++ cvals cs i).
  change (crender (c :: cs)) with (crender1 c ++ crender cs). rewrite !app_length.
  assert (List.length (cvals1 i c) <= List.length (crender1 c)); [|lia].
  destruct c as [[j sp v|j|j|?|?|?]|n]; cbn; try lia.
  - destruct (ident_eqb i j), sp; cbn; lia.
  - destruct (ident_eqb i j); cbn; lia.
  - destruct (ident_eqb i j); cbn; lia.
Qed.

Lemma get_by_id_list_refines i x t cs st : In i opts -> forallb (cwf opts) cs = true -> cdang cs = true ->
  pre st = crender cs ->
  refines (get_by_id_list ndebug i x t) (s_list ndebug x t (cvals cs i)) st
    (fun b st' => b = given (cvals cs i) /\ pre st' = crender (gone i cs) /\
                  post st' = post st /\ count st' = count st).
Proof.
  intros Hi Hwf Hdang Hpre. destruct (cvals cs i) as [|v vs] eqn:Hv.
  - unfold refines, get_by_id_list. rewrite Hpre, find_none by assumption. cbn.
    split; [reflexivity|]. split; [reflexivity|]. intros a [= <-]. rewrite gone_none by exact Hv. auto.
  - destruct (find_first i cs v vs Hi Hwf Hdang Hv) as (c1 & it & c2 & a & r & _ & _ & _ & _ & _ & _ & _ & Hf & _).
    assert (Hm : forall m', refines (modify (fun s => set_vars (set_var (vars s) x (VList [])) s) ;;
         get_all ndebug (S (List.length (pre st))) i x t [] (pre st) ;;
         ret true) m' st
     (fun b st' => b = given (v :: vs) /\ pre st' = crender (gone i cs) /\
                  post st' = post st /\ count st' = count st) ->
     refines (get_by_id_list ndebug i x t) m' st
     (fun b st' => b = given (v :: vs) /\ pre st' = crender (gone i cs) /\
                  post st' = post st /\ count st' = count st)).
    { intros m' H. unfold refines, get_by_id_list in *. rewrite Hpre in *. rewrite Hf. exact H. }
    apply Hm. cbn [s_list]. eapply refines_bind; [apply set_list_refines|].
    intros [] st1 (Hs1 & Hs2 & Hs3). rewrite Hpre.
    apply refines_ext with (m1 := mapM_ (s_given ndebug x t) (v :: vs) ;; ret tt).
    { unfold bind. destruct (mapM_ (s_given ndebug x t) (v :: vs) (abs st1)) as [s' [[]| | | | |]]; reflexivity. }
    eapply refines_bind.
    { apply get_all_refines; [exact Hi|exact Hwf|exact Hdang|exact Hv|].
      pose proof (cvals_length cs i) as Hl. rewrite Hv in Hl. lia. }
    intros [] st2 (Hq1 & Hq2 & Hq3). apply refines_ret. cbn in Hq1. repeat split; congruence.
Qed.

Lemma get_by_id_refines i x t cs st : In i opts -> forallb (cwf opts) cs = true -> cdang cs = true ->
  pre st = crender cs ->
  refines (get_by_id ndebug i x t) (s_values ndebug x t (cvals cs i)) st
    (fun b st' => b = given (cvals cs i) /\ pre st' = crender (gone i cs) /\
                  post st' = post st /\ count st' = count st).
Proof.
  unfold get_by_id, s_values. intros. destruct (is_container t);
    [now apply get_by_id_list_refines|now apply get_by_id_scalar_refines].
Qed.

(** an absent identifier does nothing *)
Lemma get_by_id_empty i x t st : is_empty_id i = true ->
  refines (get_by_id ndebug i x t) (ret tt) st (fun b st' => b = false /\ st' = st).
Proof.
  intros H. unfold get_by_id, refines. destruct (is_container t).
  - unfold get_by_id_list, find_option_id. rewrite H. cbn. split; [reflexivity|]. split; [reflexivity|]. now intros a [= <-].
  - unfold get_by_id_scalar, find_option_id. rewrite H. cbn. split; [reflexivity|]. split; [reflexivity|]. now intros a [= <-].
Qed.

(** ** The option stage *)

(** the items with the options of identifiers [l] consumed *)
Definition strip1 (l : list ident) (it : item) : citem :=
  match it with
  | IOpt i sp v => if mem_ident i l then CGone (List.length (render_item it)) else CLive it
  | _ => CLive it
  end.
Definition strip (l : list ident) (its : list item) : list citem := map (strip1 l) its.

Lemma strip_wf l its : forallb (wf_item opts) its = true -> forallb (cwf opts) (strip l its) = true.
Proof.
  induction its as [|it its IH]; [reflexivity|]. intros H. cbn [forallb] in H. apply andb_prop in H as [Hi H].
  change (strip l (it :: its)) with (strip1 l it :: strip l its). cbn [forallb].
  rewrite IH by exact H. rewrite andb_true_r. destruct it as [i sp v|? |?|?|?|?]; cbn [strip1]; try exact Hi.
  now destruct (mem_ident i l).
Qed.

Lemma strip_dang l its : dangling_last its = true -> cdang (strip l its) = true.
Proof.
  induction its as [|it its IH]; [reflexivity|]. intros H.
  change (strip l (it :: its)) with (strip1 l it :: strip l its).
  destruct it as [i sp v|i|i|cs|s|w]; cbn in H |- *; auto.
  - destruct (mem_ident i l); auto.
  - destruct its; [reflexivity|discriminate].
Qed.

Lemma strip_nil its : crender (strip [] its) = flat_map render_item its.
Proof.
  induction its as [|it its IH]; [reflexivity|].
  change (strip [] (it :: its)) with (strip1 [] it :: strip [] its).
  change (crender (?c :: ?l)) with (crender1 c ++ crender l). rewrite IH. now destruct it.
Qed.

Lemma strip_gone l its i : gone i (strip l its) = strip (i :: l) its.
Proof.
  unfold gone, strip. rewrite map_map. apply map_ext. intros [j sp v|j|j|?|?|?]; try reflexivity.
  cbn [strip1 mem_ident existsb]. fold (mem_ident j l).
  destruct (mem_ident j l); [now rewrite orb_true_r|]. rewrite orb_false_r.
  cbn [gone1]. destruct (ident_eqb i j) eqn:E.
  - apply ident_eqb_eq in E. subst j. now rewrite ident_eqb_refl.
  - apply ident_eqb_neq in E. replace (ident_eqb j i) with false; [reflexivity|].
    symmetry. apply ident_eqb_neq. congruence.
Qed.

Lemma strip_vals l its i : ~ In i l -> cvals (strip l its) i = values_of its i.
Proof.
  intros Hi. unfold cvals, strip, values_of. rewrite flat_map_concat_map, flat_map_concat_map, map_map.
  f_equal. apply map_ext. intros [j sp v|j|j|?|?|?]; try reflexivity. cbn [strip1].
  destruct (mem_ident j l) eqn:E; [|reflexivity]. cbn.
  destruct (ident_eqb i j) eqn:E'; [|reflexivity]. apply ident_eqb_eq in E'. subst j.
  apply mem_ident_In in E. contradiction.
Qed.

Lemma config_idents_In c i : In i (config_idents c) <->
  (i = IdShort (c_short c) /\ c_short c <> nul) \/ (i = IdLong (c_long c) /\ c_long c <> EmptyString).
Proof.
  unfold config_idents. rewrite in_app_iff.
  destruct (Ascii.eqb_spec (c_short c) nul) as [E|E]; destruct (is_empty (c_long c)) eqn:F;
    rewrite ?is_empty_iff, ?is_empty_false in F; cbn; intuition congruence.
Qed.

Lemma get_option_refines its x t c l st :
  (forall i, In i (config_idents c) -> In i opts) -> (forall i, In i (config_idents c) -> ~ In i l) ->
  forallb (wf_item opts) its = true -> dangling_last its = true -> pre st = crender (strip l its) ->
  refines (get_option ndebug x t c) (s_option ndebug its (DOption x t c)) st
    (fun _ st' => (exists l', (forall i, In i l' <-> In i (config_idents c) \/ In i l) /\ pre st' = crender (strip l' its)) /\
                  post st' = post st /\ count st' = count st).
Proof.
  intros Hopts Hfresh Hwf Hdang Hpre. unfold get_option. cbn [s_option].
  (* after the two searches *)
  assert (Hend : forall l' st2, (forall i, In i l' <-> In i (config_idents c) \/ In i l) ->
    pre st2 = crender (strip l' its) -> post st2 = post st -> count st2 = count st ->
    refines (let names := combine_option_names (c_short c) (c_long c) in
      if given (short_values its c) && given (long_values its c) && negb (is_container t) then
        throw KMultiple ("Option " +s+ names +s+ " is no list/container but specified multiple times")
      else if given (short_values its c) || given (long_values its c) then
        run_validator (c_validator c) x ("Validation failed for option " +s+ names +s+ ": ")
      else if c_required c then
        throw KRequiredMissing ("Option " +s+ names +s+ " is required but not set.")
      else ret tt)
     (if given (short_values its c) && given (long_values its c) && negb (is_container t) then fail KMultiple
       else if given (short_values its c) || given (long_values its c) then s_validate (c_validator c) x
       else if c_required c then fail KRequiredMissing
       else ret tt) st2
    (fun _ st' => (exists l', (forall i, In i l' <-> In i (config_idents c) \/ In i l) /\ pre st' = crender (strip l' its)) /\
                  post st' = post st /\ count st' = count st)).
  { intros l' st2 Hl' Hp2 Hpo2 Hc2. cbv zeta.
    destruct (given (short_values its c) && given (long_values its c) && negb (is_container t)); [apply refines_throw|].
    destruct (given (short_values its c) || given (long_values its c)).
    - eapply refines_post; [apply run_validator_refines|]. intros _ st' (H1 & H2 & H3).
      split; [exists l'; split; [exact Hl'|congruence]|split; congruence].
    - destruct (c_required c); [apply refines_throw|]. apply refines_ret.
      split; [exists l'; auto|auto]. }
  pose (l1 := if Ascii.eqb (c_short c) nul then l else IdShort (c_short c) :: l).
  assert (Hshort : refines (get_by_id ndebug (IdShort (c_short c)) x t) (s_values ndebug x t (short_values its c)) st
    (fun b st' => b = given (short_values its c) /\ pre st' = crender (strip l1 its) /\
                  post st' = post st /\ count st' = count st)).
  { unfold short_values, l1. destruct (Ascii.eqb_spec (c_short c) nul) as [E|E].
    - eapply refines_post; [apply refines_ext with (m1 := ret tt)|].
      + unfold s_values. now destruct (is_container t).
      + apply get_by_id_empty. cbn. rewrite E. reflexivity.
      + intros b st' [-> ->]. auto.
    - assert (Hin : In (IdShort (c_short c)) (config_idents c)) by (apply config_idents_In; auto).
      rewrite <- (strip_vals l its) by (apply Hfresh, Hin).
      rewrite <- strip_gone.
      apply get_by_id_refines; auto; [now apply strip_wf|now apply strip_dang]. }
  eapply refines_bind; [exact Hshort|].
  intros b1 st1 (-> & Hp1 & Hpo1 & Hc1).
  pose (l2 := if is_empty (c_long c) then l1 else IdLong (c_long c) :: l1).
  assert (Hl1 : forall i, In i l1 -> i = IdShort (c_short c) \/ In i l).
  { intros i. unfold l1. destruct (Ascii.eqb (c_short c) nul); cbn; intuition congruence. }
  assert (Hlong : refines (get_by_id ndebug (IdLong (c_long c)) x t) (s_values ndebug x t (long_values its c)) st1
    (fun b st' => b = given (long_values its c) /\ pre st' = crender (strip l2 its) /\
                  post st' = post st /\ count st' = count st)).
  { unfold long_values, l2. destruct (is_empty (c_long c)) eqn:E.
    - eapply refines_post; [apply refines_ext with (m1 := ret tt)|].
      + unfold s_values. now destruct (is_container t).
      + apply get_by_id_empty. exact E.
      + intros b st' [-> ->]. auto.
    - assert (Hin : In (IdLong (c_long c)) (config_idents c))
        by (apply config_idents_In; right; split; [reflexivity|now apply is_empty_false]).
      rewrite <- (strip_vals l1 its).
      2:{ intros H. destruct (Hl1 _ H) as [H'|H']; [discriminate|]. now apply (Hfresh _ Hin). }
      rewrite <- strip_gone. eapply refines_post.
      + apply get_by_id_refines; eauto; [now apply strip_wf|now apply strip_dang].
      + intros b st' (H1 & H2 & H3 & H4). repeat split; congruence. }
  eapply refines_bind; [exact Hlong|].
  intros b2 st2 (-> & Hp2 & Hpo2 & Hc2).
  apply Hend with (l' := l2); auto.
  intros i. unfold l2, l1. rewrite config_idents_In.
  destruct (Ascii.eqb_spec (c_short c) nul) as [E|E]; destruct (is_empty (c_long c)) eqn:F;
    rewrite ?is_empty_iff, ?is_empty_false in F; cbn; intuition congruence.
Qed.

Lemma nodup_idents_NoDup l : nodup_idents l = true -> NoDup l.
Proof.
  induction l as [|i l IH]; cbn; [constructor|]. intros H. apply andb_prop in H as [H1 H2].
  constructor; [|now apply IH]. apply mem_ident_nIn. now apply negb_true_iff.
Qed.

Lemma NoDup_app_disj {A} (a b : list A) x : NoDup (a ++ b) -> In x a -> ~ In x b.
Proof.
  induction a as [|y a IH]; cbn; [tauto|]. intros H [->|Hx] Hb.
  - inversion H as [|? ? Hn _]. apply Hn, in_app_iff. now right.
  - inversion H as [|? ? _ Hd]. now apply IH.
Qed.

Lemma option_stage its ds l st :
  (forall i, In i (flat_map option_idents ds) -> In i opts) ->
  NoDup (flat_map option_idents ds) -> (forall i, In i (flat_map option_idents ds) -> ~ In i l) ->
  forallb (wf_item opts) its = true -> dangling_last its = true -> pre st = crender (strip l its) ->
  refines (mapM_ (option_call ndebug) ds) (mapM_ (s_option ndebug its) ds) st
    (fun _ st' => (exists l', (forall i, In i l' <-> In i (flat_map option_idents ds) \/ In i l) /\ pre st' = crender (strip l' its)) /\
                  post st' = post st /\ count st' = count st).
Proof.
  revert l st; induction ds as [|d ds IH]; intros l st Hopts Hnd Hfresh Hwf Hdang Hpre; cbn [mapM_].
  - apply refines_ret. split; [exists l; split; [cbn; tauto|exact Hpre]|auto].
  - cbn [flat_map] in *.
    assert (Hnd' : NoDup (flat_map option_idents ds)).
    { clear -Hnd. induction (option_idents d) as [|i a IHa]; [exact Hnd|]. apply IHa. now inversion Hnd. }
    assert (Hskip : option_idents d = [] -> option_call ndebug d = ret tt -> s_option ndebug its d = ret tt ->
      refines (option_call ndebug d ;; mapM_ (option_call ndebug) ds) (s_option ndebug its d ;; mapM_ (s_option ndebug its) ds) st
       (fun _ st' => (exists l', (forall i, In i l' <-> In i (option_idents d ++ flat_map option_idents ds) \/ In i l) /\ pre st' = crender (strip l' its)) /\
                  post st' = post st /\ count st' = count st)).
    { intros E E1 E2. rewrite E1, E2. rewrite E in *. cbn [app] in *.
      exact (IH l st Hopts Hnd' Hfresh Hwf Hdang Hpre). }
    destruct d as [x t c|x c|x t c]; [|now apply Hskip|now apply Hskip]. clear Hskip.
    cbn [option_idents] in *. cbn [option_call].
    eapply refines_bind.
    { apply get_option_refines with (l := l); auto; intros i Hi.
      - apply Hopts, in_app_iff. now left.
      - apply Hfresh, in_app_iff. now left. }
    intros [] st1 ((l1 & Hl1 & Hp1) & Hpo1 & Hc1).
    eapply refines_post; [apply (IH l1); auto|].
    + intros i Hi. apply Hopts, in_app_iff. now right.
    + intros i Hi H. apply Hl1 in H as [H|H].
      * revert Hi. now apply (NoDup_app_disj _ _ _ Hnd).
      * revert H. apply Hfresh, in_app_iff. now right.
    + intros _ st' ((l' & Hl' & Hp') & Hpo' & Hc'). split; [|split; congruence].
      exists l'. split; [|exact Hp']. intros i. rewrite Hl', Hl1, in_app_iff. tauto.
Qed.

(** an option stage that succeeds has seen no missing value *)
Lemma s_values_missing x t vs s : In None vs -> okind_of (snd (s_values ndebug x t vs s)) <> ORet.
Proof.
  intros Hin. unfold s_values. destruct (is_container t).
  - destruct vs as [|v vs]; [destruct Hin|]. cbn [s_list]. unfold s_set at 1, modify, bind at 1.
    generalize {| s_vars := set_var (s_vars s) x (VList []); s_fs := s_fs s |}. clear s.
    induction (v :: vs) as [|w ws IH]; [destruct Hin|]. intros s. cbn [mapM_]. unfold bind.
    destruct Hin as [->|Hin]; [cbn; discriminate|].
    destruct (s_given ndebug x t w s) as [s' [u|e|o| | |]]; try (cbn; discriminate). now apply IH.
  - destruct vs as [|v vs]; [destruct Hin|]. cbn [s_scalar]. unfold bind.
    destruct Hin as [->|Hin]; [cbn; discriminate|].
    destruct (s_given ndebug x t v s) as [s' [u|e|o| | |]]; try (cbn; discriminate).
    destruct vs; [destruct Hin|cbn; discriminate].
Qed.

Lemma s_option_missing its x t c i s : In i (config_idents c) -> In None (values_of its i) ->
  okind_of (snd (s_option ndebug its (DOption x t c) s)) <> ORet.
Proof.
  intros Hi Hin. apply config_idents_In in Hi. cbn [s_option].
  unfold bind. destruct (s_values ndebug x t (short_values its c) s) as [s1 r1] eqn:E1.
  destruct r1 as [u|e|o| | |]; try (cbn; discriminate).
  destruct (s_values ndebug x t (long_values its c) s1) as [s2 r2] eqn:E2.
  destruct r2 as [u'|e|o| | |]; try (cbn; discriminate).
  exfalso. destruct Hi as [[-> Hn]|[-> Hn]].
  - apply (s_values_missing x t (short_values its c) s); [|now rewrite E1].
    unfold short_values. now rewrite (proj2 (Ascii.eqb_neq _ _) Hn).
  - apply (s_values_missing x t (long_values its c) s1); [|now rewrite E2].
    unfold long_values. apply is_empty_false in Hn. now rewrite Hn.
Qed.

Lemma s_options_missing its ds i s : In i (flat_map option_idents ds) ->
  okind_of (snd (mapM_ (s_option ndebug its) ds s)) = ORet -> ~ In None (values_of its i).
Proof.
  revert s; induction ds as [|d ds IH]; intros s Hi Hr Hn; [destruct Hi|].
  cbn [flat_map mapM_] in *. unfold bind in Hr. apply in_app_iff in Hi.
  destruct (s_option ndebug its d s) as [s' r] eqn:E. destruct r as [u|e|o| | |]; try discriminate.
  destruct Hi as [Hi|Hi]; [|now apply (IH s')].
  destruct d as [x t c|x c|x t c]; try destruct Hi.
  apply (s_option_missing its x t c i s); auto. now rewrite E.
Qed.

(** ** The flag stage *)

(** what is left of the items while flags are being consumed *)
Inductive fitem := FBlank (n : nat) | FCluster (l : list chr) | FLong (s : string) | FWord (w : string).

Definition frender1 (f : fitem) : list string :=
  match f with
  | FBlank n => repeat EmptyString n
  | FCluster l => [String "-" (of_chars l)]
  | FLong s => ["--" +s+ s]
  | FWord w => [w]
  end.
Definition frender (fs : list fitem) : list string := flat_map frender1 fs.

Definition fments1 (f : fitem) : list ident :=
  match f with FCluster l => map IdShort l | FLong s => [IdLong s] | _ => [] end.
Definition fments (fs : list fitem) : list ident := flat_map fments1 fs.

Definition fwords1 (f : fitem) : list string := match f with FWord w => [w] | _ => [] end.
Definition fwords (fs : list fitem) : list string := flat_map fwords1 fs.

Definition fwf1 (f : fitem) : Prop :=
  match f with
  | FBlank _ => True
  | FCluster l => l <> [] /\ forall c, In c l -> c <> "-"%char /\ c <> nul
  | FLong s => s <> EmptyString
  | FWord w => w <> EmptyString /\ (w = "-" \/ begins "-" w = false)
  end.
Definition fwf (fs : list fitem) : Prop := Forall fwf1 fs.

Definition fof (it : item) : fitem :=
  match it with
  | ICluster cs => FCluster (chars cs)
  | ILongFlag s => FLong s
  | IWord w => FWord w
  | IOpt _ _ _ | IMissing _ | IDangling _ => FBlank (List.length (render_item it))
  end.

Lemma fof_wf its : forallb (wf_item opts) its = true -> fwf (map fof its).
Proof.
  intros H. apply Forall_forall. intros f Hf. apply in_map_iff in Hf as (it & <- & Hin).
  apply (proj1 (forallb_forall _ _) H) in Hin. destruct it as [j sp v|j|j|cs|s|w]; cbn in *; auto.
  - apply andb_prop in Hin as [Hin _]. apply andb_prop in Hin as [Hne Hc]. split.
    + destruct cs; discriminate.
    + intros c Hi. rewrite sall_forallb in Hc. apply (proj1 (forallb_forall _ _) Hc) in Hi.
      apply andb_prop in Hi as [H1 H2]. apply negb_true_iff in H1, H2. split; now apply Ascii.eqb_neq.
  - apply andb_prop in Hin as [Hin _]. apply negb_true_iff in Hin. now apply is_empty_false.
  - apply andb_prop in Hin as [Hne Hw]. split; [apply negb_true_iff in Hne; now apply is_empty_false|].
    apply orb_true_iff in Hw as [Hw|Hw]; [left; now apply String.eqb_eq|right; now apply negb_true_iff].
Qed.

Lemma fof_ments its : fments (map fof its) = mentions its.
Proof.
  unfold fments, mentions. rewrite flat_map_concat_map, map_map, <- flat_map_concat_map.
  apply flat_map_ext. intros []; reflexivity.
Qed.

Definition word_of (it : item) : list string := match it with IWord w => [w] | _ => [] end.

Lemma fof_words its : fwords (map fof its) = flat_map word_of its.
Proof.
  unfold fwords. rewrite flat_map_concat_map, map_map, <- flat_map_concat_map.
  apply flat_map_ext. intros []; reflexivity.
Qed.

Lemma strip_all l its : (forall i, In i opts -> In i l) -> (forall i, In i opts -> ~ In None (values_of its i)) ->
  forallb (wf_item opts) its = true -> crender (strip l its) = frender (map fof its).
Proof.
  intros Hl. induction its as [|it its IH]; [reflexivity|]. cbn [forallb]. intros Hn H. apply andb_prop in H as [Hw H].
  change (strip l (it :: its)) with (strip1 l it :: strip l its).
  change (crender (?c :: ?cs)) with (crender1 c ++ crender cs).
  change (frender (map fof (it :: its))) with (frender1 (fof it) ++ frender (map fof its)).
  assert (Hn' : forall i, In i opts -> ~ In None (item_values i it) /\ ~ In None (values_of its i)).
  { intros i Hi. specialize (Hn i Hi). change (values_of (it :: its) i) with (item_values i it ++ values_of its i) in Hn.
    rewrite in_app_iff in Hn. tauto. }
  rewrite IH; [|intros i Hi; now apply Hn'|exact H]. f_equal.
  destruct it as [i sp v|i|i|cs|s|w]; cbn [strip1 frender1 fof]; try reflexivity.
  - rewrite (proj2 (mem_ident_In i l)); [reflexivity|]. apply Hl, mem_ident_In.
    destruct sp; cbn in Hw; repeat (apply andb_prop in Hw as [Hw ?]); exact Hw.
  - cbn in Hw. apply mem_ident_In in Hw. exfalso. apply (proj1 (Hn' i Hw)). cbn. rewrite ident_eqb_refl. now left.
  - cbn in Hw. apply mem_ident_In in Hw. exfalso. apply (proj1 (Hn' i Hw)). cbn. rewrite ident_eqb_refl. now left.
  - cbn. now rewrite of_chars_chars.
Qed.

(** *** counting mentions *)

Lemma count_in_cons l i m : count_in l (i :: m) = (if mem_ident i l then 1 else 0) + count_in l m.
Proof. unfold count_in. cbn. now destruct (mem_ident i l). Qed.

Lemma count_in_perm l m m' : Permutation m m' -> count_in l m = count_in l m'.
Proof. induction 1 as [|i m m' _ IH|i j m|m1 m2 m3 _ IH1 _ IH2]; rewrite ?count_in_cons; lia. Qed.

Lemma count_in_pos l m : 0 < count_in l m <-> exists i, In i l /\ In i m.
Proof.
  induction m as [|j m IH]; [cbn; split; [lia|intros (i & _ & [])]|]. rewrite count_in_cons. split.
  - intros H. destruct (mem_ident j l) eqn:E.
    + apply mem_ident_In in E. exists j. split; [exact E|now left].
    + apply IH in H as (i & Hi & Hm). exists i. split; [exact Hi|now right].
  - intros (i & Hi & [->|Hm]).
    + apply mem_ident_In in Hi. rewrite Hi. lia.
    + assert (0 < count_in l m) by (apply IH; eauto). lia.
Qed.

(** *** scanning *)

Lemma flag_scan_app c l1 l2 : flag_scan c (l1 ++ l2) =
  match flag_scan c l1 with Some l => Some (l ++ l2) | None => option_map (app l1) (flag_scan c l2) end.
Proof.
  induction l1 as [|a l1 IH]; cbn.
  - now destruct (flag_scan c l2).
  - destruct (if is_cluster a then sfind c a else None); [reflexivity|]. rewrite IH.
    destruct (flag_scan c l1); cbn; [reflexivity|]. now destruct (flag_scan c l2).
Qed.

Lemma flag_scan_blank c n : flag_scan c (repeat EmptyString n) = None.
Proof. induction n as [|n IH]; cbn; [reflexivity|now rewrite IH]. Qed.

Lemma flag_scan_one c a : flag_scan c [a] =
  match (if is_cluster a then sfind c a else None) with
  | Some pos => Some [if String.eqb (erase_at pos a) "-" then EmptyString else erase_at pos a]
  | None => None
  end.
Proof. cbn. now destruct (if is_cluster a then sfind c a else None). Qed.

(** consuming one mention of [j] turns [fs] into [fs'] *)
Definition consumed (j : ident) (fs fs' : list fitem) : Prop :=
  fwf fs' /\ fwords fs' = fwords fs /\ Permutation (fments fs) (j :: fments fs').

Definition scanned (scan : list string -> option (list string)) (j : ident) (fs : list fitem) : Prop :=
  (scan (frender fs) = None /\ ~ In j (fments fs)) \/
  (exists fs', scan (frender fs) = Some (frender fs') /\ consumed j fs fs').

Lemma scanned_cons scan j f fs :
  (forall l1 l2, scan (l1 ++ l2) = match scan l1 with Some l => Some (l ++ l2) | None => option_map (app l1) (scan l2) end) ->
  fwf (f :: fs) -> scanned scan j [f] -> scanned scan j fs -> scanned scan j (f :: fs).
Proof.
  intros Happ Hwf H1 H2. unfold scanned in *.
  change (frender (f :: fs)) with (frender1 f ++ frender fs).
  change (fments (f :: fs)) with (fments1 f ++ fments fs).
  change (frender [f]) with (frender1 f ++ []) in H1. rewrite app_nil_r in H1.
  change (fments [f]) with (fments1 f ++ []) in H1. rewrite app_nil_r in H1.
  inversion Hwf as [|? ? Hf Hfs]; subst.
  destruct H1 as [[E1 N1]|(f' & E1 & W1 & D1 & P1)].
  - destruct H2 as [[E2 N2]|(fs' & E2 & W2 & D2 & P2)].
    + left. rewrite Happ, E1, E2. split; [reflexivity|]. rewrite in_app_iff. tauto.
    + right. exists (f :: fs'). rewrite Happ, E1, E2. split; [reflexivity|]. split; [now constructor|].
      split; [change (fwords1 f ++ fwords fs' = fwords1 f ++ fwords fs); now rewrite D2|].
      change (fments (f :: ?x)) with (fments1 f ++ fments x). rewrite P2. symmetry. apply Permutation_middle.
  - right. exists (f' ++ fs). rewrite Happ, E1. unfold frender. rewrite flat_map_app. split; [reflexivity|].
    split; [now apply Forall_app|]. split.
    + unfold fwords in *. rewrite flat_map_app, D1. cbn. now rewrite app_nil_r.
    + unfold fments in *. rewrite flat_map_app. cbn in P1. rewrite app_nil_r in P1. cbn [flat_map].
      now rewrite P1.
Qed.

Lemma flag_scanned1 c f : c <> "-"%char -> fwf1 f -> scanned (flag_scan c) (IdShort c) [f].
Proof.
  intros Hc Hwf. unfold scanned. change (frender [f]) with (frender1 f ++ []).
  change (fments [f]) with (fments1 f ++ []). rewrite !app_nil_r.
  destruct f as [n|l|s|w]; cbn [frender1 fments1 fwf1] in *.
  - left. split; [apply flag_scan_blank|auto].
  - destruct Hwf as [Hne Hch]. rewrite flag_scan_one.
    destruct l as [|d l]; [contradiction|]. clear Hne.
    assert (Hcl : is_cluster (String "-" (of_chars (d :: l))) = true).
    { cbn. rewrite (proj2 (Ascii.eqb_neq d "-")); [reflexivity|]. apply Hch. now left. }
    rewrite Hcl.
    assert (Hs : sfind c (String "-" (of_chars (d :: l))) = option_map S (sfind c (of_chars (d :: l)))).
    { cbn [sfind]. now rewrite (proj2 (Ascii.eqb_neq c "-")). }
    rewrite Hs. clear Hs Hcl.
    destruct (sfind c (of_chars (d :: l))) as [n|] eqn:Ef; cbn [option_map].
    + right. destruct (sfind_Some _ _ _ Ef) as (x & y & Hxy & _ & Hx & He).
      cbn [erase_at]. rewrite He.
      assert (Hdl : d :: l = chars x ++ c :: chars y).
      { rewrite <- (chars_of_chars (d :: l)), Hxy, chars_app. reflexivity. }
      destruct (x +s+ y) as [|e z] eqn:Exy.
      * exists [FBlank 1]. split; [reflexivity|]. split; [repeat constructor|]. split; [reflexivity|].
        apply app_eq_nil_s in Exy as [-> ->]. cbn in Hdl. rewrite Hdl. cbn. reflexivity.
      * exists [FCluster (chars (String e z))]. split.
        { change (String.eqb (String "-" (String e z)) "-") with false. cbn [frender flat_map frender1 app].
          now rewrite of_chars_chars. }
        rewrite <- Exy, chars_app. split.
        { constructor; [|constructor]. cbn. split; [rewrite <- chars_app, Exy; discriminate|].
          intros b Hb. apply Hch. rewrite Hdl. rewrite in_app_iff in *. cbn. tauto. }
        split; [reflexivity|]. cbn. rewrite !app_nil_r. change (IdShort d :: map IdShort l) with (map IdShort (d :: l)).
        rewrite Hdl, !map_app. cbn. symmetry. apply Permutation_middle.
    + left. split; [reflexivity|]. intros Hin. change (IdShort d :: map IdShort l) with (map IdShort (d :: l)) in Hin.
      apply in_map_iff in Hin as (c' & [= ->] & Hin).
      apply sfind_None in Ef. rewrite <- not_true_iff_false in Ef. apply Ef, scontains_In. now rewrite chars_of_chars.
  - left. split; [reflexivity|]. intros [H|[]]. discriminate.
  - left. rewrite flag_scan_one. split; [|auto]. replace (is_cluster w) with false; [reflexivity|].
    destruct Hwf as [_ [->|Hw]]; [reflexivity|]. destruct w as [|d [|e w]]; try reflexivity. cbn in Hw |- *.
    rewrite Ascii.eqb_sym in Hw. now rewrite Hw.
Qed.

Lemma flag_scanned c fs : c <> "-"%char -> fwf fs -> scanned (flag_scan c) (IdShort c) fs.
Proof.
  intros Hc. induction fs as [|f fs IH]; intros Hwf.
  - left. split; [reflexivity|auto].
  - inversion Hwf; subst. apply scanned_cons; auto using flag_scan_app, flag_scanned1.
Qed.

(** searching a long flag *)
Definition long_scan (s : string) (l : list string) : option (list string) :=
  match split_first (String.eqb (prepend_dash (IdLong s))) l with
  | Some (b, _, r) => Some (b ++ EmptyString :: r)
  | None => None
  end.

Lemma long_scan_app s l1 l2 : long_scan s (l1 ++ l2) =
  match long_scan s l1 with Some l => Some (l ++ l2) | None => option_map (app l1) (long_scan s l2) end.
Proof.
  unfold long_scan. generalize (String.eqb (prepend_dash (IdLong s))). intros p.
  induction l1 as [|a l1 IH]; cbn [app split_first].
  - now destruct (split_first p l2) as [[[b e] r]|].
  - destruct (p a); [reflexivity|].
    destruct (split_first p (l1 ++ l2)) as [[[b e] r]|]; destruct (split_first p l1) as [[[b' e'] r']|];
      destruct (split_first p l2) as [[[b'' e''] r'']|]; cbn in *; try congruence; try discriminate;
      injection IH as IH; now rewrite IH.
Qed.

Lemma long_scan_one s a : long_scan s [a] = if String.eqb ("--" +s+ s) a then Some [EmptyString] else None.
Proof. unfold long_scan. cbn. now destruct (String.eqb _ a). Qed.

Lemma long_scan_blank s n : long_scan s (repeat EmptyString n) = None.
Proof.
  induction n as [|n IH]; [reflexivity|]. change (repeat EmptyString (S n)) with ([EmptyString] ++ repeat EmptyString n).
  rewrite long_scan_app, long_scan_one, IH. reflexivity.
Qed.

Lemma long_scanned1 s f : fwf1 f -> scanned (long_scan s) (IdLong s) [f].
Proof.
  intros Hwf. unfold scanned. change (frender [f]) with (frender1 f ++ []).
  change (fments [f]) with (fments1 f ++ []). rewrite !app_nil_r.
  destruct f as [n|l|t|w]; cbn [frender1 fments1 fwf1] in *.
  - left. split; [apply long_scan_blank|auto].
  - left. destruct Hwf as [Hne Hch]. rewrite long_scan_one. split.
    + destruct (String.eqb_spec ("--" +s+ s) (String "-" (of_chars l))) as [E|]; [|reflexivity].
      destruct l as [|d l]; [contradiction|]. exfalso. destruct (Hch d (or_introl eq_refl)) as [Hd _]. apply Hd. cbn in E. congruence.
    + intros H. apply in_map_iff in H as (c & H & _). discriminate.
  - rewrite long_scan_one. destruct (String.eqb_spec ("--" +s+ s) ("--" +s+ t)) as [E|E].
    + injection E as ->. right. exists [FBlank 1]. split; [reflexivity|]. split; [repeat constructor|].
      split; reflexivity.
    + left. split; [reflexivity|]. intros [H|[]]. congruence.
  - left. rewrite long_scan_one. split; [|auto].
    destruct (String.eqb_spec ("--" +s+ s) w) as [<-|]; [|reflexivity]. destruct Hwf as [_ [H|H]]; discriminate.
Qed.

Lemma long_scanned s fs : fwf fs -> scanned (long_scan s) (IdLong s) fs.
Proof.
  induction fs as [|f fs IH]; intros Hwf.
  - left. split; [reflexivity|auto].
  - inversion Hwf; subst. apply scanned_cons; auto using long_scan_app, long_scanned1.
Qed.

Lemma flag_is_set_long_scan s st : flag_is_set_long s st =
  match long_scan s (pre st) with Some l => (set_pre l st, Ret true) | None => (st, Ret false) end.
Proof. unfold flag_is_set_long, long_scan. now destruct (split_first _ (pre st)) as [[[b e] r]|]. Qed.

(** the words behind "--" are left alone *)
Lemma tail_scan c t : c <> "-"%char -> wf_tail flags t = true -> c = nul \/ In (IdShort c) flags ->
  flag_scan c (render_tail t) = None.
Proof.
  intros Hc Hwf Hin. destruct t as [ws|]; [|reflexivity]. cbn [render_tail wf_tail] in *.
  change ("--" :: ws) with (["--"] ++ ws). rewrite flag_scan_app, flag_scan_one.
  cbn [is_cluster]. rewrite Ascii.eqb_refl. cbn [andb negb].
  induction ws as [|w ws IH]; [reflexivity|]. cbn [forallb] in Hwf. apply andb_prop in Hwf as [Hw Hwf].
  change (w :: ws) with ([w] ++ ws). rewrite flag_scan_app, flag_scan_one.
  specialize (IH Hwf). destruct (flag_scan c ws); [discriminate|].
  apply andb_prop in Hw as [Hw Hl]. apply andb_prop in Hw as [_ Hn]. apply negb_true_iff in Hn.
  destruct (is_cluster w) eqn:Ecl; [|reflexivity].
  destruct (sfind c w) as [n|] eqn:Ef; [|reflexivity]. exfalso.
  assert (Hcw : scontains c w = true).
  { destruct (scontains c w) eqn:E; [reflexivity|]. apply sfind_None in E. congruence. }
  destruct Hin as [->|Hin]; [congruence|].
  apply (proj1 (forallb_forall _ _) Hl) in Hin. apply negb_true_iff in Hin.
  destruct w as [|d [|e w]]; try discriminate. cbn in Ecl, Hin, Hcw.
  apply andb_prop in Ecl as [E1 E2]. rewrite E1, E2 in Hin. cbn in Hin.
  apply Ascii.eqb_eq in E1. subst d. rewrite (proj2 (Ascii.eqb_neq c "-")) in Hcw by exact Hc. cbn in Hcw. congruence.
Qed.

Lemma fments_good fs : fwf fs -> ~ In (IdShort nul) (fments fs) /\ ~ In (IdLong EmptyString) (fments fs).
Proof.
  unfold fments. intros H. split; intros Hin; apply in_flat_map in Hin as (f & Hf & Hin);
    apply (proj1 (Forall_forall _ _) H) in Hf; destruct f as [n|l|s|w]; cbn in *; try tauto.
  - apply in_map_iff in Hin as (c & [= ->] & Hin). apply Hf in Hin. tauto.
  - destruct Hin; [discriminate|tauto].
  - apply in_map_iff in Hin as (c & E & Hin). discriminate.
  - destruct Hin as [[= ->]|[]]. now apply Hf.
Qed.

Lemma as_bool_true v : as_bool v = was_true v.
Proof. now destruct v as [|[]| | | | | |]. Qed.

Lemma get_flag_refines its t x c fs st :
  fwf fs -> wf_tail flags t = true ->
  (forall i, In i (config_idents c) -> In i flags) ->
  count_in (config_idents c) (fments fs) = count_in (config_idents c) (mentions its) ->
  pre st = frender fs -> post st = render_tail t ->
  refines (get_flag x c) (s_flag its (DFlag x c)) st
    (fun _ st' => (exists fs', pre st' = frender fs' /\
                    ((exists j, In j (config_idents c) /\ consumed j fs fs') \/
                     (fs' = fs /\ count_in (config_idents c) (fments fs) = 0))) /\
                  post st' = post st /\ count st' = count st).
Proof.
  intros Hwf Hwt Hfl Hcnt Hpre Hpost.
  set (Sh := IdShort (c_short c)). set (Lo := IdLong (c_long c)).
  destruct (fments_good fs Hwf) as [HnS HnL].
  assert (HgoodS : In Sh (fments fs) -> In Sh (config_idents c)).
  { intros H. apply config_idents_In. left. split; [reflexivity|]. intros E. apply HnS. now rewrite <- E. }
  assert (HgoodL : In Lo (fments fs) -> In Lo (config_idents c)).
  { intros H. apply config_idents_In. right. split; [reflexivity|]. intros E. apply HnL. now rewrite <- E. }
  assert (Hdash : c_short c <> "-"%char).
  { destruct (Ascii.eqb_spec (c_short c) nul) as [E|E]; [rewrite E; discriminate|].
    apply good_short_nodash, Hgood_f, Hfl, config_idents_In. auto. }
  assert (Hmen : existsb (fun i => mem_ident i (config_idents c)) (mentions its) = true <->
                 In Sh (fments fs) \/ In Lo (fments fs)).
  { transitivity (0 < count_in (config_idents c) (fments fs)).
    - rewrite Hcnt, count_in_pos, existsb_exists. split; intros (i & H1 & H2); exists i; rewrite mem_ident_In in *; auto.
    - rewrite count_in_pos. split.
      + intros (i & Hi & Hm). apply config_idents_In in Hi as [[-> _]|[-> _]]; auto.
      + intros [H|H]; eauto. }
  assert (Hpostscan : flag_scan (c_short c) (post st) = None).
  { rewrite Hpost. apply tail_scan; auto.
    destruct (Ascii.eqb_spec (c_short c) nul) as [E|E]; [now left|right]. apply Hfl, config_idents_In. auto. }
  assert (Hin : forall j fs', consumed j fs fs' -> In j (fments fs)).
  { intros j fs' (_ & _ & P). symmetry in P. eapply Permutation_in; [exact P|now left]. }
  unfold refines, get_flag, bind, flag_is_set_short. rewrite Hpre.
  unfold s_flag. rewrite <- as_bool_true.
  destruct (flag_scanned (c_short c) fs Hdash Hwf) as [[ES NS]|(fs' & ES & CS)]; rewrite ES.
  - rewrite Hpostscan. cbn [fst snd]. rewrite flag_is_set_long_scan, Hpre.
    destruct (long_scanned (c_long c) fs Hwf) as [[EL NL]|(fs' & EL & CL)]; rewrite EL; cbn [fst snd].
    + replace (existsb _ (mentions its)) with false.
      2:{ symmetry. apply not_true_iff_false. rewrite Hmen. tauto. }
      cbn. split; [reflexivity|]. split; [reflexivity|]. intros _ _. split; [|auto].
      exists fs. split; [exact Hpre|]. right. split; [reflexivity|].
      destruct (count_in (config_idents c) (fments fs)) as [|n] eqn:En; [reflexivity|]. exfalso.
      assert (Hp : 0 < count_in (config_idents c) (fments fs)) by lia.
      apply count_in_pos in Hp as (i & Hi & Hm). apply config_idents_In in Hi as [[-> _]|[-> _]]; auto.
    + replace (existsb _ (mentions its)) with true.
      2:{ symmetry. apply Hmen. right. now apply (Hin _ fs'). }
      cbn. split; [reflexivity|]. split; [reflexivity|]. intros _ _. split; [|auto].
      exists fs'. split; [reflexivity|]. left. exists Lo. split; [|exact CL]. apply HgoodL. now apply (Hin _ fs').
  - cbn [fst snd]. replace (existsb _ (mentions its)) with true.
    2:{ symmetry. apply Hmen. left. now apply (Hin _ fs'). }
    cbn. split; [reflexivity|]. split; [reflexivity|]. intros _ _. split; [|auto].
    exists fs'. split; [reflexivity|]. left. exists Sh. split; [|exact CS]. apply HgoodS. now apply (Hin _ fs').
Qed.

(** what has been consumed after the flag calls of [ds]: of every flag one mention, nothing else *)
Definition reduced (ds : list decl) (fs fs' : list fitem) : Prop :=
  fwf fs' /\ fwords fs' = fwords fs /\
  (forall d, In d ds -> count_in (flag_idents d) (fments fs') = count_in (flag_idents d) (fments fs) - 1) /\
  (forall l, (forall i, In i l -> ~ In i (flat_map flag_idents ds)) ->
     count_in l (fments fs') = count_in l (fments fs)).

Lemma flag_stage its t ds fs st :
  fwf fs -> wf_tail flags t = true ->
  (forall i, In i (flat_map flag_idents ds) -> In i flags) ->
  NoDup (flat_map flag_idents ds) ->
  (forall d, In d ds -> count_in (flag_idents d) (fments fs) = count_in (flag_idents d) (mentions its)) ->
  pre st = frender fs -> post st = render_tail t ->
  refines (mapM_ flag_call ds) (mapM_ (s_flag its) ds) st
    (fun _ st' => (exists fs', pre st' = frender fs' /\ reduced ds fs fs') /\
                  post st' = post st /\ count st' = count st).
Proof.
  revert fs st; induction ds as [|d ds IH]; intros fs st Hwf Hwt Hfl Hnd Hcnt Hpre Hpost; cbn [mapM_].
  - apply refines_ret. split; [|auto]. exists fs. split; [exact Hpre|]. split; [exact Hwf|]. split; [reflexivity|].
    split; [intros d []|auto].
  - cbn [flat_map] in *.
    assert (Hnd' : NoDup (flat_map flag_idents ds)).
    { clear -Hnd. induction (flag_idents d) as [|i a IHa]; [exact Hnd|]. apply IHa. now inversion Hnd. }
    assert (Hskip : flag_idents d = [] -> flag_call d = ret tt -> s_flag its d = ret tt ->
      refines (flag_call d ;; mapM_ flag_call ds) (s_flag its d ;; mapM_ (s_flag its) ds) st
       (fun _ st' => (exists fs', pre st' = frender fs' /\ reduced (d :: ds) fs fs') /\
                  post st' = post st /\ count st' = count st)).
    { intros E E1 E2. rewrite E1, E2. rewrite E in *. cbn [app] in *.
      eapply refines_post; [apply (IH fs st); auto; intros d' Hd'; apply Hcnt; now right|].
      intros _ st' ((fs' & Hp & Hw' & Hws & Hc1 & Hc2) & Hr). split; [|exact Hr]. exists fs'. split; [exact Hp|].
      split; [exact Hw'|]. split; [exact Hws|]. split.
      - intros d' [<-|Hd']; [|now apply Hc1]. rewrite E. unfold count_in.
        assert (Hz : forall m, List.length (filter (fun i => mem_ident i []) m) = 0) by (induction m; cbn; auto).
        rewrite !Hz. reflexivity.
      - intros l Hl. apply Hc2. cbn [flat_map] in Hl. rewrite E in Hl. exact Hl. }
    destruct d as [x ty c|x c|x ty c]; [now apply Hskip| |now apply Hskip]. clear Hskip.
    cbn [flag_idents] in *. cbn [flag_call].
    eapply refines_bind.
    { apply get_flag_refines with (t := t) (fs := fs); auto.
      - intros i Hi. apply Hfl, in_app_iff. now left.
      - apply (Hcnt (DFlag x c)). now left. }
    intros [] st1 ((fs1 & Hp1 & Hcase) & Hpo1 & Hc1).
    assert (Hdis : forall d', In d' ds -> forall i, In i (flag_idents d') -> ~ In i (config_idents c)).
    { intros d' Hd' i Hi H. apply (NoDup_app_disj _ _ i Hnd H). apply in_flat_map. eauto. }
    assert (Hfs1 : fwf fs1 /\ fwords fs1 = fwords fs /\
       count_in (config_idents c) (fments fs1) = count_in (config_idents c) (fments fs) - 1 /\
       (forall l, (forall i, In i l -> ~ In i (config_idents c)) -> count_in l (fments fs1) = count_in l (fments fs))).
    { destruct Hcase as [(j & Hj & Hw1 & Hd1 & P1)|[-> Hz]].
      - repeat split; auto.
        + rewrite (count_in_perm _ _ _ P1), count_in_cons, (proj2 (mem_ident_In j _) Hj). lia.
        + intros l Hl. rewrite (count_in_perm _ _ _ P1), count_in_cons.
          rewrite (proj2 (mem_ident_nIn j l)); [reflexivity|]. intros H. now apply (Hl j).
      - repeat split; auto. lia. }
    destruct Hfs1 as (Hw1 & Hd1 & Hx1 & Hl1).
    eapply refines_post; [apply (IH fs1); auto; try congruence|].
    + intros i Hi. apply Hfl, in_app_iff. now right.
    + intros d' Hd'. rewrite Hl1 by now apply Hdis. apply Hcnt. now right.
    + intros _ st' ((fs' & Hp' & Hw' & Hws & Hy1 & Hy2) & Hpo' & Hc'). split; [|split; congruence].
      exists fs'. split; [exact Hp'|]. split; [exact Hw'|]. split; [congruence|]. split.
      * intros d' [<-|Hd'].
        -- cbn [flag_idents]. rewrite Hy2, Hx1; [reflexivity|]. intros i Hi. now apply (NoDup_app_disj _ _ i Hnd).
        -- rewrite Hy1 by exact Hd'. rewrite Hl1; [reflexivity|]. now apply Hdis.
      * intros l Hl. cbn [flat_map flag_idents] in Hl. rewrite Hy2, Hl1; [reflexivity| |].
        -- intros i Hi H. apply (Hl i Hi), in_app_iff. now left.
        -- intros i Hi H. apply (Hl i Hi), in_app_iff. now right.
Qed.

(** the remaining mentions are the unknown and repeated ones *)
Lemma reduced_unknown decls its fs' : reduced decls (map fof its) fs' ->
  (fments fs' = [] <-> unknown decls its = false).
Proof.
  intros (Hw & Hd & Hc & Hl). rewrite fof_ments in *. unfold unknown. rewrite orb_false_iff. split.
  - intros E. rewrite E in *. split.
    + apply not_true_iff_false. intros H. apply existsb_exists in H as (i & Hi & Hn).
      apply negb_true_iff, mem_ident_nIn in Hn.
      assert (Hz : count_in [i] [] = count_in [i] (mentions its)) by (apply Hl; intros j [<-|[]]; exact Hn).
      assert (Hp : 0 < count_in [i] (mentions its)) by (apply count_in_pos; exists i; split; [now left|exact Hi]).
      cbn in Hz. lia.
    + apply not_true_iff_false. intros H. apply existsb_exists in H as (d & Hin & Hn). apply Nat.leb_le in Hn.
      specialize (Hc d Hin). cbn in Hc. lia.
  - intros [H1 H2]. destruct (fments fs') as [|i m] eqn:E; [reflexivity|]. exfalso.
    destruct (mem_ident i (flat_map flag_idents decls)) eqn:Em.
    + apply mem_ident_In, in_flat_map in Em as (d & Hin & Hi). specialize (Hc d Hin).
      rewrite count_in_cons, (proj2 (mem_ident_In i _) Hi) in Hc.
      rewrite <- not_true_iff_false in H2. apply H2, existsb_exists. exists d. split; [exact Hin|].
      apply Nat.leb_le. lia.
    + apply mem_ident_nIn in Em.
      assert (Hz : count_in [i] (i :: m) = count_in [i] (mentions its)) by (apply Hl; intros j [<-|[]]; exact Em).
      rewrite count_in_cons, (proj2 (mem_ident_In i [i]) (or_introl eq_refl)) in Hz.
      assert (Hp : 0 < count_in [i] (mentions its)) by lia. apply count_in_pos in Hp as (j & [<-|[]] & Hj).
      rewrite <- not_true_iff_false in H1. apply H1, existsb_exists. exists i. split; [exact Hj|].
      apply negb_true_iff. now apply mem_ident_nIn.
Qed.

Lemma rfind_comma a b : rfind "," (a +s+ String "," b) <> None.
Proof.
  induction a as [|d a IH]; cbn.
  - destruct (rfind "," b); discriminate.
  - destruct (rfind "," (a +s+ String "," b)); [discriminate|contradiction].
Qed.

Lemma expand_ok e d r : Ascii.eqb e "-" = true -> exists m, expand_multiple_flags (String e (String d r)) = Ret m \/
  r = EmptyString.
Proof.
  intros He. destruct r as [|d' r]; [exists EmptyString; now right|].
  unfold expand_multiple_flags. rewrite He. cbn [is_empty].
  change (init_chars (String d (String d' r))) with (String d (init_chars (String d' r))).
  cbn [dash_list].
  set (tmp := "-" +s+ str1 d +s+ ", " +s+ dash_list (init_chars (String d' r))).
  destruct (rfind "," tmp) as [n|] eqn:E; [eexists; left; reflexivity|].
  exfalso. unfold tmp in E. cbn [String.append str1] in E.
  apply (rfind_comma (String "-" (str1 d)) (String " " (dash_list (init_chars (String d' r))))). exact E.
Qed.

(** the check for unknown identifiers on what is left *)
Lemma check_unknown_frender fs : fwf fs ->
  (fments fs = [] -> check_unknown_in (frender fs) = Ret tt) /\
  (fments fs <> [] -> exists m, check_unknown_in (frender fs) = Throw (Exn KUnknownOption m)).
Proof.
  induction fs as [|f fs IH]; [intros _; split; [reflexivity|intros H; exfalso; now apply H]|].
  intros Hwf. inversion Hwf as [|? ? Hf Hfs]; subst. destruct (IH Hfs) as [IH1 IH2].
  change (frender (f :: fs)) with (frender1 f ++ frender fs).
  change (fments (f :: fs)) with (fments1 f ++ fments fs).
  destruct f as [n|l|s|w]; cbn [fments1 frender1 app fwf1] in *.
  - assert (E : check_unknown_in (repeat EmptyString n ++ frender fs) = check_unknown_in (frender fs))
      by (clear; induction n as [|n IHn]; [reflexivity|exact IHn]).
    rewrite E. auto.
  - destruct Hf as [Hne Hch]. destruct l as [|d l]; [contradiction|]. split; [discriminate|]. intros _.
    assert (Hd : Ascii.eqb d "-" = false) by (apply Ascii.eqb_neq, Hch; now left).
    cbn [check_unknown_in of_chars string_of_list_ascii].
    rewrite Ascii.eqb_refl. change (String.eqb (String "-" (String d (string_of_list_ascii l))) "-") with false. cbv iota.
    rewrite Hd. cbn [negb andb String.length].
    destruct l as [|d' l]; [cbn; eauto|].
    destruct (expand_ok "-" d (string_of_list_ascii (d' :: l)) eq_refl) as (m & [->|E]); [|discriminate].
    cbn. eauto.
  - split; [discriminate|]. intros _. cbn [check_unknown_in String.append].
    rewrite Ascii.eqb_refl. change (String.eqb (String "-" (String "-" s)) "-") with false. cbv iota.
    change (Ascii.eqb "-" "-") with true. cbn. eauto.
  - assert (E : check_unknown_in (w :: frender fs) = check_unknown_in (frender fs)).
    { destruct Hf as [Hne Hw]. destruct w as [|e w]; [contradiction|]. cbn [check_unknown_in]. destruct Hw as [Hw|Hw].
      - injection Hw as -> ->. reflexivity.
      - cbn in Hw. rewrite Ascii.eqb_sym in Hw. now rewrite Hw. }
    rewrite E. auto.
Qed.

Lemma words_frender fs : fwf fs -> fments fs = [] -> filter nonempty (frender fs) = fwords fs.
Proof.
  induction fs as [|f fs IH]; [reflexivity|]. intros Hwf. inversion Hwf as [|? ? Hf Hfs]; subst.
  change (frender (f :: fs)) with (frender1 f ++ frender fs).
  change (fments (f :: fs)) with (fments1 f ++ fments fs).
  change (fwords (f :: fs)) with (fwords1 f ++ fwords fs).
  intros H. apply app_eq_nil in H as [H1 H2]. rewrite filter_app, IH by assumption. f_equal.
  destruct f as [n|l|s|w]; cbn in *.
  - clear. induction n; auto.
  - destruct Hf as [Hne _]. destruct l; [contradiction|discriminate].
  - discriminate.
  - destruct Hf as [Hne _]. apply is_empty_false in Hne. unfold nonempty. now rewrite Hne.
Qed.

(** no item is rendered as "--" *)
Lemma render_no_eoo it : wf_item opts it = true -> ~ In "--" (render_item it).
Proof.
  assert (Hd : forall i r, In i opts -> dashed i +s+ r <> "--").
  { intros i r Hi E. pose proof (Hgood_o i Hi) as Hg. destruct i as [c|s]; cbn in E.
    - injection E as -> _. now apply good_short_nodash in Hg.
    - injection E as E. apply app_eq_nil_s in E as [-> _]. discriminate. }
  intros Hw Hin. destruct it as [i sp v|i|i|cs|s|w]; cbn [render_item] in Hin.
  - assert (Hi : In i opts).
    { destruct sp; cbn in Hw; repeat (apply andb_prop in Hw as [Hw ?]); now apply mem_ident_In. }
    destruct sp; cbn in Hin; destruct Hin as [E|Hin].
    + apply (Hd i EmptyString Hi). now rewrite app_nil_r_s.
    + destruct Hin as [->|[]]. cbn in Hw. rewrite andb_false_r in Hw. discriminate.
    + now apply Hd in E.
    + destruct Hin.
    + now apply Hd in E.
    + destruct Hin.
  - destruct Hin as [E|[]]. apply mem_ident_In in Hw. now apply Hd in E.
  - destruct Hin as [E|[]]. apply mem_ident_In in Hw. apply (Hd i EmptyString Hw). now rewrite app_nil_r_s.
  - destruct Hin as [E|[]]. cbn in Hw. apply andb_prop in Hw as [Hw _]. apply andb_prop in Hw as [_ Hw].
    destruct cs as [|c cs]; [discriminate|].
    cbn in E, Hw. injection E as -> _. discriminate.
  - destruct Hin as [E|[]]. cbn in Hw, E. injection E as ->. discriminate.
  - destruct Hin as [->|[]]. discriminate.
Qed.

Lemma split_eoo_app l t : ~ In "--" l -> split_eoo (l ++ render_tail t) = (l, render_tail t).
Proof.
  induction l as [|a l IH]; intros H.
  - destruct t as [ws|]; reflexivity.
  - cbn [app split_eoo]. destruct (String.eqb_spec a "--") as [->|Hne]; [exfalso; apply H; now left|].
    rewrite IH; [reflexivity|]. intros Hin. apply H. now right.
Qed.

Lemma render_items_no_eoo its : forallb (wf_item opts) its = true -> ~ In "--" (flat_map render_item its).
Proof.
  induction its as [|it its IH]; [intros _ []|]. cbn [forallb flat_map]. intros H Hin. apply andb_prop in H as [Hw H].
  apply in_app_iff in Hin as [Hin|Hin]; [now apply render_no_eoo in Hin|now apply IH].
Qed.

(** ** The positional stage *)

Definition pos_decls (ds : list decl) : nat := List.length (filter is_positional ds).

Lemma incr_count_refines st :
  refines incr_count (ret tt) st (fun _ st' => st' = set_count (S (count st)) st).
Proof. apply refines_mod; reflexivity. Qed.

Lemma split_first_filter l ws : filter nonempty l = ws ->
  match ws with
  | [] => split_first nonempty l = None
  | w :: more => exists b r, split_first nonempty l = Some (b, w, r) /\ filter nonempty b = [] /\ filter nonempty r = more
  end.
Proof.
  revert ws; induction l as [|a l IH]; intros ws H; cbn in *; [now subst|].
  destruct (nonempty a) eqn:E.
  - subst ws. exists [], l. auto.
  - specialize (IH ws H). destruct ws as [|w more].
    + now rewrite IH.
    + destruct IH as (b & r & Hs & Hb & Hr). rewrite Hs. exists (a :: b), r. cbn. rewrite E. auto.
Qed.

Lemma pos_all_refines x t l st :
  refines (pos_all ndebug x t l) (mapM_ (s_assign ndebug x t) (filter nonempty l)) st
    (fun l' st' => filter nonempty l' = [] /\ pre st' = pre st /\ post st' = post st).
Proof.
  revert st; induction l as [|a l IH]; intros st; cbn [pos_all].
  - apply refines_ret. auto.
  - assert (Hl : forall st, refines (do r' <- pos_all ndebug x t l; ret (EmptyString :: r'))
                   (mapM_ (s_assign ndebug x t) (filter nonempty l)) st
                   (fun l' st' => filter nonempty l' = [] /\ pre st' = pre st /\ post st' = post st)).
    { intros st0. apply refines_bind_r. eapply refines_bind; [apply IH|].
      intros l' st' (H1 & H2 & H3). apply refines_ret. auto. }
    destruct a as [|c a]; [apply Hl|]. cbn [is_empty filter nonempty negb mapM_].
    eapply refines_bind; [apply store_value_refines|].
    intros [] st1 (H1 & H2 & _). eapply refines_bind_l; [apply incr_count_refines|].
    intros [] st2 ->. eapply refines_post; [apply Hl|]. cbn. intros l' st' (H3 & H4 & H5).
    repeat split; congruence.
Qed.

Lemma s_positionals_none ds : pos_types ds = [] -> forall s, s_positionals ndebug ds [] s = ret tt s.
Proof.
  induction ds as [|d ds IH]; [reflexivity|]. destruct d; cbn; try discriminate; auto.
Qed.

Lemma positional_none npos ds st : pos_types ds = [] -> mapM_ (positional_call ndebug npos) ds st = ret tt st.
Proof.
  induction ds as [|d ds IH]; [reflexivity|]. destruct d; cbn; try discriminate; auto.
Qed.

Lemma left_over_refines st : post st = [] ->
  refines check_for_left_over_args (match filter nonempty (pre st) with [] => ret tt | _ => fail KTooMany end) st
    (fun _ _ => True).
Proof.
  intros Hp. unfold refines, check_for_left_over_args. rewrite Hp, app_nil_r.
  destruct (existsb nonempty (pre st)) eqn:E.
  - apply existsb_exists in E as (a & Ha & Hn).
    assert (Hin : In a (filter nonempty (pre st))) by (apply filter_In; auto).
    destruct (filter nonempty (pre st)); [destruct Hin|]. cbn. repeat split.
  - replace (filter nonempty (pre st)) with (@nil string); [cbn; repeat split|].
    symmetry. induction (pre st) as [|a l IH]; [reflexivity|]. cbn in *. apply orb_false_iff in E as [E1 E2].
    now rewrite E1, IH.
Qed.

Lemma list_last_tail t ts : list_last (t :: ts) = true -> list_last ts = true.
Proof. cbn. destruct ts; [reflexivity|]. intros H. now apply andb_prop in H. Qed.

Lemma list_last_container t ts : list_last (t :: ts) = true -> is_container t = true -> ts = [].
Proof. cbn. destruct ts; [reflexivity|]. intros H Hc. rewrite Hc in H. discriminate. Qed.

Lemma positional_stage ds npos st ws :
  list_last (pos_types ds) = true -> count st + List.length (pos_types ds) = npos ->
  filter nonempty (pre st) = ws -> post st = [] ->
  refines (mapM_ (positional_call ndebug npos) ds ;; check_for_left_over_args) (s_positionals ndebug ds ws) st
    (fun _ _ => True).
Proof.
  revert st ws; induction ds as [|d ds IH]; intros st ws Hll Hc Hf Hp.
  - cbn [mapM_ s_positionals]. eapply refines_bind_l; [apply refines_ret with (Q := fun _ st' => st' = st); reflexivity|].
    intros _ st' ->. subst ws. now apply left_over_refines.
  - assert (Hassoc : forall (m k : M pst unit) s, ((m ;; k) ;; check_for_left_over_args) s =
                     (m ;; (k ;; check_for_left_over_args)) s).
    { intros m k s. unfold bind. destruct (m s) as [s' [u|e|o| | |]]; reflexivity. }
    assert (Hre : forall m' Q, refines (positional_call ndebug npos d ;; (mapM_ (positional_call ndebug npos) ds ;; check_for_left_over_args)) m' st Q ->
       refines (mapM_ (positional_call ndebug npos) (d :: ds) ;; check_for_left_over_args) m' st Q).
    { intros m' Q H. unfold refines in *. cbn [mapM_]. rewrite Hassoc. exact H. }
    apply Hre. clear Hre Hassoc.
    destruct d as [x t c|x c|x t c]; cbn [positional_call s_positionals].
    + exact (IH st ws Hll Hc Hf Hp).
    + exact (IH st ws Hll Hc Hf Hp).
    + cbn [pos_types flat_map app] in Hll, Hc. fold (pos_types ds) in Hll, Hc. cbn [List.length] in Hc.
      unfold get_positional_option.
      set (rest := mapM_ (positional_call ndebug npos) ds ;; check_for_left_over_args) in *.
      assert (Hv : forall p (k : M pst unit) m' st2, (forall st3, same_args st2 st3 -> refines k m' st3 (fun _ _ => True)) ->
        refines ((do st' <- get; run_validator (c_validator c) x (p st')) ;; k) (s_validate (c_validator c) x ;; m') st2 (fun _ _ => True)).
      { intros p k m' st2 Hk. eapply refines_bind.
        - unfold refines, get, bind. exact (run_validator_refines (c_validator c) x (p st2) st2).
        - intros [] st3 Hs. apply Hk, Hs. }
      set (st1 := set_count (S (count st)) st).
      pose proof (split_first_filter (pre st1) ws Hf) as Hsf.
      destruct ws as [|w more].
      * unfold refines, bind, incr_count, modify, get. fold st1. rewrite Hsf. cbn. repeat split; discriminate.
      * destruct Hsf as (b & r & Hsf & Hb & Hr).
        destruct (is_container t) eqn:Et.
        -- assert (Hcount : (count st1 =? npos)%nat = true).
           { apply Nat.eqb_eq. apply list_last_container in Hll; [|exact Et]. rewrite Hll in Hc. cbn in *. lia. }
           assert (Hgoal : refines (((modify (fun s => set_vars (set_var (vars s) x (VList [])) s) ;;
                do l <- pos_all ndebug x t (w :: r); modify (set_pre (b ++ l))) ;;
                do st' <- get;
                run_validator (c_validator c) x ("Validation failed for positional option " +s+ nat_to_string (count st') +s+ ": ")) ;; rest)
              (s_set x (VList []) ;; mapM_ (s_assign ndebug x t) (w :: more) ;; s_validate (c_validator c) x ;; s_positionals ndebug ds []) st1 (fun _ _ => True)).
           { assert (Hnorm : forall A (a : M pst unit) (f : M pst A) (g : A -> M pst unit) (h k : M pst unit) s,
               ((((a ;; (do l <- f; g l)) ;; h) ;; k) s = (a ;; do l <- f; (g l ;; (h ;; k))) s)).
             { intros A a f g h k s. unfold bind. destruct (a s) as [s' [u|e|o| | |]]; try reflexivity.
               destruct (f s') as [s'' [u'|e|o| | |]]; try reflexivity.
               destruct (g u' s'') as [s3 [u''|e|o| | |]]; reflexivity. }
             unfold refines. rewrite Hnorm.
             change (refines (modify (fun s => set_vars (set_var (vars s) x (VList [])) s) ;;
               do l <- pos_all ndebug x t (w :: r); (modify (set_pre (b ++ l)) ;;
               ((do st' <- get; run_validator (c_validator c) x ("Validation failed for positional option " +s+ nat_to_string (count st') +s+ ": ")) ;; rest)))
               (s_set x (VList []) ;; mapM_ (s_assign ndebug x t) (w :: more) ;; s_validate (c_validator c) x ;; s_positionals ndebug ds []) st1 (fun _ _ => True)).
             eapply refines_bind; [apply set_list_refines|].
             intros [] st2 (Hs1 & Hs2 & Hs3).
             assert (Hwr : filter nonempty (w :: r) = w :: more).
             { cbn. destruct (nonempty w) eqn:Ew; [now rewrite Hr|].
               assert (Hin : In w (filter nonempty (pre st))) by (rewrite Hf; now left).
               apply filter_In in Hin. destruct Hin as [_ Hin]. congruence. }
             rewrite <- Hwr. eapply refines_bind; [apply pos_all_refines|].
             intros l st3 (Hl1 & Hl2 & Hl3).
             eapply refines_bind_l.
             { apply refines_mod with (Q := fun _ st' => pre st' = b ++ l /\ post st' = []); [reflexivity|].
               cbn. split; [reflexivity|]. rewrite Hl3, Hs2. exact Hp. }
             intros [] st4 (Hq1 & Hq2). apply Hv. intros st5 (Hr1 & Hr2 & Hr3).
             apply list_last_container in Hll; [|exact Et].
             assert (Hfin : refines rest (ret tt) st5 (fun _ _ => True)).
             { assert (Hlo : refines check_for_left_over_args (ret tt) st5 (fun _ _ => True)).
               { apply refines_ext with (m1 := match filter nonempty (pre st5) with [] => ret tt | _ => fail KTooMany end).
                 - rewrite Hr1, Hq1, filter_app, Hb, Hl1. reflexivity.
                 - apply left_over_refines. congruence. }
               unfold refines in *. unfold rest, bind. rewrite positional_none by exact Hll. exact Hlo. }
             apply refines_ext with (m1 := ret tt); [|exact Hfin].
             symmetry. now apply s_positionals_none. }
           unfold refines, bind, incr_count, modify, get in *. fold st1. rewrite Hsf, Hcount. cbn [orb].
           exact Hgoal.
        -- assert (Hgoal : refines (((pos_value ndebug x t w ;; modify (set_pre (b ++ EmptyString :: r))) ;;
                do st' <- get;
                run_validator (c_validator c) x ("Validation failed for positional option " +s+ nat_to_string (count st') +s+ ": ")) ;; rest)
              (s_assign ndebug x t w ;; s_validate (c_validator c) x ;; s_positionals ndebug ds more) st1 (fun _ _ => True)).
           { assert (Hnorm : forall (a g h k : M pst unit) s,
               (((a ;; g) ;; h) ;; k) s = (a ;; (g ;; (h ;; k))) s).
             { intros a g h k s. unfold bind. destruct (a s) as [s' [u|e|o| | |]]; try reflexivity.
               destruct (g s') as [s3 [u''|e|o| | |]]; reflexivity. }
             unfold refines. rewrite Hnorm.
             change (refines (pos_value ndebug x t w ;; (modify (set_pre (b ++ EmptyString :: r)) ;;
               ((do st' <- get; run_validator (c_validator c) x ("Validation failed for positional option " +s+ nat_to_string (count st') +s+ ": ")) ;; rest)))
               (s_assign ndebug x t w ;; s_validate (c_validator c) x ;; s_positionals ndebug ds more) st1 (fun _ _ => True)).
             eapply refines_bind; [apply store_value_refines|].
             intros [] st2 (Hs1 & Hs2 & Hs3).
             eapply refines_bind_l.
             { apply refines_mod with (Q := fun _ st' => pre st' = b ++ EmptyString :: r /\ post st' = [] /\ count st' = S (count st)); [reflexivity|].
               cbn. split; [reflexivity|]. rewrite Hs2, Hs3. split; [exact Hp|reflexivity]. }
             intros [] st4 (Hq1 & Hq2 & Hq3). apply Hv. intros st5 (Hr1 & Hr2 & Hr3).
             apply IH.
             - eapply list_last_tail, Hll.
             - rewrite Hr3, Hq3. lia.
             - rewrite Hr1, Hq1, filter_app, Hb. cbn. exact Hr.
             - congruence. }
           unfold refines, bind, incr_count, modify, get in *. fold st1. rewrite Hsf. exact Hgoal.
Qed.

Lemma is_positional_types ds : List.length (filter is_positional ds) = List.length (pos_types ds).
Proof. induction ds as [|d ds IH]; [reflexivity|]. destruct d; cbn; auto. Qed.

Lemma tail_words t : wf_tail flags t = true ->
  filter nonempty (match render_tail t with [] => [] | _ :: p => EmptyString :: p end) =
  match t with None => [] | Some ws => ws end.
Proof.
  destruct t as [ws|]; [|reflexivity]. cbn. intros H. induction ws as [|w ws IH]; [reflexivity|].
  cbn [forallb] in H. apply andb_prop in H as [Hw H]. apply andb_prop in Hw as [Hw _]. apply andb_prop in Hw as [Hw _].
  cbn [filter]. unfold nonempty. rewrite Hw. f_equal. now apply IH.
Qed.

End interface.

Lemma flat_map_decl_idents ds i : In i (flat_map decl_idents ds) <->
  In i (flat_map option_idents ds) \/ In i (flat_map flag_idents ds).
Proof.
  induction ds as [|d ds IH]; cbn; [tauto|]. unfold decl_idents at 1. rewrite !in_app_iff, IH. tauto.
Qed.

Lemma NoDup_app_parts {A} (a b : list A) : NoDup (a ++ b) -> NoDup a /\ NoDup b.
Proof.
  induction a as [|x a IH]; cbn; [intros H; split; [constructor|exact H]|].
  intros H. inversion H as [|? ? Hn Hd]; subst. destruct (IH Hd) as [Ha Hb].
  split; [|exact Hb]. constructor; [|exact Ha]. intros Hx. apply Hn, in_app_iff. now left.
Qed.

Lemma nodup_decls ds : NoDup (flat_map decl_idents ds) ->
  NoDup (flat_map option_idents ds) /\ NoDup (flat_map flag_idents ds) /\
  (forall i, In i (flat_map option_idents ds) -> ~ In i (flat_map flag_idents ds)).
Proof.
  induction ds as [|d ds IH]; cbn; [repeat split; try constructor; tauto|].
  intros H. destruct (NoDup_app_parts _ _ H) as [H1 H2]. destruct (IH H2) as (IH1 & IH2 & IH3).
  pose proof (fun i => NoDup_app_disj _ _ i H) as Hdis.
  assert (Hd : forall i, In i (decl_idents d) <-> In i (option_idents d) \/ In i (flag_idents d)).
  { intros i. unfold decl_idents. apply in_app_iff. }
  assert (Happ : forall a b : list ident, NoDup a -> NoDup b -> (forall i, In i a -> ~ In i b) -> NoDup (a ++ b)).
  { clear. intros a b Ha Hb Hab. induction a as [|x a IHa]; [exact Hb|]. inversion Ha; subst. cbn. constructor.
    - rewrite in_app_iff. intros [Hx|Hx]; [contradiction|]. now apply (Hab x (or_introl eq_refl)).
    - apply IHa; auto. intros i Hi. apply Hab. now right. }
  unfold decl_idents in H1. destruct (NoDup_app_parts _ _ H1) as [H3 H4].
  pose proof (fun i => NoDup_app_disj _ _ i H1) as Hdis1.
  repeat split.
  - apply Happ; auto. intros i Hi Hi2. apply (Hdis i); [apply Hd; now left|apply flat_map_decl_idents; now left].
  - apply Happ; auto. intros i Hi Hi2. apply (Hdis i); [apply Hd; now right|apply flat_map_decl_idents; now right].
  - intros i Hi Hi2. rewrite in_app_iff in Hi, Hi2. destruct Hi as [Hi|Hi], Hi2 as [Hi2|Hi2].
    + now apply (Hdis1 i).
    + apply (Hdis i); [apply Hd; now left|apply flat_map_decl_idents; now right].
    + apply (Hdis i); [apply Hd; now right|apply flat_map_decl_idents; now left].
    + now apply (IH3 i).
Qed.

(** ** The refinement *)
Lemma parse_args_refines decls inv vs f :
  wf_decls decls = true -> wf_invocation decls inv = true ->
  agrees (parse_args ndebug decls (render inv) vs f) (eval ndebug decls inv {| s_vars := vs; s_fs := f |}).
Proof.
  intros Hd Hi. unfold wf_decls in Hd. apply andb_prop in Hd as [Hd Hll]. apply andb_prop in Hd as [Hg Hnd].
  unfold wf_invocation in Hi. apply andb_prop in Hi as [Hi Hwt]. apply andb_prop in Hi as [Hwf Hdang].
  set (opts := flat_map option_idents decls) in *. set (flags := flat_map flag_idents decls) in *.
  apply nodup_idents_NoDup, nodup_decls in Hnd as (Hnd1 & Hnd2 & Hdisj).
  rewrite forallb_forall in Hg.
  assert (Hgo : forall i, In i opts -> good_ident i = true) by (intros i H; apply Hg, flat_map_decl_idents; now left).
  assert (Hgf : forall i, In i flags -> good_ident i = true) by (intros i H; apply Hg, flat_map_decl_idents; now right).
  set (st0 := init_pst (render inv) vs f).
  assert (Hsplit : split_eoo (render inv) = (flat_map render_item (items inv), render_tail (tail inv))).
  { apply split_eoo_app. now apply (render_items_no_eoo opts). }
  assert (Hpre0 : pre st0 = crender (strip [] (items inv))).
  { unfold st0, init_pst. cbn. rewrite Hsplit. now rewrite strip_nil. }
  assert (Hpost0 : post st0 = render_tail (tail inv)).
  { unfold st0, init_pst. cbn. now rewrite Hsplit. }
  assert (Href : refines (parse_calls ndebug decls) (eval ndebug decls inv) st0 (fun _ _ => True)).
  { unfold parse_calls, eval.
    eapply refines_bind_ret; [apply (option_stage opts) with (l := []); auto|].
    intros [] st1 ((l & Hl & Hp1) & Hpo1 & Hc1) Hret.
    rewrite (strip_all opts) in Hp1;
      [|intros i Hin; apply Hl; now left|intros i Hin; exact (s_options_missing _ _ _ _ Hin Hret)|exact Hwf].
    eapply refines_bind; [apply (flag_stage flags) with (fs := map fof (items inv)) (t := tail inv); auto|].
    { now apply (fof_wf opts). }
    { intros d _. now rewrite fof_ments. }
    { congruence. }
    intros [] st2 ((fs & Hp2 & Hred) & Hpo2 & Hc2).
    pose proof (reduced_unknown decls (items inv) fs Hred) as Hunk.
    destruct Hred as (Hwfs & Hws & _). rewrite fof_words in Hws.
    destruct (check_unknown_frender fs Hwfs) as [Hu1 Hu2].
    eapply refines_bind.
    { instantiate (1 := fun _ st' => st' = st2 /\ fments fs = []).
      unfold refines, check_for_unknown_ids. rewrite Hp2.
      destruct (unknown decls (items inv)).
      - destruct Hu2 as [m ->]; [intros E; apply Hunk in E; discriminate|]. cbn. repeat split; discriminate.
      - rewrite Hu1 by now apply Hunk. cbn. split; [reflexivity|]. split; [reflexivity|]. intros _ _.
        split; [reflexivity|]. now apply Hunk. }
    intros [] st3 [-> Hnone]. eapply refines_bind_l.
    { apply refines_mod with (Q := fun _ st' => filter nonempty (pre st') = words inv /\ post st' = [] /\ count st' = 0);
        [reflexivity|].
      cbn. rewrite filter_app, Hp2, (words_frender fs) by assumption.
      rewrite Hws, Hpo2, Hpo1, Hpost0, (tail_words flags) by exact Hwt.
      rewrite Hc2, Hc1. auto. }
    intros [] st4 (Hq1 & Hq2 & Hq3).
    apply positional_stage; auto. rewrite Hq3. cbn. symmetry. apply is_positional_types. }
  destruct Href as (Ha & Hk & _). unfold parse_args, agrees. fold st0.
  change (abs st0) with {| s_vars := vs; s_fs := f |} in *.
  rewrite <- Ha. cbn. auto.
Qed.

End refinement.
