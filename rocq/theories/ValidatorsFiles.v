(** Proofs about the file and directory validators. *)
From Verif Require Import Base StrLib Fs Values ValuesSpec Validators ValidatorsSpec Invocation ValidatorsProofs.
From Coq Require Import ZifyBool ZifyN ZifyNat.

(** ** Letters *)

Definition all_chars : list chr := map ascii_of_nat (seq 0 256).

Lemma in_all_chars c : In c all_chars.
Proof.
  apply in_map_iff. exists (nat_of_ascii c). split; [apply ascii_nat_embedding|].
  apply in_seq. pose proof (nat_ascii_bounded c). lia.
Qed.

Lemma chr_sweep (p : chr -> bool) : forallb p all_chars = true -> forall c, p c = true.
Proof. intros H c. rewrite forallb_forall in H. apply H, in_all_chars. Qed.

Definition pairb (c d : chr) (l : list (chr * chr)) : bool :=
  existsb (fun q => Ascii.eqb (fst q) c && Ascii.eqb (snd q) d) l.
Lemma pairb_In c d l : pairb c d l = true <-> In (c, d) l.
Proof.
  unfold pairb. rewrite existsb_exists. split.
  - intros ([a b] & Hin & H). apply andb_true_iff in H as [H1 H2]. cbn in H1, H2.
    apply Ascii.eqb_eq in H1, H2. now subst.
  - intros H. exists (c, d). split; [exact H|]. cbn. now rewrite !Ascii.eqb_refl.
Qed.

Lemma same_letter_iff c d : Ascii.eqb (to_lower c) (to_lower d) = true <-> same_letter c d.
Proof.
  assert (H : Bool.eqb (Ascii.eqb (to_lower c) (to_lower d))
                       (Ascii.eqb c d || (pairb c d (combine uppers lowers) || pairb d c (combine uppers lowers))) = true).
  { revert d. apply chr_sweep. revert c. apply chr_sweep. vm_compute. reflexivity. }
  apply eqb_prop in H. rewrite H. unfold same_letter.
  now rewrite !orb_true_iff, !pairb_In, Ascii.eqb_eq.
Qed.

Lemma ci_eq_iff a b : seven_bit a -> seven_bit b -> String.length a = String.length b ->
  (ci_eq a b = Some true /\ same_text a b) \/ (ci_eq a b = Some false /\ ~ same_text a b).
Proof.
  unfold same_text, seven_bit. revert b; induction a as [|x a IH]; intros [|y b] Ha Hb Hl; cbn in *; try lia.
  - left. split; constructor.
  - assert (Hx : tolower_defined x = true).
    { unfold tolower_defined. specialize (Ha x (or_introl eq_refl)). lia. }
    assert (Hy : tolower_defined y = true).
    { unfold tolower_defined. specialize (Hb y (or_introl eq_refl)). lia. }
    rewrite Hx, Hy. cbn [andb]. destruct (Ascii.eqb _ _) eqn:E.
    + apply same_letter_iff in E. destruct (IH b) as [[H1 H2]|[H1 H2]]; auto.
      right. split; [exact H1|]. intros H. apply H2. now inversion H.
    + right. split; [reflexivity|]. intros H. inversion H as [|? ? ? ? H1 _]; subst.
      apply same_letter_iff in H1. congruence.
Qed.

Lemma seven_bit_app a b : seven_bit (a +s+ b) -> seven_bit a /\ seven_bit b.
Proof. unfold seven_bit. rewrite chars_app. intros H. split; intros c Hc; apply H, in_app_iff; auto. Qed.

Lemma same_text_length a b : same_text a b -> String.length a = String.length b.
Proof.
  unfold same_text. rewrite <- !length_chars. induction 1; cbn; congruence.
Qed.

Lemma ci_ends_with_iff s e : seven_bit s -> seven_bit e ->
  (ci_ends_with s e = Some true /\ exists a b, s = a +s+ b /\ same_text b e) \/
  (ci_ends_with s e = Some false /\ ~ exists a b, s = a +s+ b /\ same_text b e).
Proof.
  intros Hs He. unfold ci_ends_with. destruct (Nat.ltb_spec (String.length s) (String.length e)) as [Hl|Hl].
  - right. split; [reflexivity|]. intros (a & b & -> & Hb). apply same_text_length in Hb. rewrite length_app_s in Hl. lia.
  - set (n := String.length s - String.length e). pose proof (stake_sdrop n s) as Hsplit.
    destruct (ci_eq_iff (sdrop n s) e) as [[H1 H2]|[H1 H2]]; try assumption.
    + rewrite <- Hsplit in Hs. now apply seven_bit_app in Hs.
    + rewrite length_sdrop. lia.
    + left. split; [exact H1|]. exists (stake n s), (sdrop n s). auto.
    + right. split; [exact H1|]. intros (a & b & E & Hb). apply H2.
      replace (sdrop n s) with b; [exact Hb|]. subst s.
      replace n with (String.length a); [now rewrite sdrop_app|].
      apply same_text_length in Hb. unfold n. rewrite length_app_s. lia.
Qed.

Lemma any_ext_iff s exts : seven_bit s -> Forall seven_bit exts ->
  (any_ext s exts = Some true /\ exists a b ext, s = a +s+ b /\ In ext exts /\ same_text b ext) \/
  (any_ext s exts = Some false /\ ~ exists a b ext, s = a +s+ b /\ In ext exts /\ same_text b ext).
Proof.
  intros Hs. induction exts as [|e exts IH]; intros He; cbn [any_ext].
  - right. split; [reflexivity|]. intros (a & b & ext & _ & [] & _).
  - inversion_clear He as [|? ? He1 He2]. destruct (ci_ends_with_iff s e Hs He1) as [[H1 (a & b & H2 & H3)]|[H1 H2]]; rewrite H1.
    + left. split; [reflexivity|]. exists a, b, e. cbn. auto.
    + destruct (IH He2) as [[H3 (a & b & x & H4 & H5 & H6)]|[H3 H4]].
      * left. split; [exact H3|]. exists a, b, x. cbn. auto.
      * right. split; [exact H3|]. intros (a & b & x & E1 & [<-|E2] & E3); [apply H2; eauto|apply H4; eauto 6].
Qed.

(** ** Components of paths *)

Lemma filename_aux_plain a : forall acc, scontains slash a = false -> filename_aux a acc = acc +s+ a.
Proof.
  induction a as [|c a IH]; intros acc H; cbn [filename_aux] in *; [now rewrite app_nil_r_s|].
  cbn [scontains] in H. apply orb_false_iff in H as [H1 H2].
  assert (E : Ascii.eqb c slash = false) by (rewrite Ascii.eqb_sym; exact H1).
  rewrite E, IH by exact H2. rewrite app_assoc_s. reflexivity.
Qed.

Lemma filename_aux_slash d a : forall acc, filename_aux (d +s+ "/" +s+ a) acc = filename_aux a "".
Proof.
  induction d as [|c d IH]; intros acc; cbn [String.append filename_aux]; [reflexivity|].
  destruct (Ascii.eqb c slash); apply IH.
Qed.

Lemma last_component_filename p a : last_component p a -> filename p = a.
Proof.
  unfold filename. intros [Ha [->|(d & ->)]]; rewrite ?filename_aux_slash; now rewrite filename_aux_plain.
Qed.

Lemma last_component_exists p : exists a, last_component p a.
Proof.
  assert (H : forall p, scontains slash p = false \/ exists d a, p = d +s+ "/" +s+ a /\ scontains slash a = false).
  { clear. induction p as [|c p IH]; [left; reflexivity|]. destruct IH as [IH|(d & a & -> & Ha)].
    - destruct (Ascii.eqb_spec slash c) as [<-|Hne].
      + right. exists "", p. auto.
      + left. cbn [scontains]. rewrite IH. rewrite (proj2 (Ascii.eqb_neq slash c)); auto.
    - right. exists (String c d), a. auto. }
  destruct (H p) as [Hp|(d & a & -> & Ha)].
  - exists p. split; auto.
  - exists a. split; [exact Ha|]. right. now exists d.
Qed.

Lemma rfind_dot_none s : rfind_dot s = None -> scontains "." s = false.
Proof.
  induction s as [|c s IH]; cbn; [reflexivity|]. destruct (rfind_dot s); [discriminate|].
  destruct (Ascii.eqb_spec c ".") as [->|Hne]; [discriminate|]. intros _. rewrite IH by reflexivity.
  rewrite (proj2 (Ascii.eqb_neq "." c)); auto.
Qed.

Lemma rfind_dot_some s n : rfind_dot s = Some n -> exists a b, s = a +s+ "." +s+ b /\ String.length a = n.
Proof.
  revert n; induction s as [|c s IH]; cbn; intros n H; [discriminate|].
  destruct (rfind_dot s) as [m|].
  - injection H as <-. destruct (IH m eq_refl) as (a & b & -> & Hl). exists (String c a), b. cbn. auto.
  - destruct (Ascii.eqb_spec c ".") as [->|Hne]; [|discriminate]. injection H as <-. exists "", s. auto.
Qed.

Lemma rfind_dot_app a b : exists n, rfind_dot (a +s+ "." +s+ b) = Some n /\ String.length a <= n.
Proof.
  induction a as [|c a (n & H & Hn)]; cbn [String.append rfind_dot] in *.
  - destruct (rfind_dot b); [eexists; split; [reflexivity|cbn; lia]|]. rewrite Ascii.eqb_refl. exists 0. auto.
  - rewrite H. exists (S n). split; [reflexivity|cbn; lia].
Qed.

Definition dotted (name : string) : Prop := exists a b, name = a +s+ "." +s+ b /\ a <> "".

Lemma has_extension_iff p name : last_component p name -> name <> ".." -> has_extension p = true <-> dotted name.
Proof.
  intros Hl Hne. unfold has_extension. rewrite (last_component_filename p name Hl).
  destruct (String.eqb_spec name ".") as [->|H1]; cbn [orb].
  - split; [discriminate|]. intros (a & b & H & Ha). destruct a as [|c a]; [congruence|].
    destruct a; discriminate.
  - destruct (String.eqb_spec name "..") as [->|H2]; [congruence|]. destruct (rfind_dot name) as [[|n]|] eqn:E.
    + split; [discriminate|]. intros (a & b & -> & Ha). destruct (rfind_dot_app a b) as (n & Hn & Hle).
      rewrite Hn in E. injection E as ->. destruct a; [congruence|cbn in Hle; lia].
    + split; [|reflexivity]. intros _. apply rfind_dot_some in E as (a & b & -> & Hn). exists a, b.
      split; [reflexivity|]. intros ->. discriminate.
    + split; [discriminate|]. intros (a & b & -> & Ha). destruct (rfind_dot_app a b) as (n & Hn & Hle). congruence.
Qed.

Lemma has_extension_dotdot p : last_component p ".." -> has_extension p = false.
Proof. intros H. unfold has_extension. now rewrite (last_component_filename p ".." H). Qed.

(** ** validate_filename *)

Lemma drop_dot_suffix name (P : string -> Prop) :
  (exists a b, drop_dot name = a +s+ b /\ P b) <->
  (exists a b, name = a +s+ b /\ P b /\ (a = "" -> snth 0 name <> Some "."%char)).
Proof.
  destruct name as [|c s]; cbn [drop_dot].
  - split; intros (a & b & H & Hb); exists a, b; intuition discriminate.
  - destruct (Ascii.eqb_spec c ".") as [->|Hne].
    + split.
      * intros (a & b & -> & Hb). exists (String "." a), b. split; [reflexivity|]. split; [exact Hb|discriminate].
      * intros (a & b & H & Hb & Ha). destruct a as [|x a]; [cbn in Ha; tauto|]. injection H as <- ->. eauto.
    + split.
      * intros (a & b & H & Hb). exists a, b. split; [exact H|]. split; [exact Hb|]. cbn. congruence.
      * intros (a & b & H & Hb & _). eauto.
Qed.

Lemma validate_filename_iff exts p name : last_component p name -> name <> ".." -> exts <> [] ->
  seven_bit name -> Forall seven_bit exts ->
  (validate_filename exts p = VOk /\ ext_suffix exts name) \/
  ((exists m, validate_filename exts p = VThrow m) /\ ~ ext_suffix exts name).
Proof.
  intros Hl Hdd Hne H7 He7. unfold validate_filename, ext_suffix.
  destruct exts as [|e0 exts0] eqn:E0; [congruence|]. rewrite <- E0 in *.
  destruct (has_extension p) eqn:He; cbn [negb].
  - apply (has_extension_iff p name Hl Hdd) in He. rewrite (last_component_filename p name Hl).
    assert (H7d : seven_bit (drop_dot name)).
    { destruct name as [|c s]; cbn [drop_dot]; [exact H7|]. destruct (Ascii.eqb c "."); [|exact H7].
      intros d Hd. apply H7. now right. }
    assert (Hiff : (exists a b ext, drop_dot name = a +s+ b /\ In ext exts /\ same_text b ext) <->
      (exists a b ext, name = a +s+ b /\ In ext exts /\ same_text b ext /\ (a = "" -> snth 0 name <> Some "."%char))).
    { pose proof (drop_dot_suffix name (fun b => exists ext, In ext exts /\ same_text b ext)) as Hd. split.
      - intros (a & b & x & H1 & H2 & H3). destruct (proj1 Hd) as (a' & b' & G1 & (x' & G2 & G3) & G4); [eauto 6|].
        exists a', b', x'. auto.
      - intros (a & b & x & H1 & H2 & H3 & H4). destruct (proj2 Hd) as (a' & b' & G1 & (x' & G2 & G3)); [eauto 8|].
        exists a', b', x'. auto. }
    destruct (any_ext_iff (drop_dot name) exts H7d He7) as [[H1 H2]|[H1 H2]]; rewrite H1.
    + left. split; [reflexivity|]. split; [exact He|]. now apply Hiff.
    + right. split; [eexists; reflexivity|]. intros [_ H]. apply H2, Hiff, H.
  - right. split; [eexists; reflexivity|]. intros [H _].
    apply (has_extension_iff p name Hl Hdd) in H. congruence.
Qed.

(** the documented rule is sufficient *)
Lemma ext_listed_suffix exts name : ext_listed exts name -> ext_suffix exts name.
Proof.
  intros (a & b & ext & -> & Ha & Hin & Hs). split; [now exists a, b|].
  exists (a +s+ "."), b, ext. rewrite app_assoc_s. split; [reflexivity|]. split; [exact Hin|]. split; [exact Hs|].
  intros H. apply app_eq_nil_s in H as [_ H]. discriminate.
Qed.

(** ... and necessary if the extensions are listed with their dot and the name does not begin with one *)
Lemma ext_suffix_listed exts name : Forall (fun e => exists s, e = String "." s) exts ->
  snth 0 name <> Some "."%char -> ext_suffix exts name -> ext_listed (map (sdrop 1) exts) name.
Proof.
  intros Hd Hn [_ (a & b & ext & -> & Hin & Hs & _)]. rewrite Forall_forall in Hd. destruct (Hd _ Hin) as (s & ->).
  destruct b as [|c b]; [inversion Hs|]. inversion Hs as [|? ? ? ? H1 H2]; subst.
  assert (c = "."%char).
  { apply same_letter_iff in H1. apply Ascii.eqb_eq in H1.
    assert (Hc : implb (Ascii.eqb (to_lower c) (to_lower ".")) (Ascii.eqb c ".") = true).
    { revert c Hs H1 Hn. intros c _ _ _. revert c. apply chr_sweep. vm_compute. reflexivity. }
    rewrite H1, Ascii.eqb_refl in Hc. now apply Ascii.eqb_eq in Hc. }
  subst c. exists a, b, s. split; [reflexivity|]. split; [intros ->; now apply Hn|].
  split; [|exact H2]. apply in_map_iff. exists (String "." s). auto.
Qed.
