(** What the conversion of a text that is no value leaves in the variable. *)
From Verif Require Import Base StrLib Fs Values Validators FormatParse Invocation InvocationProofs ValuesSpec ValuesProofs
  ScanSpec ScanProofs DiagnosisSpec DiagnosisOptions ReadingSpec ReadingProofs FailureSpec.

(** ** Numbers *)

Lemma from_chars_split sg bits s v rest : from_chars_int sg bits s = FcOk v rest ->
  exists p z, s = p +s+ rest /\ starts_digit rest = false /\ numeral sg p z /\ in_type sg bits z /\ v = VInt z.
Proof.
  unfold from_chars_int. change (match s with
                      | EmptyString => (false, s)
                      | String c s' => if sg && Ascii.eqb c "-" then (true, s') else (false, s)
                      end) with (split_sign sg s).
  destruct (split_sign sg s) as [neg body] eqn:Es. destruct (starts_digit body) eqn:Ed; [|discriminate].
  destruct (read_digits body 0) as [n r] eqn:Er. destruct (_ && _) eqn:Ein; [|discriminate]. intros [= <- <-].
  apply read_digits_split in Er as (p & -> & Hp & Hr & ->). cbn [Z.mul Z.add] in *.
  assert (Hd : digits p) by (split; [intros ->; cbn [append] in Ed; congruence|exact Hp]).
  exists (if neg then String "-" p else p), (if neg then - weight p else weight p)%Z. apply in_type_bool in Ein.
  split; [|split; [exact Hr|split; [|split; [exact Ein|reflexivity]]]].
  - unfold split_sign in Es. destruct s as [|c s]; [injection Es as <- <-; reflexivity|].
    destruct (sg && Ascii.eqb c "-") eqn:E; injection Es as <- E2; [|exact E2].
    apply andb_true_iff in E as [_ E]. apply Ascii.eqb_eq in E as ->. cbn. now rewrite E2.
  - unfold split_sign in Es. destruct s as [|c s]; [injection Es as <- _; now constructor|].
    destruct (sg && Ascii.eqb c "-") eqn:E; injection Es as <- E2; [|now constructor].
    apply andb_true_iff in E as [-> _]. now constructor.
Qed.

Lemma from_chars_invalid sg bits p q z : numeral sg p z -> from_chars_int sg bits (p +s+ q) <> FcInvalid.
Proof.
  intros Hn. unfold from_chars_int.
  assert (K : forall body neg d, body = d +s+ q -> digits d ->
    (if starts_digit body then let '(n, rest) := read_digits body 0 in
       let z := if neg : bool then (- n)%Z else n in
       if ((int_min sg bits <=? z) && (z <=? int_max sg bits))%Z then FcOk (VInt z) rest else FcRange
     else FcInvalid) <> FcInvalid).
  { intros body neg d -> Hd. rewrite starts_digit_app by exact Hd. destruct (read_digits (d +s+ q) 0) as [n r]. cbn zeta. destruct (_ && _); discriminate. }
  destruct Hn as [d Hd|d Hsg Hd].
  - destruct (d +s+ q) as [|c s] eqn:E; [destruct Hd as [Hd _]; destruct d; [contradiction|discriminate]|].
    assert (Hc : (sg && Ascii.eqb c "-") = false).
    { destruct Hd as [Hd Hs]. destruct d as [|c' d]; [contradiction|]. cbn in E, Hs. injection E as -> _. apply andb_true_iff in Hs as [Hs _].
      destruct (Ascii.eqb_spec c "-") as [->|_]; [discriminate|apply andb_false_r]. }
    rewrite Hc. now apply (K _ false d).
  - subst sg. cbn [append]. rewrite Ascii.eqb_refl. cbn [andb]. now apply (K _ true d).
Qed.

Lemma digits_unique p q p' q' : p +s+ q = p' +s+ q' -> sall is_digit p = true -> sall is_digit p' = true -> starts_digit q = false -> starts_digit q' = false ->
  p = p' /\ q = q'.
Proof.
  revert p'; induction p as [|c p IH]; intros [|d p'] H Hp Hp' Hq Hq'; cbn [append sall] in *; auto.
  - subst q. cbn in Hq. apply andb_true_iff in Hp' as [Hd _]. congruence.
  - subst q'. cbn in Hq'. apply andb_true_iff in Hp as [Hd _]. congruence.
  - injection H as -> H. apply andb_true_iff in Hp as [_ Hp]. apply andb_true_iff in Hp' as [_ Hp']. destruct (IH _ H Hp Hp' Hq Hq') as [-> ->]. auto.
Qed.
Lemma numeral_unique sg p q z p' q' z' : p +s+ q = p' +s+ q' -> numeral sg p z -> numeral sg p' z' -> starts_digit q = false -> starts_digit q' = false ->
  q = q' /\ z = z'.
Proof.
  assert (D : forall d s, digits d -> d +s+ s <> String "-" "" /\ forall u, d +s+ s = String "-" u -> False).
  { intros d s [Hd Ha]. destruct d as [|c d]; [contradiction|]. cbn in Ha. apply andb_true_iff in Ha as [Hc _]. split; [intros [= -> _]; discriminate|intros u [= -> _]; discriminate]. }
  intros H Hn Hn' Hq Hq'. inversion Hn as [d Hd|d Hs Hd]; subst; inversion Hn' as [d' Hd'|d' Hs' Hd']; subst.
  - destruct (digits_unique _ _ _ _ H (proj2 Hd) (proj2 Hd') Hq Hq') as [<- <-]. auto.
  - exfalso. eapply (proj2 (D p q Hd)). exact H.
  - exfalso. eapply (proj2 (D p' q' Hd')). symmetry. exact H.
  - cbn [append] in H. injection H as H. destruct (digits_unique _ _ _ _ H (proj2 Hd) (proj2 Hd') Hq Hq') as [<- <-]. auto.
Qed.

Definition fails_with (e : ety) (old : val) (w : string) (new : val) : Prop :=
  match parse_elem e old w with
  | POk v PSuccess => False
  | POk v _ => new = v
  | PThrow _ => new = old
  end.

Lemma number_fails sg bits old w new :
  match of_fc old (from_chars_int sg bits w) with POk v PSuccess => False | POk v _ => new = v | PThrow _ => new = old end <-> half_number sg bits old w new.
Proof.
  split.
  - destruct (from_chars_int sg bits w) as [| |v rest] eqn:E; cbn [of_fc].
    + intros ->. right. split; [reflexivity|]. right. intros p q z -> Hn. exact (from_chars_invalid _ _ _ _ _ Hn E).
    + intros ->. right. split; [reflexivity|]. left. now apply from_chars_range in E.
    + destruct rest as [|c r]; cbn [is_empty]; [intros []|]. intros ->. apply from_chars_split in E as (p & z & -> & Hr & Hn & Hi & ->).
      left. exists p, (String c r), z. repeat split; auto. discriminate.
  - intros [(p & q & z & -> & Hq & Hd & Hn & Hi & ->)|[-> [(p & q & z & -> & Hn & Hi)|H]]].
    + destruct (from_chars_int sg bits (p +s+ q)) as [| |v rest] eqn:E; cbn [of_fc].
      * exfalso. exact (from_chars_invalid _ _ _ _ _ Hn E).
      * apply from_chars_range in E as (p' & q' & z' & E & Hn' & Hi'). exfalso.
        pose proof (from_chars_too_large sg bits p' q' z' Hn' Hi') as K. rewrite <- E in K. unfold from_chars_int in K.
        change (match p +s+ q with
                      | EmptyString => (false, p +s+ q)
                      | String c s' => if sg && Ascii.eqb c "-" then (true, s') else (false, p +s+ q)
                      end) with (split_sign sg (p +s+ q)) in K.
        assert (R : forall neg d, digits d -> split_sign sg (p +s+ q) = (neg, d +s+ q) -> z = (if neg then - weight d else weight d)%Z -> False).
        { intros neg d Hdg Es Ez. rewrite Es in K. rewrite starts_digit_app in K by exact Hdg. rewrite read_digits_app in K by apply Hdg. cbn [Z.mul Z.add] in K.
          assert (Rd : read_digits q (weight d) = (weight d, q)) by (destruct q as [|c q]; [contradiction|]; cbn [read_digits starts_digit] in *; now rewrite Hd).
          rewrite Rd in K. rewrite <- Ez in K. rewrite (proj2 (in_type_bool sg bits z) Hi) in K. discriminate. }
        destruct Hn as [d Hdg|d Hs Hdg]; [apply (R false d Hdg); [|reflexivity]|apply (R true d Hdg); [|reflexivity]].
        -- unfold split_sign. destruct (d +s+ q) as [|c s] eqn:Es; [destruct Hdg as [Hdg _]; destruct d; [contradiction|discriminate]|].
           destruct Hdg as [Hdg Ha]. destruct d as [|c' d]; [contradiction|]. cbn in Es, Ha. injection Es as -> _. apply andb_true_iff in Ha as [Ha _].
           destruct (Ascii.eqb_spec c "-") as [->|_]; [discriminate|now rewrite andb_false_r].
        -- subst sg. cbn [append split_sign]. now rewrite Ascii.eqb_refl.
      * apply from_chars_split in E as (p' & z' & E & Hr & Hn' & Hi' & ->). destruct (numeral_unique _ _ _ _ _ _ _ E Hn Hn' Hd Hr) as [<- <-].
        destruct q; [contradiction|]. reflexivity.
    + rewrite (from_chars_too_large _ _ _ _ _ Hn Hi). reflexivity.
    + destruct (from_chars_int sg bits w) as [| |v rest] eqn:E; cbn [of_fc]; [reflexivity|reflexivity|].
      apply from_chars_split in E as (p & z & -> & _ & Hn & _). exfalso. exact (H _ _ _ eq_refl Hn).
Qed.

(** ** Paths *)

Lemma read_quoted_iff n : forall s acc, String.length s <= n ->
  match read_quoted s acc with
  | Some r => exists u q rest, s = u +s+ String """" rest /\ quoted u q /\ r = acc +s+ q
  | None => forall u q rest, s = u +s+ String """" rest -> ~ quoted u q
  end.
Proof.
  induction n as [|n IH]; intros s acc Hl.
  - destruct s as [|c s]; [|cbn in Hl; lia]. cbn [read_quoted]. intros [|? u] q rest; discriminate.
  - destruct s as [|c s]; cbn [read_quoted]; [intros [|? u] q rest; discriminate|]. cbn in Hl.
    destruct (Ascii.eqb_spec c "\") as [->|Hc].
    + destruct s as [|d s].
      { intros u q rest E Hq. destruct Hq as [|c s q Hq|c s q H1 H2 Hq]; cbn in E; try discriminate. injection E as <- _. contradiction. }
      cbn in Hl. specialize (IH s (acc +s+ str1 d)). destruct (read_quoted s (acc +s+ str1 d)) as [r|].
      * destruct IH as (u & q & rest & -> & Hq & ->); [lia|]. exists (String "\" (String d u)), (String d q), rest. split; [reflexivity|].
        split; [now constructor|]. now rewrite app_assoc_s.
      * intros u q rest E Hq. destruct Hq as [|c u q Hq|c u q H1 H2 Hq]; cbn in E; [discriminate| |].
        -- injection E as -> E. eapply IH; [lia|exact E|exact Hq].
        -- injection E as <- _. contradiction.
    + destruct (Ascii.eqb_spec c """") as [->|Hd].
      * exists "", "", s. split; [reflexivity|]. split; [constructor|]. now rewrite app_nil_r_s.
      * specialize (IH s (acc +s+ str1 c)). destruct (read_quoted s (acc +s+ str1 c)) as [r|].
        -- destruct IH as (u & q & rest & -> & Hq & ->); [lia|]. exists (String c u), (String c q), rest. split; [reflexivity|].
           split; [now constructor|]. now rewrite app_assoc_s.
        -- intros u q rest E Hq. destruct Hq as [|c' u q Hq|c' u q H1 H2 Hq]; cbn in E.
           ++ injection E as -> _. contradiction.
           ++ injection E as -> _. contradiction.
           ++ injection E as -> E. eapply IH; [lia|exact E|exact Hq].
Qed.

Lemma quoted_unique u q : quoted u q -> forall u' q' r r', quoted u' q' -> u +s+ String """" r = u' +s+ String """" r' -> q = q'.
Proof.
  induction 1 as [|c s q H IH|c s q H1 H2 H IH]; intros u' q' r r' G E; destruct G as [|c' s' q' G|c' s' q' G1 G2 G]; cbn in E; try discriminate E; auto.
  - injection E as <- _. contradiction.
  - injection E as -> E. f_equal. eapply IH; eauto.
  - injection E as <- _. contradiction.
  - injection E as -> _. contradiction.
  - injection E as -> _. contradiction.
  - injection E as -> E. f_equal. eapply IH; eauto.
Qed.

Lemma read_word_split s w r : read_word s = (w, r) -> s = w +s+ r /\ sall (fun c => negb (is_space c)) w = true /\
  match r with EmptyString => True | String c _ => is_space c = true end.
Proof.
  revert w r; induction s as [|c s IH]; intros w r; cbn [read_word].
  - intros [= <- <-]. auto.
  - destruct (is_space c) eqn:E; [intros [= <- <-]; auto|]. destruct (read_word s) as [w' r'] eqn:Er. intros [= <- <-].
    destruct (IH _ _ eq_refl) as (-> & H1 & H2). cbn. rewrite E. auto.
Qed.
Lemma read_word_app w c r : sall (fun c => negb (is_space c)) w = true -> is_space c = true -> read_word (w +s+ String c r) = (w, String c r).
Proof.
  intros Hw Hc. induction w as [|d w IH]; cbn [append read_word]; [now rewrite Hc|]. cbn in Hw. apply andb_true_iff in Hw as [Hd Hw].
  apply negb_true_iff in Hd. rewrite Hd, IH; auto.
Qed.

Lemma skip_space_head s : match skip_space s with EmptyString => True | String c _ => is_space c = false end.
Proof. induction s as [|c s IH]; cbn [skip_space]; [exact Logic.I|]. destruct (is_space c) eqn:E; [exact IH|exact E]. Qed.

Lemma path_fails old w new :
  match of_stream (read_path old w) with POk v PSuccess => False | POk v _ => new = v | PThrow _ => new = old end <-> ruined TPath old w new.
Proof.
  cbn [ruined]. unfold read_path. split.
  - destruct (skip_space_spec w) as (b & Ew & Hb). pose proof (skip_space_head w) as Hh. destruct (skip_space w) as [|c s] eqn:E.
    + cbn. intros ->. exists b, "". split; [exact Ew|]. split; [exact Hb|]. now left.
    + destruct (Ascii.eqb_spec c """") as [->|Hc].
      * pose proof (read_quoted_iff _ s "" (le_n _)) as Q. destruct (read_quoted s "") as [q|]; cbn; intros ->; exists b, (String """" s); (split; [exact Ew|split; [exact Hb|]]).
        -- right; right; left. destruct Q as (u & q' & rest & -> & Hq & ->). exists u, q', rest. auto.
        -- right; right; right. exists s. auto.
      * destruct (read_word (String c s)) as [u r] eqn:Er. cbn. pose proof (read_word_split _ _ _ Er) as (Es & Hu & Hr). destruct r as [|d r]; cbn; [intros []|]. intros ->.
        exists b, (String c s). split; [exact Ew|]. split; [exact Hb|]. right; left. exists u, d, r. split; [exact Es|].
        destruct u as [|c' u]; [cbn in Es; injection Es as -> _; congruence|]. cbn in Es. injection Es as <- _.
        repeat split; auto; [discriminate|]. cbn. congruence.
  - intros (b & s & -> & Hb & H). rewrite skip_space_app by exact Hb.
    destruct H as [(-> & ->)|[(u & c & r & -> & (Hne & Hu & Hq) & Hc & ->)|[(u & q & r & -> & Hq & ->)|(s' & -> & N & ->)]]].
    + reflexivity.
    + destruct u as [|d u]; [contradiction|]. pose proof Hu as Hu'. cbn in Hu'. apply andb_true_iff in Hu' as [Hd _]. apply negb_true_iff in Hd.
      cbn [append skip_space]. rewrite Hd. destruct (Ascii.eqb_spec d """") as [->|_]; [now exfalso|].
      change (String d (u +s+ String c r)) with (String d u +s+ String c r). rewrite read_word_app by assumption. reflexivity.
    + cbn [skip_space]. change (is_space """") with false. cbn iota. rewrite Ascii.eqb_refl. pose proof (read_quoted_iff _ (u +s+ String """" r) "" (le_n _)) as Q.
      destruct (read_quoted (u +s+ String """" r) "") as [q'|].
      * destruct Q as (u' & q2 & r' & E & Hq' & ->). rewrite (quoted_unique _ _ Hq _ _ _ _ Hq' E). reflexivity.
      * exfalso. exact (Q _ _ _ eq_refl Hq).
    + cbn [skip_space]. change (is_space """") with false. cbn iota. rewrite Ascii.eqb_refl. pose proof (read_quoted_iff _ s' "" (le_n _)) as Q.
      destruct (read_quoted s' "") as [q'|]; [|reflexivity]. destruct Q as (u & q & rest & -> & Hq & _). exfalso. exact (N _ _ _ eq_refl Hq).
Qed.

(** ** All types *)

Lemma elem_fails e old w new : enum_ok e -> fails_with e old w new <-> ruined e old w new.
Proof.
  intros Hok. unfold fails_with. destruct e as [sg bits| | | | |n names|n mn mx rd|n rd pr]; cbn [parse_elem].
  - apply number_fails.
  - apply number_fails.
  - cbn [ruined In]. destruct (String.eqb_spec w "0") as [->|H0]; [tauto|]. destruct (String.eqb_spec w "1") as [->|H1]; [tauto|].
    destruct (String.eqb_spec w "true") as [->|H2]; [tauto|]. destruct (String.eqb_spec w "false") as [->|H3]; [tauto|]. split; [|tauto].
    intros ->. split; [|reflexivity]. intros [E|[E|[E|[E|[]]]]]; congruence.
  - cbn [ruined]. tauto.
  - apply path_fails.
  - destruct Hok as [Hnd Hne]. cbn [ruined]. destruct (assoc w names) as [z|] eqn:E.
    + split; [intros []|]. intros [H _]. apply assoc_In in E; [|exact Hnd]. exact (H z E).
    + apply assoc_None in E. assert (K : forall z, ~ In (w, z) names) by (intros z H; apply E; change w with (fst (w, z)); now apply in_map).
      destruct (enum_keys names); split; try tauto; auto.
  - cbn [ruined]. destruct (rd w) as [| |v rest] eqn:E; cbn [of_fc].
    + split; [intros ->; right; auto|]. intros [(r & H & _)|[-> _]]; [discriminate|reflexivity].
    + split; [intros ->; right; auto|]. intros [(r & H & _)|[-> _]]; [discriminate|reflexivity].
    + destruct rest as [|c rest]; cbn [is_empty].
      * split; [intros []|]. intros [(r & [= _ <-] & H)|[_ [H|H]]]; [contradiction|discriminate..].
      * split; [intros ->; left; eexists; split; [reflexivity|discriminate]|]. intros [(r & [= <- _] & H)|[_ [H|H]]]; [reflexivity|discriminate..].
  - cbn [ruined]. destruct (rd old w) as [[v fl] eo] eqn:E. cbn [of_stream]. destruct fl, eo; cbn [orb negb]; split;
      try (intros ->; do 2 eexists; split; [reflexivity|auto]); try (intros (fl & eo & [= <- <- <-] & H); destruct H; try discriminate; reflexivity);
      try (intros []); intros (fl & eo & [= <- <- <-] & [H|H]); discriminate.
Qed.
