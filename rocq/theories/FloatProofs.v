(** Proofs about the conversion of texts to floating point numbers. *)
From Verif Require Import Base StrLib Values Validators ValuesSpec ValuesProofs ReadingProofs Charconv FloatSpec.

Lemma span_split p s a b : span p s = (a, b) -> s = a +s+ b /\ sall p a = true /\ (forall c r, b = String c r -> p c = false).
Proof.
  revert a b; induction s as [|c s IH]; intros a b H; cbn [span] in H.
  - injection H as <- <-. repeat split; auto. discriminate.
  - destruct (p c) eqn:E.
    + destruct (span p s) as [a' b'] eqn:Es. injection H as <- <-. destruct (IH _ _ eq_refl) as (-> & H1 & H2). cbn. rewrite E. auto.
    + injection H as <- <-. repeat split; auto. intros d r [= <- <-]. exact E.
Qed.

Lemma span_app p a b : sall p a = true -> span p (a +s+ b) = (a +s+ fst (span p b), snd (span p b)).
Proof.
  induction a as [|c a IH]; intros H; cbn [append]; [now destruct (span p b)|]. cbn in H. apply andb_true_iff in H as [H1 H2].
  cbn [span]. rewrite H1, IH by exact H2. reflexivity.
Qed.
Lemma span_stop p c r : p c = false -> span p (String c r) = ("", String c r).
Proof. intros H. cbn. now rewrite H. Qed.
Lemma span_length p s : String.length (snd (span p s)) <= String.length s.
Proof. destruct (span p s) as [a b] eqn:E. apply span_split in E as (-> & _). cbn. rewrite length_app_s. lia. Qed.

Lemma after_char_some c s r : after_char c s = Some r <-> s = String c r.
Proof.
  destruct s as [|d s]; cbn; [split; discriminate|]. destruct (Ascii.eqb_spec c d) as [<-|Hn].
  - split; [now intros [= ->]|now intros [= ->]].
  - split; [discriminate|]. intros [= <- _]. contradiction.
Qed.
Lemma after_char_none c s : after_char c s = None -> forall r, s <> String c r.
Proof. intros H r ->. cbn in H. now rewrite Ascii.eqb_refl in H. Qed.

Lemma read_digits_all d : digits d -> read_digits d 0 = (weight d, "").
Proof. intros [_ H]. rewrite <- (app_nil_r_s d) at 1. rewrite read_digits_app by exact H. cbn. f_equal. Qed.

(** ** Exponents *)

Lemma digits_starts d r : digits d -> starts_digit (d +s+ r) = true.
Proof. apply starts_digit_app. Qed.

Lemma digits_char d c s : digits d -> d = String c s -> is_digit c = true.
Proof. intros [_ H] ->. cbn in H. now apply andb_true_iff in H. Qed.

Lemma digit_neither d r : digits d -> after_char "-" (d +s+ r) = None /\ after_char "+" (d +s+ r) = None.
Proof.
  intros H. destruct d as [|c d]; [now destruct H|]. pose proof (digits_char _ _ _ H eq_refl) as Hc. cbn.
  destruct (Ascii.eqb_spec "-" c) as [<-|_]; [discriminate|]. destruct (Ascii.eqb_spec "+" c) as [<-|_]; [discriminate|auto].
Qed.

Lemma exponent_length s : String.length (snd (scan_exponent "e" s)) <= String.length s.
Proof.
  destruct s as [|c r]; cbn [scan_exponent]; [reflexivity|]. destruct (Ascii.eqb _ _); [|reflexivity].
  assert (K : forall d (neg : bool), String.length d <= String.length r ->
    String.length (snd (if starts_digit d then let '(n, rest) := read_digits d 0 in ((if neg then - n else n)%Z, rest) else (0%Z, String c r))) <= String.length (String c r)).
  { intros d neg Hd. destruct (starts_digit d); [|reflexivity]. destruct (read_digits d 0) as [n rest] eqn:E.
    apply DiagnosisOptions.read_digits_split in E as (p & -> & _). cbn [snd String.length] in *. rewrite length_app_s in Hd. lia. }
  destruct (after_char "-" r) as [r'|] eqn:E1; [apply after_char_some in E1 as ->; apply (K r' true); cbn; lia|].
  destruct (after_char "+" r) as [r'|] eqn:E2; [apply after_char_some in E2 as ->; apply (K r' false); cbn; lia|]. apply (K r false). lia.
Qed.

Lemma mark_e c : Ascii.eqb (to_lower c) "e" = true <-> c = "e"%char \/ c = "E"%char.
Proof.
  split; [|intros [->| ->]; reflexivity]. revert c. 
  assert (H : forallb (fun n => let c := ascii_of_nat n in implb (Ascii.eqb (to_lower c) "e") (Ascii.eqb c "e" || Ascii.eqb c "E")) (seq 0 256) = true) by (vm_compute; reflexivity).
  intros c Hc. rewrite forallb_forall in H. specialize (H (nat_of_ascii c)). rewrite in_seq in H. pose proof (nat_ascii_bounded c). specialize (H ltac:(lia)).
  cbn zeta in H. rewrite ascii_nat_embedding, Hc in H. cbn in H. apply orb_true_iff in H as [H|H]; apply Ascii.eqb_eq in H; auto.
Qed.

Lemma exponent_sound s e r : scan_exponent "e" s = (e, r) -> exists x, s = x +s+ r /\ exponent_text x e.
Proof.
  destruct s as [|c s]; cbn [scan_exponent]; [intros [= <- <-]; exists ""; split; [reflexivity|constructor]|].
  destruct (Ascii.eqb (to_lower c) "e") eqn:Hc; [|intros [= <- <-]; exists ""; split; [reflexivity|constructor]].
  apply mark_e in Hc.
  assert (K : forall d, starts_digit d = true -> exists p r', read_digits d 0 = (weight p, r') /\ d = p +s+ r' /\ digits p).
  { intros d Hd. destruct (read_digits d 0) as [n r'] eqn:E. apply DiagnosisOptions.read_digits_split in E as (p & -> & Hp & Hr & ->). exists p, r'.
    rewrite Z.mul_0_l, Z.add_0_l. repeat split; auto. intros ->. cbn in Hd. congruence. }
  destruct (after_char "-" s) as [d|] eqn:E1; [|destruct (after_char "+" s) as [d|] eqn:E2].
  - apply after_char_some in E1 as ->. destruct (starts_digit d) eqn:Hd; [|intros [= <- <-]; exists ""; split; [reflexivity|constructor]].
    destruct (K _ Hd) as (p & r' & -> & -> & Hp). intros [= <- <-]. exists (String c ("-" +s+ p)). split; [reflexivity|]. now constructor.
  - apply after_char_some in E2 as ->. destruct (starts_digit d) eqn:Hd; [|intros [= <- <-]; exists ""; split; [reflexivity|constructor]].
    destruct (K _ Hd) as (p & r' & -> & -> & Hp). intros [= <- <-]. exists (String c ("+" +s+ p)). split; [reflexivity|]. now constructor.
  - destruct (starts_digit s) eqn:Hd; [|intros [= <- <-]; exists ""; split; [reflexivity|constructor]].
    destruct (K _ Hd) as (p & r' & -> & -> & Hp). intros [= <- <-]. exists (String c p). split; [reflexivity|]. now constructor.
Qed.

Lemma exponent_complete x e r : exponent_text x e ->
  String.length (snd (scan_exponent "e" (x +s+ r))) <= String.length r /\ (r = "" -> scan_exponent "e" (x +s+ r) = (e, "")).
Proof.
  assert (K : forall d neg s, digits d -> 
    (if starts_digit (d +s+ r) then let '(n, rest) := read_digits (d +s+ r) 0 in ((if neg : bool then - n else n)%Z, rest) else (0%Z, s)) =
    ((if neg then - fst (read_digits r (weight d)) else fst (read_digits r (weight d)))%Z, snd (read_digits r (weight d)))).
  { intros d neg s Hd. rewrite digits_starts by exact Hd. rewrite read_digits_app by apply Hd. cbn [Z.mul Z.add]. now destruct (read_digits r (weight d)). }
  assert (L : forall n, String.length (snd (read_digits r n)) <= String.length r).
  { intros n. destruct (read_digits r n) as [m r'] eqn:E. apply DiagnosisOptions.read_digits_split in E as (p & -> & _). cbn. rewrite length_app_s. lia. }
  destruct 1 as [|c d Hc Hd|c d Hc Hd|c d Hc Hd]; cbn [append].
  - split; [apply exponent_length|]. now intros ->.
  - cbn [scan_exponent]. rewrite (proj2 (mark_e c) Hc). destruct (digit_neither d r Hd) as [-> ->]. rewrite (K d false) by exact Hd. cbn [snd]. split; [apply L|]. intros ->. reflexivity.
  - cbn [scan_exponent]. rewrite (proj2 (mark_e c) Hc). change (after_char "-" (String "+" (d +s+ r))) with (@None string). change (after_char "+" (String "+" (d +s+ r))) with (Some (d +s+ r)).
    cbv beta iota. rewrite (K d false) by exact Hd. cbn [snd]. split; [apply L|]. intros ->. reflexivity.
  - cbn [scan_exponent]. rewrite (proj2 (mark_e c) Hc). change (after_char "-" (String "-" (d +s+ r))) with (Some (d +s+ r)).
    cbv beta iota. rewrite (K d true) by exact Hd. cbn [snd]. split; [apply L|]. intros ->. reflexivity.
Qed.

(** ** Digits with a point *)

Lemma sall_app f a b : sall f (a +s+ b) = sall f a && sall f b.
Proof. induction a as [|c a IH]; cbn; [reflexivity|]. now rewrite IH, andb_assoc. Qed.

Lemma is_empty_digits s : is_empty s = false -> sall is_digit s = true -> digits s.
Proof. intros H1 H2. split; [|exact H2]. now intros ->. Qed.
Lemma digits_not_empty s : digits s -> is_empty s = false.
Proof. intros [H _]. now destruct s. Qed.

Lemma mantissa_sound s i f r : scan_mantissa is_digit s = Some (i, f, r) -> exists m, s = m +s+ r /\ mantissa_text m (i +s+ f) (String.length f).
Proof.
  unfold scan_mantissa. destruct (span is_digit s) as [i' r1] eqn:E1. apply span_split in E1 as (-> & Hi & _).
  destruct (after_char "." r1) as [r2|] eqn:Ea.
  - apply after_char_some in Ea as ->. destruct (span is_digit r2) as [f' r3] eqn:E2. apply span_split in E2 as (-> & Hf & _).
    destruct (is_empty (i' +s+ f')) eqn:Ee; [discriminate|]. intros [= <- <- <-]. exists (i' +s+ "." +s+ f'). split; [now rewrite !app_assoc_s|].
    constructor. apply is_empty_digits; [exact Ee|]. now rewrite sall_app, Hi, Hf.
  - destruct (is_empty i') eqn:Ee; [discriminate|]. intros [= <- <- <-]. exists i'. split; [reflexivity|]. rewrite app_nil_r_s. constructor. now apply is_empty_digits.
Qed.

(** exact if what follows is no digit and no point *)
Lemma mantissa_exact m ds n r : mantissa_text m ds n -> (r = "" \/ exists c s, r = String c s /\ is_digit c = false /\ c <> "."%char) ->
  exists i f, scan_mantissa is_digit (m +s+ r) = Some (i, f, r) /\ i +s+ f = ds /\ String.length f = n.
Proof.
  intros H Hr. unfold scan_mantissa.
  assert (Hsp : span is_digit r = ("", r)) by (destruct Hr as [->|(c & s & -> & Hc & _)]; [reflexivity|now apply span_stop]).
  assert (Hpt : after_char "." r = None).
  { destruct (after_char "." r) as [s|] eqn:E; [|reflexivity]. apply after_char_some in E as ->. destruct Hr as [Hr|(c & s' & Hr & _ & Hc)]; [discriminate|]. injection Hr as <- _. contradiction. }
  destruct H as [i Hi|i f Hif].
  - rewrite span_app by apply Hi. rewrite Hsp. cbn [fst snd]. rewrite Hpt, app_nil_r_s, digits_not_empty by exact Hi. exists i, "". rewrite app_nil_r_s. auto.
  - assert (Hs : sall is_digit i = true /\ sall is_digit f = true) by (destruct Hif as [_ H]; rewrite sall_app in H; now apply andb_true_iff). destruct Hs as [Hi Hf].
    rewrite app_assoc_s, span_app by exact Hi. change (("." +s+ f) +s+ r) with (String "." (f +s+ r)). rewrite span_stop by reflexivity. cbn [fst snd]. rewrite app_nil_r_s.
    change (after_char "." (String "." (f +s+ r))) with (Some (f +s+ r)). cbv beta iota. rewrite span_app, Hsp by exact Hf. cbn [fst snd]. rewrite app_nil_r_s, digits_not_empty by exact Hif. eauto.
Qed.

Lemma mantissa_more m ds n r : mantissa_text m ds n -> exists i f r', scan_mantissa is_digit (m +s+ r) = Some (i, f, r') /\ String.length r' <= String.length r.
Proof.
  intros H. unfold scan_mantissa. destruct H as [i Hi|i f Hif].
  - rewrite span_app by apply Hi. pose proof (span_length is_digit r) as L. destruct (span is_digit r) as [a b]. cbn [fst snd] in *.
    assert (E : is_empty (i +s+ a) = false) by (pose proof (digits_not_empty _ Hi); now destruct i).
    destruct (after_char "." b) as [b'|] eqn:Eb.
    + apply after_char_some in Eb as ->. pose proof (span_length is_digit b') as L'. destruct (span is_digit b') as [a' b'']. cbn [fst snd] in *.
      assert (E' : is_empty ((i +s+ a) +s+ a') = false) by (destruct (i +s+ a); [discriminate|reflexivity]). rewrite E'. do 3 eexists. split; [reflexivity|]. cbn in L. lia.
    + rewrite E. do 3 eexists. split; [reflexivity|exact L].
  - assert (Hs : sall is_digit i = true /\ sall is_digit f = true) by (destruct Hif as [_ H]; rewrite sall_app in H; now apply andb_true_iff). destruct Hs as [Hi Hf].
    rewrite app_assoc_s, span_app by exact Hi. change (("." +s+ f) +s+ r) with (String "." (f +s+ r)). rewrite span_stop by reflexivity. cbn [fst snd]. rewrite app_nil_r_s.
    change (after_char "." (String "." (f +s+ r))) with (Some (f +s+ r)). cbv beta iota. rewrite span_app by exact Hf. pose proof (span_length is_digit r) as L.
    assert (E : is_empty (i +s+ f +s+ fst (span is_digit r)) = false).
    { pose proof (digits_not_empty _ Hif) as E. rewrite <- app_assoc_s. now destruct (i +s+ f). }
    rewrite E. do 3 eexists. split; [reflexivity|exact L].
Qed.

Lemma value_digits ds : digits ds -> fst (read_digits ds 0) = weight ds.
Proof. intros H. now rewrite read_digits_all. Qed.
Lemma mantissa_digits m ds n : mantissa_text m ds n -> digits ds.
Proof. now destruct 1. Qed.

Lemma decimal_sound s x r : scan_decimal s = Some (x, r) -> exists p, s = p +s+ r /\ unsigned_text p x.
Proof.
  unfold scan_decimal. destruct (scan_mantissa is_digit s) as [[[i f] r1]|] eqn:E; [|discriminate].
  destruct (scan_exponent "e" r1) as [e r2] eqn:Ee. intros [= <- <-]. apply mantissa_sound in E as (m & -> & Hm). apply exponent_sound in Ee as (y & -> & Hy).
  exists (m +s+ y). split; [now rewrite app_assoc_s|]. rewrite value_digits by (eapply mantissa_digits; eauto). now constructor.
Qed.

Lemma decimal_complete m ds n y e r : mantissa_text m ds n -> exponent_text y e ->
  exists x' r', scan_decimal ((m +s+ y) +s+ r) = Some (x', r') /\ String.length r' <= String.length r /\ (r = "" -> x' = Dec (weight ds) (e - Z.of_nat n) /\ r' = "").
Proof.
  intros Hm Hy. unfold scan_decimal. rewrite app_assoc_s.
  assert (Hcase : (y = "" /\ e = 0%Z /\ r <> "") \/ (y +s+ r = "" \/ exists c s, y +s+ r = String c s /\ is_digit c = false /\ c <> "."%char)).
  { destruct Hy as [|c d Hc Hd|c d Hc Hd|c d Hc Hd].
    - destruct r; [right; now left|left; auto]. split; [reflexivity|]. split; [reflexivity|discriminate].
    - right; right; do 2 eexists; split; [reflexivity|]; destruct Hc as [->| ->]; split; reflexivity || discriminate.
    - right; right; do 2 eexists; split; [reflexivity|]; destruct Hc as [->| ->]; split; reflexivity || discriminate.
    - right; right; do 2 eexists; split; [reflexivity|]; destruct Hc as [->| ->]; split; reflexivity || discriminate. }
  destruct Hcase as [(-> & -> & Hr)|Hx].
  - cbn [append]. destruct (mantissa_more m ds n r Hm) as (i & f & r' & -> & L). pose proof (exponent_length r') as L'. destruct (scan_exponent "e" r') as [e' r''].
    do 2 eexists. split; [reflexivity|]. cbn in L'. split; [lia|]. now intros ->.
  - destruct (mantissa_exact m ds n _ Hm Hx) as (i & f & -> & Hds & Hn). destruct (exponent_complete y e r Hy) as [L Hex].
    destruct (scan_exponent "e" (y +s+ r)) as [e' r'']. do 2 eexists. split; [reflexivity|]. split; [exact L|]. intros E. specialize (Hex E). injection Hex as -> ->.
    rewrite Hds, Hn, value_digits by (eapply mantissa_digits; eauto). auto.
Qed.

(** ** Words *)

Lemma after_word_iff w s r : after_word w s = Some r <-> exists p, s = p +s+ r /\ spells w p.
Proof.
  unfold spells. revert s; induction w as [|c w IH]; intros s; cbn [after_word].
  - split; [intros [= ->]; exists ""; auto|]. intros (p & -> & H). destruct p; [reflexivity|discriminate].
  - destruct s as [|d s].
    + split; [discriminate|]. intros (p & E & H). destruct p; [discriminate H|discriminate E].
    + destruct (Ascii.eqb_spec c (to_lower d)) as [->|Hn].
      * rewrite IH. split.
        -- intros (p & -> & H). exists (String d p). split; [reflexivity|]. change (to_lower d :: map to_lower (chars p) = to_lower d :: chars w). now rewrite H.
        -- intros (p & E & H). destruct p as [|d' p]; [discriminate H|]. injection E as <- ->. change (to_lower d :: map to_lower (chars p) = to_lower d :: chars w) in H. injection H as H. eauto.
      * split; [discriminate|]. intros (p & E & H). destruct p as [|d' p]; [discriminate H|]. injection E as <- ->. change (to_lower d :: map to_lower (chars p) = c :: chars w) in H. injection H as H _. congruence.
Qed.

Lemma spells_app w p r : spells w p -> after_word w (p +s+ r) = Some r.
Proof. intros H. apply after_word_iff. eauto. Qed.

Lemma after_word_other c w d s : c <> to_lower d -> after_word (String c w) (String d s) = None.
Proof. intros H. cbn. destruct (Ascii.eqb_spec c (to_lower d)); [contradiction|reflexivity]. Qed.

Lemma spells_first c w p : spells (String c w) p -> exists d q, p = String d q /\ to_lower d = c.
Proof. unfold spells. destruct p as [|d q]; [discriminate|]. change (to_lower d :: map to_lower (chars q) = c :: chars w -> exists d0 q0, String d q = String d0 q0 /\ to_lower d0 = c). intros H. injection H as H _. eauto. Qed.

Lemma payload_length r : String.length (skip_payload r) <= String.length r.
Proof.
  unfold skip_payload. destruct (after_char "(" r) as [r1|] eqn:E; [|reflexivity]. apply after_char_some in E as ->.
  match goal with |- context [span ?f r1] => set (g := f) end. pose proof (span_length g r1) as L.
  destruct (after_char ")" (snd (span g r1))) as [r2|] eqn:E2; [|reflexivity]. apply after_char_some in E2. rewrite E2 in L. cbn in *. lia.
Qed.

Definition payload_char (c : chr) : bool := is_alnum c || Ascii.eqb c "_".

Lemma payload_exact q r : sall payload_char q = true -> skip_payload ("(" +s+ q +s+ ")" +s+ r) = r.
Proof.
  intros H. unfold skip_payload. cbn [append]. change (after_char "(" (String "(" (q +s+ String ")" r))) with (Some (q +s+ String ")" r)). cbv beta iota.
  change (fun c : chr => is_alnum c || Ascii.eqb c "_") with payload_char. rewrite span_app by exact H. cbn [snd]. rewrite span_stop by reflexivity. reflexivity.
Qed.
Lemma payload_sound r : skip_payload r = r \/ exists q, sall payload_char q = true /\ r = "(" +s+ q +s+ ")" +s+ skip_payload r.
Proof.
  unfold skip_payload. destruct (after_char "(" r) as [r1|] eqn:E; [|now left]. apply after_char_some in E as ->.
  change (fun c : chr => is_alnum c || Ascii.eqb c "_") with payload_char. destruct (span payload_char r1) as [q r2] eqn:Es. cbn [snd].
  apply span_split in Es as (-> & Hq & _). destruct (after_char ")" r2) as [r3|] eqn:E2; [|now left]. apply after_char_some in E2 as ->. right. exists q. auto.
Qed.

Lemma number_first m ds n : mantissa_text m ds n -> exists c s, m = String c s /\ (is_digit c = true \/ c = "."%char).
Proof.
  destruct 1 as [i [Hn Hi]|i f [_ Hi]].
  - destruct i as [|c i]; [contradiction|]. cbn in Hi. apply andb_true_iff in Hi as [Hc _]. eauto.
  - destruct i as [|c i]; cbn; [eauto|]. cbn in Hi. apply andb_true_iff in Hi as [Hc _]. eauto.
Qed.

Lemma digit_lower c : is_digit c = true \/ c = "."%char -> to_lower c = c.
Proof.
  intros [H| ->]; [|reflexivity]. unfold to_lower, is_upper, is_digit, in_range in *. apply andb_true_iff in H as [H1 H2]. apply N.leb_le in H1, H2.
  change (code "9") with 57%N in H2. destruct (_ && _) eqn:E; [|reflexivity]. apply andb_true_iff in E as [E _]. apply N.leb_le in E. change (code "A") with 65%N in E. lia.
Qed.

Lemma number_no_word c w m s : (is_digit c = true \/ c = "."%char) -> (w = "i" \/ w = "n")%char -> after_word (String w m) (String c s) = None.
Proof.
  intros H Hw. apply after_word_other. rewrite digit_lower by exact H. intros <-. destruct H as [H|H]; destruct Hw as [Hw|Hw]; rewrite Hw in H; discriminate.
Qed.

Lemma unsigned_sound s x r : scan_unsigned false s = Some (x, r) -> exists p, s = p +s+ r /\ unsigned_text p x.
Proof.
  unfold scan_unsigned. destruct (after_word "infinity" s) as [r1|] eqn:E1.
  { intros [= <- <-]. apply after_word_iff in E1 as (p & -> & H). exists p. split; [reflexivity|]. apply text_inf. auto. }
  destruct (after_word "inf" s) as [r1|] eqn:E2.
  { intros [= <- <-]. apply after_word_iff in E2 as (p & -> & H). exists p. split; [reflexivity|]. apply text_inf. auto. }
  destruct (after_word "nan" s) as [r1|] eqn:E3; [|apply decimal_sound].
  intros [= <- <-]. apply after_word_iff in E3 as (p & -> & H). destruct (payload_sound r1) as [E|(q & Hq & E)].
  - exists p. rewrite E. split; [reflexivity|]. now apply text_nan.
  - exists (p +s+ "(" +s+ q +s+ ")"). rewrite E at 1. split; [now rewrite !app_assoc_s|]. now apply text_payload.
Qed.

Lemma unsigned_complete p x r : unsigned_text p x ->
  exists x' r', scan_unsigned false (p +s+ r) = Some (x', r') /\ String.length r' <= String.length r /\ (r = "" -> x' = x /\ r' = "").
Proof.
  destruct 1 as [m ds n y e Hm Hy|s Hs|s Hs|s q Hs Hq]; unfold scan_unsigned.
  - destruct (number_first m ds n Hm) as (c & t & Em & Hc).
    assert (Ep : (m +s+ y) +s+ r = String c (t +s+ y +s+ r)) by (rewrite Em, app_assoc_s; reflexivity).
    assert (N : forall w m', (w = "i" \/ w = "n")%char -> after_word (String w m') ((m +s+ y) +s+ r) = None) by (intros; rewrite Ep; now apply number_no_word).
    rewrite !N by auto. now apply decimal_complete.
  - destruct Hs as [Hs|Hs].
    + destruct (after_word "infinity" (s +s+ r)) as [r1|] eqn:E.
      * do 2 eexists. split; [reflexivity|]. apply after_word_iff in E as (p & E & Hp).
        assert (L : String.length p = 8 /\ String.length s = 3).
        { unfold spells in *. apply (f_equal (@List.length _)) in Hs, Hp. rewrite map_length in Hs, Hp. rewrite !length_chars in Hs, Hp. auto. }
        apply (f_equal String.length) in E. rewrite !length_app_s in E. split; [lia|]. intros ->. cbn in E. lia.
      * rewrite (spells_app _ _ _ Hs). do 2 eexists. split; [reflexivity|]. split; [lia|auto].
    + rewrite (spells_app _ _ _ Hs). do 2 eexists. split; [reflexivity|]. split; [lia|auto].
  - destruct (spells_first _ _ _ Hs) as (d & t & Es & Hd). assert (N : forall m', after_word (String "i" m') (s +s+ r) = None) by (intros; rewrite Es; apply after_word_other; rewrite Hd; discriminate).
    rewrite !N, (spells_app _ _ _ Hs). do 2 eexists. split; [reflexivity|]. split; [apply payload_length|]. intros ->. auto.
  - destruct (spells_first _ _ _ Hs) as (d & t & Es & Hd). rewrite app_assoc_s. assert (N : forall m' u, after_word (String "i" m') (s +s+ u) = None) by (intros; rewrite Es; apply after_word_other; rewrite Hd; discriminate).
    rewrite !N, (spells_app _ _ _ Hs). rewrite !app_assoc_s, payload_exact by exact Hq. do 2 eexists. split; [reflexivity|]. auto.
Qed.

(** ** Signs *)

Lemma std_sound s x r : std_scan s = Some (x, r) -> exists p, s = p +s+ r /\ float_text p x.
Proof.
  unfold std_scan, signed. destruct (after_char "-" s) as [t|] eqn:E.
  - apply after_char_some in E as ->. destruct (scan_unsigned false t) as [[y r1]|] eqn:E; [|discriminate]. intros [= <- <-]. apply unsigned_sound in E as (p & -> & H).
    exists ("-" +s+ p). split; [reflexivity|]. now constructor.
  - destruct (scan_unsigned false s) as [[y r1]|] eqn:E1; [|discriminate]. intros [= <- <-]. apply unsigned_sound in E1 as (p & -> & H). exists p. split; [reflexivity|]. now constructor.
Qed.

Lemma unsigned_no_minus p x r : unsigned_text p x -> after_char "-" (p +s+ r) = None.
Proof.
  intros H. destruct (after_char "-" (p +s+ r)) as [t|] eqn:E; [|reflexivity]. exfalso. apply after_char_some in E.
  assert (K : forall c w, spells (String c w) p \/ (exists q, p = q +s+ "" /\ False) -> c = "i"%char \/ c = "n"%char -> False).
  { intros c w [Hs|(_ & _ & [])] Hc. destruct (spells_first _ _ _ Hs) as (d & u & -> & Hd). injection E as -> _. destruct Hc as [->| ->]; discriminate. }
  destruct H as [m ds n y e Hm Hy|s [Hs|Hs]|s Hs|s q Hs Hq].
  - destruct (number_first m ds n Hm) as (c & u & -> & Hc). injection E as -> _. destruct Hc as [Hc|Hc]; discriminate.
  - eapply K; eauto.
  - eapply K; eauto.
  - eapply K; eauto.
  - destruct (spells_first _ _ _ Hs) as (d & u & -> & Hd). injection E as -> _. discriminate.
Qed.

Lemma std_complete p x r : float_text p x ->
  exists x' r', std_scan (p +s+ r) = Some (x', r') /\ String.length r' <= String.length r /\ (r = "" -> x' = x /\ r' = "").
Proof.
  destruct 1 as [s y H|s y H]; unfold std_scan, signed.
  - rewrite (unsigned_no_minus s y r H). destruct (unsigned_complete s y r H) as (x' & r' & -> & L & E). do 2 eexists. split; [reflexivity|]. split; [exact L|].
    intros Hr. destruct (E Hr) as [-> ->]. auto.
  - change (after_char "-" (("-" +s+ s) +s+ r)) with (Some (s +s+ r)). cbv beta iota. destruct (unsigned_complete s y r H) as (x' & r' & -> & L & E). do 2 eexists. split; [reflexivity|]. split; [exact L|].
    intros Hr. destruct (E Hr) as [-> ->]. auto.
Qed.

Lemma std_whole s x : std_scan s = Some (x, "") <-> float_text s x.
Proof.
  split.
  - intros H. apply std_sound in H as (p & -> & H). now rewrite app_nil_r_s.
  - intros H. destruct (std_complete s x "" H) as (x' & r' & E & _ & K). destruct (K eq_refl) as [-> ->]. now rewrite app_nil_r_s in E.
Qed.

Lemma float_text_unique s x y : float_text s x -> float_text s y -> x = y.
Proof. intros H1 H2. apply std_whole in H1, H2. congruence. Qed.

Lemma std_longest s x r : std_scan s = Some (x, r) <-> exists p, s = p +s+ r /\ float_text p x /\ longest s p.
Proof.
  assert (Max : forall p' r' x', s = p' +s+ r' -> float_text p' x' -> forall y q, std_scan s = Some (y, q) -> String.length q <= String.length r').
  { intros p' r' x' -> H y q E. destruct (std_complete p' x' r' H) as (x2 & r2 & E2 & L & _). rewrite E in E2. now injection E2 as -> ->. }
  split.
  - intros H. destruct (std_sound _ _ _ H) as (p & Es & Hp). exists p. split; [exact Es|]. split; [exact Hp|]. split; [eauto|]. split; [eauto|].
    intros p' r' x' Es' Hp'. pose proof (Max _ _ _ Es' Hp' _ _ H) as L. rewrite Es in Es'. apply (f_equal String.length) in Es'. rewrite !length_app_s in Es'. lia.
  - intros (p & Es & Hp & _ & _ & Hmax). destruct (std_complete p x r Hp) as (x2 & r2 & E2 & L & _). rewrite <- Es in E2. destruct (std_sound _ _ _ E2) as (p2 & Es2 & Hp2).
    pose proof (Hmax _ _ _ Es2 Hp2) as L2. assert (El : String.length p2 = String.length p /\ String.length r2 = String.length r).
    { pose proof (f_equal String.length Es) as A. pose proof (f_equal String.length Es2) as B. rewrite length_app_s in A, B. lia. }
    rewrite Es in Es2. assert (Eq : p = p2 /\ r = r2).
    { destruct El as [El _]. clear -Es2 El. revert p2 Es2 El. induction p as [|c p IH]; intros [|c2 p2] E L; try discriminate L; [auto|]. injection E as <- E. injection L as L. destruct (IH p2 E L) as [-> ->]. auto. }
    destruct Eq as [<- <-]. rewrite E2. now rewrite (float_text_unique _ _ _ Hp Hp2).
Qed.
