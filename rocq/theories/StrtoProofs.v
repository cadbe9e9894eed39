(** The numbers strtod reads: the scanner and the grammar of StrtoSpec.v agree. *)
From Coq Require Import Lia.
From Verif Require Import Base StrLib Values Validators ValuesSpec ValuesProofs ReadingProofs DiagnosisSpec Charconv FloatSpec FloatProofs ShimProofs StrtoSpec.

(** ** The exponent *)

Lemma mark_p c : Ascii.eqb (to_lower c) "p" = true <-> c = "p"%char \/ c = "P"%char.
Proof. split; [|intros [->| ->]; reflexivity]. destruct c as [[] [] [] [] [] [] [] []]; intros H; try discriminate H; auto. Qed.

Lemma power_length s : String.length (snd (scan_exponent "p" s)) <= String.length s.
Proof.
  destruct s as [|c r]; cbn [scan_exponent]; [reflexivity|]. destruct (Ascii.eqb _ _); [|reflexivity].
  assert (K : forall d (neg : bool), String.length d <= String.length r ->
    String.length (snd (if starts_digit d then let '(n, rest) := read_digits d 0 in ((if neg then - n else n)%Z, rest) else (0%Z, String c r))) <= String.length (String c r)).
  { intros d neg Hd. destruct (starts_digit d); [|reflexivity]. destruct (read_digits d 0) as [n rest] eqn:E.
    apply DiagnosisOptions.read_digits_split in E as (p & -> & _). cbn [snd String.length] in *. rewrite length_app_s in Hd. lia. }
  destruct (after_char "-" r) as [r'|] eqn:E1; [apply after_char_some in E1 as ->; apply (K r' true); cbn; lia|].
  destruct (after_char "+" r) as [r'|] eqn:E2; [apply after_char_some in E2 as ->; apply (K r' false); cbn; lia|]. apply (K r false). lia.
Qed.

Lemma power_sound s e r : scan_exponent "p" s = (e, r) -> exists x, s = x +s+ r /\ power_text x e.
Proof.
  destruct s as [|c s]; cbn [scan_exponent]; [intros [= <- <-]; exists ""; split; [reflexivity|constructor]|].
  destruct (Ascii.eqb (to_lower c) "p") eqn:Hc; [|intros [= <- <-]; exists ""; split; [reflexivity|constructor]].
  apply mark_p in Hc.
  assert (K : forall d, starts_digit d = true -> exists p r', read_digits d 0 = (weight p, r') /\ d = p +s+ r' /\ digits p).
  { intros d Hd. destruct (read_digits d 0) as [n r'] eqn:E. apply DiagnosisOptions.read_digits_split in E as (p & -> & Hp & Hr & ->). exists p, r'.
    rewrite Z.mul_0_l, Z.add_0_l. repeat split; auto. intros ->. cbn in Hd. congruence. }
  destruct (after_char "-" s) as [d|] eqn:E1; [|destruct (after_char "+" s) as [d|] eqn:E2].
  - apply after_char_some in E1 as ->. destruct (starts_digit d) eqn:Hd; [|intros [= <- <-]; exists ""; split; [reflexivity|constructor]].
    destruct (K _ Hd) as (p & r' & -> & -> & Hp). intros [= <- <-]. exists (String c ("-" +s+ p)). split; [reflexivity|]. now constructor.
  - apply after_char_some in E2 as ->. destruct (starts_digit d) eqn:Hd; [|intros [= <- <-]; exists ""; split; [reflexivity|constructor]].
    destruct (K _ Hd) as (p & r' & -> & -> & Hp). intros [= <- <-]. exists (String c ("+" +s+ p)). split; [reflexivity|]. now constructor.
  - destruct (starts_digit s) eqn:Hd; [|intros [= <- <-]; exists ""; split; [reflexivity|constructor]].
    destruct (K _ Hd) as (p & r' & -> & -> & Hp). intros [= <- <-]. exists (String c p). split; [reflexivity|]. now constructor.
Qed.

Lemma power_complete x e r : power_text x e ->
  String.length (snd (scan_exponent "p" (x +s+ r))) <= String.length r /\ (r = "" -> scan_exponent "p" (x +s+ r) = (e, "")).
Proof.
  assert (K : forall d neg s, digits d ->
    (if starts_digit (d +s+ r) then let '(n, rest) := read_digits (d +s+ r) 0 in ((if neg : bool then - n else n)%Z, rest) else (0%Z, s)) =
    ((if neg then - fst (read_digits r (weight d)) else fst (read_digits r (weight d)))%Z, snd (read_digits r (weight d)))).
  { intros d neg s Hd. rewrite digits_starts by exact Hd. rewrite read_digits_app by apply Hd. cbn [Z.mul Z.add]. now destruct (read_digits r (weight d)). }
  assert (L : forall n, String.length (snd (read_digits r n)) <= String.length r).
  { intros n. destruct (read_digits r n) as [m r'] eqn:E. apply DiagnosisOptions.read_digits_split in E as (p & -> & _). cbn. rewrite length_app_s. lia. }
  destruct 1 as [|c d Hc Hd|c d Hc Hd|c d Hc Hd]; cbn [append].
  - split; [apply power_length|]. now intros ->.
  - cbn [scan_exponent]. rewrite (proj2 (mark_p c) Hc). destruct (digit_neither d r Hd) as [-> ->]. rewrite (K d false) by exact Hd. cbn [snd]. split; [apply L|]. intros ->. reflexivity.
  - cbn [scan_exponent]. rewrite (proj2 (mark_p c) Hc). change (after_char "-" (String "+" (d +s+ r))) with (@None string). change (after_char "+" (String "+" (d +s+ r))) with (Some (d +s+ r)).
    cbv beta iota. rewrite (K d false) by exact Hd. cbn [snd]. split; [apply L|]. intros ->. reflexivity.
  - cbn [scan_exponent]. rewrite (proj2 (mark_p c) Hc). change (after_char "-" (String "-" (d +s+ r))) with (Some (d +s+ r)).
    cbv beta iota. rewrite (K d true) by exact Hd. cbn [snd]. split; [apply L|]. intros ->. reflexivity.
Qed.

(** ** The digits *)

Lemma hexes_iff s : hexes s <-> is_empty s = false /\ sall is_hex s = true.
Proof.
  unfold hexes. assert (A : (forall c, In c (chars s) -> In c hex_digits) <-> sall is_hex s = true).
  { induction s as [|c s IH].
    - split; [reflexivity|intros _ c []].
    - change (chars (String c s)) with (c :: chars s). cbn [sall]. rewrite andb_true_iff, <- IH, is_hex_in. split.
      + intros H. split; [apply H; now left|]. intros d Hd. apply H. now right.
      + intros [H1 H2] d [<-|Hd]; auto. }
  rewrite A. destruct s; cbn; intuition congruence.
Qed.

(** text, digits in front of and behind the point *)
Inductive hexm : string -> string -> string -> Prop :=
| hexm_whole i : hexes i -> hexm i i ""
| hexm_point i f : hexes (i +s+ f) -> hexm (i +s+ "." +s+ f) i f.

Lemma hexm_sound s i f r : scan_mantissa is_hex s = Some (i, f, r) -> exists m, s = m +s+ r /\ hexm m i f.
Proof.
  unfold scan_mantissa. destruct (span is_hex s) as [i' r1] eqn:E1. apply span_split in E1 as (-> & Hi & _).
  destruct (after_char "." r1) as [r2|] eqn:Ea.
  - apply after_char_some in Ea as ->. destruct (span is_hex r2) as [f' r3] eqn:E2. apply span_split in E2 as (-> & Hf & _).
    destruct (is_empty (i' +s+ f')) eqn:Ee; [discriminate|]. intros [= <- <- <-]. exists (i' +s+ "." +s+ f'). split; [now rewrite !app_assoc_s|].
    constructor. apply hexes_iff. split; [exact Ee|]. now rewrite sall_app, Hi, Hf.
  - destruct (is_empty i') eqn:Ee; [discriminate|]. intros [= <- <- <-]. exists i'. split; [reflexivity|]. constructor. now apply hexes_iff.
Qed.

Lemma hexm_exact m i f r : hexm m i f -> (r = "" \/ exists c s, r = String c s /\ is_hex c = false /\ c <> "."%char) ->
  scan_mantissa is_hex (m +s+ r) = Some (i, f, r).
Proof.
  intros H Hr. unfold scan_mantissa.
  assert (Hsp : span is_hex r = ("", r)) by (destruct Hr as [->|(c & s & -> & Hc & _)]; [reflexivity|now apply span_stop]).
  assert (Hpt : after_char "." r = None).
  { destruct (after_char "." r) as [s|] eqn:E; [|reflexivity]. apply after_char_some in E as ->. destruct Hr as [Hr|(c & s' & Hr & _ & Hc)]; [discriminate|]. injection Hr as <- _. contradiction. }
  destruct H as [i Hi|i f Hif]; apply hexes_iff in Hi || apply hexes_iff in Hif.
  - rewrite span_app by apply Hi. rewrite Hsp. cbn [fst snd]. now rewrite Hpt, app_nil_r_s, (proj1 Hi).
  - destruct Hif as [He Hs]. rewrite sall_app in Hs. apply andb_true_iff in Hs as [Hi Hf].
    rewrite app_assoc_s, span_app by exact Hi. change (("." +s+ f) +s+ r) with (String "." (f +s+ r)). rewrite span_stop by reflexivity. cbn [fst snd]. rewrite app_nil_r_s.
    change (after_char "." (String "." (f +s+ r))) with (Some (f +s+ r)). cbv beta iota. rewrite span_app, Hsp by exact Hf. cbn [fst snd]. now rewrite app_nil_r_s, He.
Qed.

Lemma hexm_more m i f r : hexm m i f -> exists i' f' r', scan_mantissa is_hex (m +s+ r) = Some (i', f', r') /\ String.length r' <= String.length r.
Proof.
  intros H. unfold scan_mantissa. destruct H as [i Hi|i f Hif]; apply hexes_iff in Hi || apply hexes_iff in Hif.
  - destruct Hi as [He Hi]. rewrite span_app by exact Hi. pose proof (span_length is_hex r) as L. destruct (span is_hex r) as [a b]. cbn [fst snd] in *.
    assert (E : is_empty (i +s+ a) = false) by now destruct i.
    destruct (after_char "." b) as [b'|] eqn:Eb.
    + apply after_char_some in Eb as ->. pose proof (span_length is_hex b') as L'. destruct (span is_hex b') as [a' b'']. cbn [fst snd] in *.
      assert (E' : is_empty ((i +s+ a) +s+ a') = false) by (destruct (i +s+ a); [discriminate|reflexivity]). rewrite E'. do 3 eexists. split; [reflexivity|]. cbn in L. lia.
    + rewrite E. do 3 eexists. split; [reflexivity|exact L].
  - destruct Hif as [He Hs]. rewrite sall_app in Hs. apply andb_true_iff in Hs as [Hi Hf].
    rewrite app_assoc_s, span_app by exact Hi. change (("." +s+ f) +s+ r) with (String "." (f +s+ r)). rewrite span_stop by reflexivity. cbn [fst snd]. rewrite app_nil_r_s.
    change (after_char "." (String "." (f +s+ r))) with (Some (f +s+ r)). cbv beta iota. rewrite span_app by exact Hf. pose proof (span_length is_hex r) as L.
    assert (E : is_empty (i +s+ f +s+ fst (span is_hex r)) = false) by (rewrite <- app_assoc_s; now destruct (i +s+ f)).
    rewrite E. do 3 eexists. split; [reflexivity|exact L].
Qed.

Lemma hexm_weight m i f : hexm m i f -> read_hex (i +s+ f) 0 = weight16 (i +s+ f).
Proof. intros H. rewrite read_hex_weight; [reflexivity|]. destruct H as [i Hi|i f H]; [rewrite app_nil_r_s|]; now apply hexes_iff. Qed.

(** the texts behind 0x *)
Definition behind_x (t : string) (x : mag) : Prop :=
  exists m i f y e, t = m +s+ y /\ hexm m i f /\ power_text y e /\ x = Hexa (weight16 (i +s+ f)) (e - 4 * Z.of_nat (String.length f)).

Lemma hex_text_iff s x : hex_text s x <-> exists z t, s = z +s+ t /\ spells "0x" z /\ behind_x t x.
Proof.
  split.
  - destruct 1 as [z i y e Hz Hi Hy|z i f y e Hz Hi Hy].
    + exists z, (i +s+ y). split; [reflexivity|]. split; [exact Hz|]. exists i, i, "", y, e. split; [reflexivity|]. split; [now constructor|]. split; [exact Hy|]. cbn. rewrite app_nil_r_s. f_equal. lia.
    + exists z, (i +s+ "." +s+ f +s+ y). split; [reflexivity|]. split; [exact Hz|]. exists (i +s+ "." +s+ f), i, f, y, e. split; [now rewrite !app_assoc_s|]. split; [now constructor|]. auto.
  - intros (z & t & -> & Hz & m & i & f & y & e & -> & Hm & Hy & ->). destruct Hm as [i Hi|i f Hi].
    + rewrite app_nil_r_s. cbn [String.length]. replace (e - 4 * Z.of_nat 0)%Z with e by lia. now constructor.
    + rewrite !app_assoc_s. now constructor.
Qed.

Lemma hex_sound s x r : scan_hex s = Some (x, r) -> exists p, s = p +s+ r /\ behind_x p x.
Proof.
  unfold scan_hex. destruct (scan_mantissa is_hex s) as [[[i f] r1]|] eqn:E; [|discriminate].
  destruct (scan_exponent "p" r1) as [e r2] eqn:Ee. intros [= <- <-]. apply hexm_sound in E as (m & -> & Hm). apply power_sound in Ee as (y & -> & Hy).
  exists (m +s+ y). split; [now rewrite app_assoc_s|]. exists m, i, f, y, e. repeat split; auto. now rewrite (hexm_weight m).
Qed.

Lemma hex_complete p x r : behind_x p x ->
  exists x' r', scan_hex (p +s+ r) = Some (x', r') /\ String.length r' <= String.length r /\ (r = "" -> x' = x /\ r' = "").
Proof.
  intros (m & i & f & y & e & -> & Hm & Hy & ->). unfold scan_hex. rewrite app_assoc_s.
  assert (Hcase : (y = "" /\ e = 0%Z /\ r <> "") \/ (y +s+ r = "" \/ exists c s, y +s+ r = String c s /\ is_hex c = false /\ c <> "."%char)).
  { destruct Hy as [|c d Hc Hd|c d Hc Hd|c d Hc Hd].
    - destruct r; [right; now left|left; auto]. split; [reflexivity|]. split; [reflexivity|discriminate].
    - right; right; do 2 eexists; split; [reflexivity|]; destruct Hc as [->| ->]; split; reflexivity || discriminate.
    - right; right; do 2 eexists; split; [reflexivity|]; destruct Hc as [->| ->]; split; reflexivity || discriminate.
    - right; right; do 2 eexists; split; [reflexivity|]; destruct Hc as [->| ->]; split; reflexivity || discriminate. }
  destruct Hcase as [(-> & -> & Hr)|Hx].
  - cbn [append]. destruct (hexm_more m i f r Hm) as (i' & f' & r' & -> & L). pose proof (power_length r') as L'. destruct (scan_exponent "p" r') as [e' r''].
    do 2 eexists. split; [reflexivity|]. cbn in L'. split; [lia|]. now intros ->.
  - rewrite (hexm_exact m i f _ Hm Hx). destruct (power_complete y e r Hy) as [L Hex].
    destruct (scan_exponent "p" (y +s+ r)) as [e' r'']. do 2 eexists. split; [reflexivity|]. split; [exact L|]. intros E. specialize (Hex E). injection Hex as -> ->.
    now rewrite (hexm_weight m).
Qed.

(** ** Without a sign *)

Definition number_text (s : string) (x : mag) : Prop := unsigned_text s x \/ hex_text s x.

Lemma with_hex s : scan_unsigned true s = match match after_word "0x" s with Some r => scan_hex r | None => None end with
  | Some q => Some q
  | None => scan_unsigned false s
  end.
Proof.
  unfold scan_unsigned. destruct (after_word "0x" s) as [r|] eqn:E.
  2:{ reflexivity. }
  apply after_word_iff in E as (z & -> & Hz). destruct (spells_first _ _ _ Hz) as (d & t & -> & Hd).
  assert (N : forall w m', (w = "i" \/ w = "n")%char -> after_word (String w m') (String d t +s+ r) = None).
  { intros w m' Hw. cbn [append]. apply after_word_other. rewrite Hd. destruct Hw as [->| ->]; discriminate. }
  rewrite !N by auto. reflexivity.
Qed.

Lemma number_sound s x r : scan_unsigned true s = Some (x, r) -> exists p, s = p +s+ r /\ number_text p x.
Proof.
  rewrite with_hex. destruct (after_word "0x" s) as [t|] eqn:E.
  - apply after_word_iff in E as (z & -> & Hz). destruct (scan_hex t) as [q|] eqn:Eh.
    + intros [= ->]. apply hex_sound in Eh as (p & -> & Hp). exists (z +s+ p). split; [now rewrite app_assoc_s|]. right. apply hex_text_iff. eauto.
    + intros H. apply unsigned_sound in H as (p & Ep & Hp). exists p. split; [exact Ep|]. now left.
  - intros H. apply unsigned_sound in H as (p & Ep & Hp). exists p. split; [exact Ep|]. now left.
Qed.

Lemma zero_x z t : spells "0x" z -> exists c, z = String "0" (str1 c) /\ scan_unsigned false (z +s+ t) = Some (Dec 0 0, String c t).
Proof.
  unfold spells. destruct z as [|a [|b [|? ?]]]; try discriminate. intros H. change ([to_lower a; to_lower b] = ["0"; "x"]%char) in H. injection H as Ha Hb.
  assert (a = "0"%char) by (destruct a as [[] [] [] [] [] [] [] []]; try discriminate Ha; reflexivity).
  assert (B : b = "x"%char \/ b = "X"%char) by (destruct b as [[] [] [] [] [] [] [] []]; try discriminate Hb; auto).
  subst a. destruct B as [->| ->]; eexists; split; reflexivity.
Qed.

Lemma number_complete p x r : number_text p x ->
  exists x' r', scan_unsigned true (p +s+ r) = Some (x', r') /\ String.length r' <= String.length r /\ (r = "" -> x' = x /\ r' = "").
Proof.
  intros [H|H]; rewrite with_hex.
  - destruct (unsigned_complete p x r H) as (x' & r' & E & L & K). destruct (after_word "0x" (p +s+ r)) as [t|] eqn:Ew; [|eauto 6].
    apply after_word_iff in Ew as (z & Ez & Hz). destruct (scan_hex t) as [[x2 r2]|] eqn:Eh; [|eauto 6].
    apply hex_sound in Eh as (q & -> & _). destruct (zero_x z (q +s+ r2) Hz) as (c & _ & Ey). rewrite Ez, Ey in E. injection E as <- <-.
    exists x2, r2. split; [reflexivity|]. cbn [String.length] in L. rewrite length_app_s in L. split; [lia|]. intros ->. cbn in L. lia.
  - apply hex_text_iff in H as (z & t & -> & Hz & Ht). rewrite app_assoc_s, (spells_app _ _ _ Hz). destruct (hex_complete t x r Ht) as (x' & r' & -> & L & K). eauto 6.
Qed.

Lemma number_begins p x r : number_text p x -> exists c q, p +s+ r = String c q /\ is_space c = false /\ c <> "-"%char /\ c <> "+"%char.
Proof.
  intros [H|H].
  - pose proof (unsigned_no_minus p x r H) as Hm. destruct (float_begins p (false, x)) as (c & q & -> & Hs & Hp); [now constructor|]. exists c, (q +s+ r). repeat split; auto. intros ->. discriminate Hm.
  - apply hex_text_iff in H as (z & t & -> & Hz & _). destruct (zero_x z (t +s+ r) Hz) as (c & -> & _). do 2 eexists. split; [reflexivity|]. repeat split; discriminate.
Qed.

(** ** Blanks and sign *)

Lemma skip_space_split s : exists b, s = b +s+ skip_space s /\ blanks b.
Proof.
  unfold blanks. induction s as [|c s IH]; [exists ""; auto|]. cbn [skip_space]. destruct (is_space c) eqn:E; [|exists ""; auto].
  destruct IH as (b & Eb & Hb). exists (String c b). cbn. rewrite E, Hb. split; [congruence|reflexivity].
Qed.
Lemma skip_space_blanks b c q : blanks b -> is_space c = false -> skip_space (b +s+ String c q) = String c q.
Proof.
  unfold blanks. intros Hb Hc. induction b as [|a b IH]; cbn [append skip_space]; [now rewrite Hc|]. cbn in Hb. apply andb_true_iff in Hb as [-> Hb]. auto.
Qed.

Lemma strto_sound s x r : strto_scan s = Some (x, r) -> exists p, s = p +s+ r /\ strto_text p x.
Proof.
  unfold strto_scan, signed. destruct (skip_space_split s) as (b & Es & Hb). set (u := skip_space s) in *. clearbody u. subst s. destruct (after_char "-" u) as [t|] eqn:E1; [|destruct (after_char "+" u) as [t|] eqn:E2].
  - apply after_char_some in E1 as ->. destruct (scan_unsigned true t) as [[y r1]|] eqn:E; [|discriminate]. intros [= <- <-]. apply number_sound in E as (p & -> & H). 
    exists (b +s+ "-" +s+ p). split; [now rewrite !app_assoc_s|]. now constructor.
  - apply after_char_some in E2 as ->. destruct (scan_unsigned true t) as [[y r1]|] eqn:E; [|discriminate]. intros [= <- <-]. apply number_sound in E as (p & -> & H).
    exists (b +s+ "+" +s+ p). split; [now rewrite !app_assoc_s|]. now constructor.
  - destruct (scan_unsigned true u) as [[y r1]|] eqn:E; [|discriminate]. intros [= <- <-]. apply number_sound in E as (p & -> & H).
    exists (b +s+ p). split; [now rewrite app_assoc_s|]. now constructor.
Qed.

Lemma strto_complete p x r : strto_text p x ->
  exists x' r', strto_scan (p +s+ r) = Some (x', r') /\ String.length r' <= String.length r /\ (r = "" -> x' = x /\ r' = "").
Proof.
  assert (F : forall neg s y, number_text s y -> exists x' r', signed neg (scan_unsigned true (s +s+ r)) = Some (x', r') /\ String.length r' <= String.length r /\ (r = "" -> x' = (neg, y) /\ r' = "")).
  { intros neg s y H. destruct (number_complete s y r H) as (x' & r' & -> & L & K). do 2 eexists. split; [reflexivity|]. split; [exact L|]. intros E. destruct (K E) as [-> ->]. auto. }
  destruct 1 as [b s y Hb H|b s y Hb H|b s y Hb H]; unfold strto_scan; rewrite !app_assoc_s.
  - destruct (number_begins s y r H) as (c & q & E & Hs & Hm & Hp). rewrite E, skip_space_blanks by assumption. cbn [after_char].
    destruct (Ascii.eqb_spec "-" c); [now subst|]. destruct (Ascii.eqb_spec "+" c); [now subst|]. rewrite <- E. now apply F.
  - change ("+" +s+ s +s+ r) with (String "+" (s +s+ r)). rewrite skip_space_blanks by (assumption || reflexivity). cbn [after_char]. now apply F.
  - change ("-" +s+ s +s+ r) with (String "-" (s +s+ r)). rewrite skip_space_blanks by (assumption || reflexivity). cbn [after_char]. now apply F.
Qed.

Lemma strto_whole s x : strto_scan s = Some (x, "") <-> strto_text s x.
Proof.
  split.
  - intros H. apply strto_sound in H as (p & -> & H). now rewrite app_nil_r_s.
  - intros H. destruct (strto_complete s x "" H) as (x' & r' & E & _ & K). destruct (K eq_refl) as [-> ->]. now rewrite app_nil_r_s in E.
Qed.
Lemma strto_text_unique s x y : strto_text s x -> strto_text s y -> x = y.
Proof. intros H1 H2. apply strto_whole in H1, H2. congruence. Qed.

Lemma strto_longest s x r : strto_scan s = Some (x, r) <-> exists p, s = p +s+ r /\ strto_text p x /\ longest_strto s p.
Proof.
  assert (Max : forall p' r' x', s = p' +s+ r' -> strto_text p' x' -> forall y q, strto_scan s = Some (y, q) -> String.length q <= String.length r').
  { intros p' r' x' -> H y q E. destruct (strto_complete p' x' r' H) as (x2 & r2 & E2 & L & _). rewrite E in E2. now injection E2 as -> ->. }
  split.
  - intros H. destruct (strto_sound _ _ _ H) as (p & Es & Hp). exists p. split; [exact Es|]. split; [exact Hp|]. split; [eauto|]. split; [eauto|].
    intros p' r' x' Es' Hp'. pose proof (Max _ _ _ Es' Hp' _ _ H) as L. rewrite Es in Es'. apply (f_equal String.length) in Es'. rewrite !length_app_s in Es'. lia.
  - intros (p & Es & Hp & _ & _ & Hmax). destruct (strto_complete p x r Hp) as (x2 & r2 & E2 & L & _). rewrite <- Es in E2. destruct (strto_sound _ _ _ E2) as (p2 & Es2 & Hp2).
    pose proof (Hmax _ _ _ Es2 Hp2) as L2. assert (El : String.length p2 = String.length p /\ String.length r2 = String.length r).
    { pose proof (f_equal String.length Es) as A. pose proof (f_equal String.length Es2) as B. rewrite length_app_s in A, B. lia. }
    rewrite Es in Es2. assert (Eq : p = p2 /\ r = r2).
    { clear -Es2 El. revert p2 Es2 El. induction p as [|c p IH]; intros [|c2 p2] E [L1 L2]; try discriminate L1; [auto|]. injection E as -> E. destruct (IH p2 E) as [-> ->]; auto. }
    destruct Eq as [<- <-]. rewrite E2. f_equal. f_equal. now apply (strto_text_unique p).
Qed.

Lemma strto_none s : strto_scan s = None <-> forall p r x, s = p +s+ r -> ~ strto_text p x.
Proof.
  split.
  - intros H p r x -> Hp. destruct (strto_complete p x r Hp) as (? & ? & E & _). congruence.
  - intros H. destruct (strto_scan s) as [[x r]|] eqn:E; [|reflexivity]. apply strto_sound in E as (p & -> & Hp). exfalso. now apply (H p r x).
Qed.

(** ** The replacement of from_chars *)

Lemma shim_reads_one round tf k s : no_nul s -> shim_read round tf k s false =
  match after_char "+" s with
  | Some _ => (false, FcInvalid)
  | None => match strto_scan s with
            | None => (false, FcInvalid)
            | Some (x, rest) => let '(v, out) := round k x in if out then (true, FcRange) else (false, FcOk (stored tf k v) rest)
            end
  end.
Proof.
  intros Hn. unfold shim_read, shim_from_chars. destruct (after_char "+" (s +s+ str1 nul)) as [r|] eqn:E.
  - destruct (after_char "+" s) as [r'|] eqn:E'; [reflexivity|]. apply (proj2 (after_plus s)) in E'. congruence.
  - apply (proj1 (after_plus s)) in E. rewrite E. cbn [exponent_check]. rewrite shim_start_general. unfold c_string. rewrite span_all by exact Hn. cbn [fst].
    destruct (strto_scan s) as [[x rest]|] eqn:Es; [|reflexivity]. destruct (round k x) as [v out]. destruct out; cbn [orb]; [reflexivity|]. f_equal.
    destruct (strto_sound _ _ _ Es) as (p & Ep & _). unfold stored. f_equal.
    rewrite Ep, length_app_s. replace (String.length p + String.length rest - String.length rest) with (String.length p) by lia. apply sdrop_app.
Qed.

Lemma shim_ok round tf k s v rest : no_nul s ->
  snd (shim_read round tf k s false) = FcOk v rest <->
  (forall q, s <> String "+" q) /\ exists p x w, s = p +s+ rest /\ strto_text p x /\ longest_strto s p /\ round k x = (w, false) /\ v = stored tf k w.
Proof.
  intros Hn. rewrite shim_reads_one by exact Hn. destruct (after_char "+" s) as [r|] eqn:E.
  - apply after_char_some in E. cbn. split; [discriminate|]. intros [H _]. now apply H in E.
  - split.
    + intros H. split; [now apply after_char_none|]. destruct (strto_scan s) as [[x rest']|] eqn:Es; [|discriminate]. destruct (round k x) as [w out] eqn:Er. destruct out; [discriminate|].
      injection H as <- <-. apply strto_longest in Es as (p & Ep & Hp & Hl). exists p, x, w. auto.
    + intros (_ & p & x & w & Ep & Hp & Hl & Hr & ->). rewrite (proj2 (strto_longest s x rest)) by eauto. now rewrite Hr.
Qed.

Lemma shim_range round tf k s : no_nul s ->
  snd (shim_read round tf k s false) = FcRange <->
  (forall q, s <> String "+" q) /\ exists p x w, longest_strto s p /\ strto_text p x /\ round k x = (w, true).
Proof.
  intros Hn. rewrite shim_reads_one by exact Hn. destruct (after_char "+" s) as [r|] eqn:E.
  - apply after_char_some in E. cbn. split; [discriminate|]. intros [H _]. now apply H in E.
  - split.
    + intros H. split; [now apply after_char_none|]. destruct (strto_scan s) as [[x rest']|] eqn:Es; [|discriminate]. destruct (round k x) as [w out] eqn:Er. destruct out; [|discriminate].
      apply strto_longest in Es as (p & Ep & Hp & Hl). exists p, x, w. auto.
    + intros (_ & p & x & w & Hl & Hp & Hr). pose proof Hl as ((rest & Ep) & _). rewrite (proj2 (strto_longest s x rest)) by eauto. now rewrite Hr.
Qed.

(** an argument is accepted as a whole *)
Lemma shim_whole round tf k s v : no_nul s ->
  snd (shim_read round tf k s false) = FcOk v "" <-> (forall q, s <> String "+" q) /\ exists x w, strto_text s x /\ round k x = (w, false) /\ v = stored tf k w.
Proof.
  intros Hn. rewrite shim_ok by exact Hn. split; intros [Hp H]; (split; [exact Hp|]).
  - destruct H as (p & x & w & E & Ht & _ & Hr & Hv). rewrite app_nil_r_s in E. subst p. eauto.
  - destruct H as (x & w & Ht & Hr & Hv). exists s, x, w. rewrite app_nil_r_s. repeat split; auto.
    + exists "". now rewrite app_nil_r_s.
    + eauto.
    + intros p' r' x' E _. rewrite E, length_app_s. lia.
Qed.

(** what the two conversions differ in, without a number out of range before *)
Lemma strto_of_std s x : float_text s x -> strto_text s x.
Proof.
  destruct 1 as [s y H|s y H].
  - change s with ("" +s+ s). apply strto_plain; [reflexivity|now left].
  - change ("-" +s+ s) with ("" +s+ "-" +s+ s). apply strto_minus; [reflexivity|now left].
Qed.

Lemma strto_some p x : strto_text p x -> strto_scan p = Some (x, "").
Proof. apply strto_whole. Qed.

(** a number only strtod reads: from_chars reads nothing, or a zero in front of the x *)
Lemma std_of_strto p x r : strto_text p x -> std_scan (p +s+ r) = None \/ float_text p x \/ exists neg q, std_scan (p +s+ r) = Some ((neg, Dec 0 0), q).
Proof.
  assert (B : forall b u, blanks b -> b <> "" -> std_scan (b +s+ u) = None).
  { intros b u Hb Hn. destruct (std_scan (b +s+ u)) as [[y q]|] eqn:E; [|reflexivity]. apply std_sound in E as (p' & E & Hp'). exfalso.
    destruct (float_begins p' y Hp') as (c & q' & -> & Hc & _). destruct b as [|a b]; [contradiction|]. injection E as -> _. unfold blanks in Hb. cbn in Hb. rewrite Hc in Hb. discriminate. }
  assert (Hx : forall s y u, hex_text s y -> exists q, scan_unsigned false (s +s+ u) = Some (Dec 0 0, q) /\ after_char "-" (s +s+ u) = None).
  { intros s y u H. apply hex_text_iff in H as (z & t & -> & Hz & _). rewrite app_assoc_s. destruct (zero_x z (t +s+ u) Hz) as (c & -> & E). eexists. split; [exact E|reflexivity]. }
  destruct 1 as [b s y Hb H|b s y Hb H|b s y Hb H]; (destruct b as [|a b]; [cbn [append]|left; rewrite !app_assoc_s; apply B; [exact Hb|discriminate]]).
  - right. destruct H as [H|H]; [left; now constructor|right]. destruct (Hx s y r H) as (q & E1 & E2). unfold std_scan. rewrite E2, E1. exists false, q. reflexivity.
  - left. reflexivity.
  - right. destruct H as [H|H]; [left; change (String "-" s) with ("-" +s+ s); now constructor|right]. destruct (Hx s y r H) as (q & E1 & E2). unfold std_scan. change (after_char "-" (String "-" (s +s+ r))) with (Some (s +s+ r)). cbv beta iota. rewrite E1. exists true, q. reflexivity.
Qed.

Lemma shim_agrees_exact round tf k s : no_nul s -> (forall neg, snd (round k (neg, Dec 0 0)) = false) ->
  snd (shim_read round tf k s false) = std_from_chars round k s <->
  (exists q, s = String "+" q) \/ (forall p r x, s = p +s+ r -> ~ strto_text p x) \/
  (exists p x, longest_strto s p /\ float_text p x /\ (snd (round k x) = true \/ stored tf k (fst (round k x)) = fst (round k x))).
Proof.
  intros Hn Hz. rewrite shim_reads_one by exact Hn. unfold std_from_chars. destruct (after_char "+" s) as [r|] eqn:E.
  { rewrite (std_plus _ _ E). cbn. apply after_char_some in E. split; [eauto|reflexivity]. }
  assert (Np : forall q, s <> String "+" q) by now apply after_char_none.
  destruct (strto_scan s) as [[x rest]|] eqn:Es.
  2:{ split; [intros _; right; left; now apply strto_none|]. intros _. destruct (std_scan s) as [[y q]|] eqn:E2; [|reflexivity]. apply std_sound in E2 as (p & -> & Hp). apply strto_of_std in Hp.
      destruct (proj1 (strto_none _) Es _ _ _ eq_refl Hp). }
  pose proof Es as Es'. apply strto_longest in Es' as (p & Ep & Hp & Hl).
  assert (Same : float_text p x -> std_scan s = Some (x, rest)).
  { intros Hf. apply std_longest. exists p. split; [exact Ep|]. split; [exact Hf|]. destruct Hl as (H1 & _ & Hmax). split; [exact H1|]. split; [eauto|]. intros p' r' x' E' H'. eapply Hmax; [exact E'|apply strto_of_std; exact H']. }
  split.
  - intros H. right. right. exists p, x. split; [exact Hl|]. assert (Hf : float_text p x).
    { destruct (std_of_strto p x rest Hp) as [Q|[Q|(neg & q & Q)]]; [|exact Q|]; rewrite <- Ep in Q; rewrite Q in H.
      - exfalso. destruct (round k x) as [w []]; discriminate H.
      - specialize (Hz neg). destruct (round k (neg, Dec 0 0)) as [w out]. cbn in Hz. subst out. destruct (round k x) as [w' []]; [discriminate H|]. cbn in H. assert (q = rest) by congruence. subst q.
        destruct (std_sound _ _ _ Q) as (p' & Ep' & Hp'). assert (p' = p); [|subst p'; now rewrite (strto_text_unique _ _ _ Hp (strto_of_std _ _ Hp'))].
        rewrite Ep in Ep'. clear -Ep'. revert p' Ep'. induction p as [|c p IH]; intros p' E.
        + destruct p' as [|c' p']; [reflexivity|]. exfalso. apply (f_equal String.length) in E. cbn in E. rewrite length_app_s in E. lia.
        + destruct p' as [|c' p']; [exfalso; apply (f_equal String.length) in E; cbn in E; rewrite length_app_s in E; lia|]. injection E as -> E. now rewrite (IH p' E). }
    split; [exact Hf|]. rewrite (Same Hf) in H. destruct (round k x) as [w []]; cbn in *; [now left|]. right. congruence.
  - intros [(q & H)|[H|(p' & x' & Hl' & Hf & Hr)]]; [now apply Np in H|exfalso; now apply (H p rest x)|].
    pose proof Hl' as ((r' & Ep') & _). pose proof (strto_of_std _ _ Hf) as Ht. assert (Es2 : strto_scan s = Some (x', r')) by (apply strto_longest; eauto). rewrite Es in Es2. injection Es2 as <- <-.
    assert (Hs : std_scan s = Some (x, rest)).
    { apply std_longest. exists p'. split; [exact Ep'|]. split; [exact Hf|]. destruct Hl' as (H1 & _ & Hmax). split; [exact H1|]. split; [eauto|]. intros p2 r2 x2 E2 H2. eapply Hmax; [exact E2|apply strto_of_std; exact H2]. }
    rewrite Hs. destruct (round k x) as [w []]; cbn in *; [reflexivity|]. destruct Hr as [Hr|Hr]; [discriminate|]. now rewrite Hr.
Qed.
