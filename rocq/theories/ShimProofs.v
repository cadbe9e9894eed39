(** The replacement of from_chars and to_chars for floating point numbers. *)
From Coq Require Import Lia.
From Verif Require Import Base StrLib Values Validators ValuesSpec ValuesProofs DiagnosisSpec Charconv FloatSpec FloatProofs.

Lemma span_all f s : sall f s = true -> span f s = (s, "").
Proof. intros H. rewrite <- (app_nil_r_s s) at 1. rewrite span_app by exact H. cbn. now rewrite app_nil_r_s. Qed.

Lemma is_hex_in c : is_hex c = true <-> In c hex_digits.
Proof.
  split.
  - destruct c as [[] [] [] [] [] [] [] []]; intros H; try discriminate H; vm_compute; intuition.
  - unfold hex_digits, chars. intros H. vm_compute in H. repeat (destruct H as [<-|H]; [reflexivity|]). destruct H.
Qed.

Lemma hex_digit_ok c : is_hex c = true -> hex_digit c = digit16 c.
Proof. destruct c as [[] [] [] [] [] [] [] []]; intros H; try discriminate H; reflexivity. Qed.

Lemma read_hex_weight s acc : sall is_hex s = true -> read_hex s acc = (acc * 16 ^ Z.of_nat (String.length s) + weight16 s)%Z.
Proof.
  revert acc; induction s as [|c s IH]; intros acc H; cbn [read_hex weight16].
  - cbn. lia.
  - cbn in H. apply andb_true_iff in H as [Hc H]. rewrite IH, hex_digit_ok by assumption. cbn [String.length]. rewrite Nat2Z.inj_succ, Z.pow_succ_r by lia. lia.
Qed.

Lemma after_hex_none s : (forall z c q, spells "0x" z -> In c hex_digits -> s <> z +s+ String c q /\ s <> z +s+ "." +s+ String c q) ->
  match after_word "0x" s with Some r => scan_hex r | None => None end = None.
Proof.
  intros H. destruct (after_word "0x" s) as [r|] eqn:E; [|reflexivity]. apply after_word_iff in E as (z & -> & Hz).
  unfold scan_hex, scan_mantissa. destruct (span is_hex r) as [i r1] eqn:E1. apply span_split in E1 as (-> & Hi & _).
  destruct i as [|c i].
  - cbn [append] in *. destruct (after_char "." r1) as [r2|] eqn:E2; [|reflexivity]. apply after_char_some in E2 as ->.
    destruct (span is_hex r2) as [f r3] eqn:E3. apply span_split in E3 as (-> & Hf & _). destruct f as [|c f]; [reflexivity|]. exfalso. cbn in Hf. apply andb_true_iff in Hf as [Hc _].
    apply is_hex_in in Hc. destruct (H z c (f +s+ r3) Hz Hc) as [_ H2]. now apply H2.
  - exfalso. cbn in Hi. apply andb_true_iff in Hi as [Hc _]. apply is_hex_in in Hc. destruct (H z c (i +s+ r1) Hz Hc) as [H1 _]. now apply H1.
Qed.

Lemma unsigned_same s : (forall z c q, spells "0x" z -> In c hex_digits -> s <> z +s+ String c q /\ s <> z +s+ "." +s+ String c q) ->
  scan_unsigned true s = scan_unsigned false s.
Proof. intros H. unfold scan_unsigned. now rewrite (after_hex_none s H). Qed.

Lemma skip_space_none s : (forall c q, s = String c q -> is_space c = false) -> skip_space s = s.
Proof. destruct s as [|c q]; [reflexivity|]. intros H. cbn. now rewrite (H c q eq_refl). Qed.

Lemma strto_same s : (forall c q, s = String c q -> is_space c = false) -> ~ hex_prefixed s -> after_char "+" s = None -> strto_scan s = std_scan s.
Proof.
  intros Hb Hx Hp. unfold strto_scan, std_scan. rewrite skip_space_none, Hp by exact Hb. destruct (after_char "-" s) as [r|] eqn:E.
  - apply after_char_some in E as ->. rewrite unsigned_same; [reflexivity|]. intros z c q Hz Hc. split; intros ->; apply Hx; exists "-", z, c, q; auto.
  - rewrite unsigned_same; [reflexivity|]. intros z c q Hz Hc. split; intros ->; apply Hx; exists "", z, c, q; auto.
Qed.

Lemma shim_start_general s : shim_start General s (str1 nul) = Some (c_string s).
Proof. reflexivity. Qed.

Lemma shim_no_ub round tf k s e : snd (shim_from_chars round tf k General s (str1 nul) e) <> ShimUB.
Proof.
  unfold shim_from_chars. destruct (after_char "+" (s +s+ str1 nul)); [discriminate|]. cbn [exponent_check]. rewrite shim_start_general.
  destruct (strto_scan (c_string s)) as [[x rest]|].
  - destruct (round k x) as [v out]. destruct (e || out); discriminate.
  - destruct (e || false); discriminate.
Qed.

Lemma after_plus s : after_char "+" (s +s+ str1 nul) = None <-> after_char "+" s = None.
Proof. destruct s; cbn; [|destruct (Ascii.eqb _ _)]; split; try discriminate; reflexivity. Qed.

Lemma std_plus s r : after_char "+" s = Some r -> std_scan s = None.
Proof. intros H. apply after_char_some in H as ->. reflexivity. Qed.

Lemma shim_agrees round tf k s : no_nul s -> (forall c q, s = String c q -> is_space c = false) -> ~ hex_prefixed s -> fits_float round tf k s ->
  shim_read round tf k s false = (range_result (std_from_chars round k s), std_from_chars round k s).
Proof.
  intros Hn Hb Hx Hf. unfold shim_read, shim_from_chars, std_from_chars. destruct (after_char "+" (s +s+ str1 nul)) as [r|] eqn:E.
  - destruct (after_char "+" s) as [r'|] eqn:E'; [|apply (proj2 (after_plus s)) in E'; congruence]. now rewrite (std_plus _ _ E').
  - apply (proj1 (after_plus s)) in E. cbn [exponent_check]. rewrite shim_start_general. unfold c_string. rewrite span_all by exact Hn. cbn [fst]. rewrite strto_same; [|exact Hb|exact Hx|exact E].
    destruct (std_scan s) as [[x rest]|] eqn:Es; [|reflexivity]. destruct (round k x) as [v out] eqn:Er. destruct out; cbn [orb]; [reflexivity|]. cbn [range_result]. f_equal.
    destruct (std_sound _ _ _ Es) as (p & Ep & Hp).
    assert (Ed : sdrop (String.length s - String.length rest) s = rest).
    { rewrite Ep, length_app_s. replace (String.length p + String.length rest - String.length rest) with (String.length p) by lia. apply sdrop_app. }
    rewrite Ed. assert (Ev : match k with F32 => v | _ => tf v end = v).
    { destruct Hf as [->|Hf]; [reflexivity|]. apply std_longest in Es as (p' & Ep' & Hp' & Hl). destruct k; [reflexivity| |]; eapply Hf; eauto. }
    now rewrite Ev.
Qed.

(** after one number out of range *)
Lemma shim_stale round tf k s : shim_read round tf k s true = (true, match after_char "+" s with Some _ => FcInvalid | None => FcRange end).
Proof.
  unfold shim_read, shim_from_chars. destruct (after_char "+" (s +s+ str1 nul)) as [r|] eqn:E.
  - destruct (after_char "+" s) as [r'|] eqn:E'; [reflexivity|]. apply (proj2 (after_plus s)) in E'. congruence.
  - apply (proj1 (after_plus s)) in E. rewrite E. cbn [exponent_check]. rewrite shim_start_general. destruct (strto_scan (c_string s)) as [[x rest]|]; [|reflexivity].
    destruct (round k x) as [v out]. reflexivity.
Qed.

Lemma shim_reads_stale round tf k l : shim_reads round tf k l true = map (fun s => match after_char "+" s with Some _ => FcInvalid | None => FcRange end) l.
Proof. induction l as [|s l IH]; [reflexivity|]. cbn [shim_reads map]. rewrite shim_stale. now rewrite IH. Qed.

Lemma shim_range_sets round tf k s e : snd (shim_read round tf k s e) = FcRange -> fst (shim_read round tf k s e) = true.
Proof.
  unfold shim_read, shim_from_chars. destruct (after_char "+" (s +s+ str1 nul)); [discriminate|]. cbn [exponent_check]. rewrite shim_start_general.
  destruct (strto_scan (c_string s)) as [[x rest]|].
  - destruct (round k x) as [v out]. destruct (e || out); [reflexivity|discriminate].
  - destruct (e || false); [reflexivity|discriminate].
Qed.

Lemma poisoned round tf k l e i j v r : i < j -> nth_error (shim_reads round tf k l e) i = Some FcRange -> nth_error (shim_reads round tf k l e) j <> Some (FcOk v r).
Proof.
  revert e i j. induction l as [|s l IH]; intros e i j L H; [destruct i; discriminate H|]. cbn [shim_reads] in *.
  pose proof (shim_range_sets round tf k s e) as K. destruct (shim_read round tf k s e) as [e' q]. destruct j as [|j]; [lia|]. cbn [nth_error].
  destruct i as [|i]; cbn [nth_error] in H.
  - injection H as ->. cbn in K. rewrite (K eq_refl), shim_reads_stale. intros Hin. apply nth_error_In, in_map_iff in Hin as (u & Hu & _). destruct (after_char "+" u); discriminate.
  - apply (IH e' i j); [lia|exact H].
Qed.

(** ** Texts that are not followed by a null character *)

Lemma shim_buffer round tf k s c b e : c <> nul -> s <> "" -> String.length s < 100 ->
  shim_from_chars round tf k General s (String c b) e = shim_from_chars round tf k General s (str1 nul) e.
Proof.
  intros Hc Hs Hl. unfold shim_from_chars. assert (E : after_char "+" (s +s+ String c b) = None <-> after_char "+" (s +s+ str1 nul) = None).
  { destruct s as [|d s]; [contradiction|]. cbn. destruct (Ascii.eqb _ _); split; discriminate || reflexivity. }
  destruct (after_char "+" (s +s+ String c b)) as [r|], (after_char "+" (s +s+ str1 nul)) as [r'|]; try reflexivity.
  - destruct E as [_ E]. discriminate (E eq_refl).
  - destruct E as [E _]. discriminate (E eq_refl).
  - cbn [exponent_check]. rewrite shim_start_general. unfold shim_start. cbn [is_empty is_hexformat]. destruct (after_char nul (String c b)) as [q|] eqn:En.
    + apply after_char_some in En. injection En as -> _. contradiction.
    + cbn [negb orb]. change (100 - 0) with 100. change (0 + String.length s) with (String.length s). rewrite Nat.min_r by lia.
      destruct (Nat.ltb_spec 100 (String.length s)); [lia|]. destruct (Nat.leb_spec 100 (String.length s)); [lia|]. cbn [orb append].
      now rewrite stake_all.
Qed.

Lemma shim_overflow round tf k s c b e : c <> nul -> 100 <= String.length s -> after_char "+" s = None ->
  shim_from_chars round tf k General s (String c b) e = (e, ShimUB).
Proof.
  intros Hc Hl Hp. unfold shim_from_chars. assert (E : after_char "+" (s +s+ String c b) = None).
  { destruct s as [|d s]; [cbn in Hl; lia|]. cbn in *. now destruct (Ascii.eqb _ _). }
  rewrite E. cbn [exponent_check]. unfold shim_start. cbn [is_empty is_hexformat]. destruct (after_char nul (String c b)) as [q|] eqn:En.
  - apply after_char_some in En. injection En as -> _. contradiction.
  - cbn [negb orb]. change (100 - 0) with 100. change (0 + String.length s) with (String.length s). rewrite Nat.min_l by lia.
    change (100 <=? 100)%nat with true. rewrite orb_true_r. reflexivity.
Qed.

(** ** Hexadecimal texts *)

Lemma hex_not_nul a : sall is_hex a = true -> sall (fun c => negb (Ascii.eqb c nul)) a = true.
Proof.
  induction a as [|c a IH]; [reflexivity|]. cbn. intros H. apply andb_true_iff in H as [Hc H]. rewrite IH by exact H. rewrite andb_true_r.
  destruct (Ascii.eqb_spec c nul) as [->|]; [discriminate|reflexivity].
Qed.

Lemma hex_no_plus a r : sall is_hex a = true -> a <> "" -> after_char "+" (a +s+ r) = None.
Proof.
  destruct a as [|c a]; [contradiction|]. cbn. intros H _. apply andb_true_iff in H as [Hc _]. destruct (Ascii.eqb_spec "+" c) as [<-|]; [discriminate|reflexivity].
Qed.

Lemma shim_hex round tf k a x y behind : sall is_hex (a +s+ String x (str1 y)) = true -> a <> "" -> String.length a <= 96 -> behind <> "" -> snd (round k (false, Hexa (weight16 a) 0)) = false ->
  shim_from_chars round tf k Hexformat (a +s+ String x (str1 y)) behind false =
    (false, ShimOk (let v := fst (round k (false, Hexa (weight16 a) 0)) in match k with F32 => v | _ => tf v end) (String.length a + 2)).
Proof.
  intros H Ha Hl Hb Hr. unfold shim_from_chars. rewrite hex_no_plus; [|exact H|now destruct a]. cbn [exponent_check]. unfold shim_start.
  assert (Hb' : is_empty behind = false) by (destruct behind; [contradiction|reflexivity]). rewrite Hb'. cbn [is_hexformat]. rewrite orb_true_r. cbv zeta.
  assert (L : String.length (a +s+ String x (str1 y)) = String.length a + 2) by (rewrite length_app_s; reflexivity). rewrite L.
  rewrite Nat.min_r by lia. destruct (Nat.ltb_spec 100 (2 + (String.length a + 2))); [lia|]. destruct (Nat.leb_spec 100 (String.length a + 2)); [lia|]. cbn [orb].
  assert (Es : stake (String.length a + 2) ("0x" +s+ a +s+ String x (str1 y)) = "0x" +s+ a).
  { replace (String.length a + 2) with (String.length ("0x" +s+ a)) by (cbn; lia). rewrite <- app_assoc_s. apply stake_app. }
  rewrite Es. rewrite sall_app in H. apply andb_true_iff in H as [H _].
  assert (Ec : c_string ("0x" +s+ a) = "0x" +s+ a).
  { unfold c_string. rewrite span_all; [reflexivity|]. rewrite sall_app, (hex_not_nul a H). reflexivity. }
  rewrite Ec.
  assert (Esc : strto_scan ("0x" +s+ a) = Some ((false, Hexa (weight16 a) 0), "")).
  { unfold strto_scan. change (skip_space ("0x" +s+ a)) with ("0x" +s+ a). change (after_char "-" ("0x" +s+ a)) with (@None string). change (after_char "+" ("0x" +s+ a)) with (@None string). cbv beta iota.
    unfold scan_unsigned. change (after_word "infinity" ("0x" +s+ a)) with (@None string). change (after_word "inf" ("0x" +s+ a)) with (@None string). change (after_word "nan" ("0x" +s+ a)) with (@None string).
    change (after_word "0x" ("0x" +s+ a)) with (Some a). cbv beta iota. unfold scan_hex, scan_mantissa. rewrite span_all by exact H. cbn [after_char].
    destruct a as [|c a]; [contradiction|]. cbn [is_empty scan_exponent]. rewrite app_nil_r_s, read_hex_weight by exact H. reflexivity. }
  rewrite Esc. destruct (round k (false, Hexa (weight16 a) 0)) as [v out]. cbn in Hr. subst out. cbn [orb fst]. f_equal. f_equal. cbn. lia.
Qed.

(** ** Formats *)

Lemma shim_format round tf k f s behind e : f <> Hexformat -> exponent_check f s = true ->
  shim_from_chars round tf k f s behind e = shim_from_chars round tf k General s behind e.
Proof. intros Hf Hc. unfold shim_from_chars. rewrite Hc. destruct f; try reflexivity. contradiction. Qed.

Lemma shim_refused round tf k f s behind e : exponent_check f s = false ->
  shim_from_chars round tf k f s behind e = (e, ShimInvalid (String.length s)).
Proof. intros Hc. unfold shim_from_chars. rewrite Hc. now destruct (after_char "+" (s +s+ behind)). Qed.

Lemma marked s : In "e"%char (chars s) \/ In "E"%char (chars s) -> scontains "e" s || scontains "E" s = true.
Proof. intros H. apply orb_true_iff. destruct H as [H|H]; apply scontains_In in H; auto. Qed.
Lemma unmarked s : ~ In "e"%char (chars s) -> ~ In "E"%char (chars s) -> scontains "e" s || scontains "E" s = false.
Proof. intros H1 H2. apply orb_false_iff; split; apply not_true_iff_false; rewrite scontains_In; assumption. Qed.

Lemma shim_fixed round tf k s behind e :
  (In "e"%char (chars s) \/ In "E"%char (chars s) -> shim_from_chars round tf k Fixed s behind e = (e, ShimInvalid (String.length s))) /\
  (~ In "e"%char (chars s) -> ~ In "E"%char (chars s) -> shim_from_chars round tf k Fixed s behind e = shim_from_chars round tf k General s behind e).
Proof.
  split; intros; [apply shim_refused|apply shim_format; [discriminate|]]; cbn [exponent_check]; [now rewrite marked|now rewrite unmarked].
Qed.
Lemma shim_scientific round tf k s behind e :
  (~ In "e"%char (chars s) -> ~ In "E"%char (chars s) -> shim_from_chars round tf k Scientific s behind e = (e, ShimInvalid (String.length s))) /\
  (In "e"%char (chars s) \/ In "E"%char (chars s) -> shim_from_chars round tf k Scientific s behind e = shim_from_chars round tf k General s behind e).
Proof.
  split; intros; [apply shim_refused|apply shim_format; [discriminate|]]; cbn [exponent_check]; [now rewrite unmarked|now rewrite marked].
Qed.

(** ** to_chars *)

Lemma to_chars_lemma text m m' r : shim_to_chars text m = (m', r) ->
  List.length m' = List.length m /\
  (r = None <-> List.length m < String.length text) /\
  (r = None -> m' = m) /\
  (forall n, r = Some n -> n = String.length text /\ m' = chars text ++ skipn n m).
Proof.
  unfold shim_to_chars. destruct (Nat.ltb_spec (List.length m) (String.length text)) as [L|L]; intros [= <- <-].
  - repeat split; auto; discriminate.
  - split; [rewrite app_length, skipn_length, length_chars; lia|]. split; [split; [discriminate|lia]|]. split; [discriminate|]. now intros n [= <-].
Qed.

(** ** Option values *)

Lemma float_means round k nm mn mx old s v : means (TFloat nm mn mx (std_from_chars round k)) old s v <-> exists x, float_text s x /\ round k x = (v, false).
Proof.
  cbn [means]. unfold std_from_chars. split.
  - destruct (std_scan s) as [[x rest]|] eqn:E; [|discriminate]. destruct (round k x) as [v' out] eqn:Er. destruct out; [discriminate|]. intros [= -> ->]. exists x. split; [now apply std_whole|exact Er].
  - intros (x & Hx & Hr). apply std_whole in Hx. rewrite Hx, Hr. reflexivity.
Qed.

Lemma float_too_large round k nm mn mx s : too_large (TFloat nm mn mx (std_from_chars round k)) s <-> exists p x v, longest s p /\ float_text p x /\ round k x = (v, true).
Proof.
  cbn [too_large]. unfold std_from_chars. split.
  - destruct (std_scan s) as [[x rest]|] eqn:E; [|discriminate]. destruct (round k x) as [v' out] eqn:Er. destruct out; [|discriminate]. intros _.
    apply std_longest in E as (p & _ & Hp & Hl). eauto 6.
  - intros (p & x & v & Hl & Hp & Hr). assert (E : exists rest, std_scan s = Some (x, rest)).
    { destruct Hl as ((rest & Es) & Hl). exists rest. apply std_longest. exists p. split; [exact Es|]. split; [exact Hp|]. split; [eauto|exact Hl]. }
    destruct E as [rest ->]. now rewrite Hr.
Qed.

Lemma float_parse round k nm mn mx old s v : parse_elem (TFloat nm mn mx (std_from_chars round k)) old s = POk v PSuccess <-> exists x, float_text s x /\ round k x = (v, false).
Proof. rewrite parse_elem_means by exact Logic.I. apply float_means. Qed.

Lemma float_overflow round k nm mn mx old s : parse_elem (TFloat nm mn mx (std_from_chars round k)) old s = POk old POverflow <-> exists p x v, longest s p /\ float_text p x /\ round k x = (v, true).
Proof.
  rewrite <- (float_too_large round k nm mn mx). cbn [parse_elem too_large]. destruct (std_from_chars round k s) as [| |v rest]; cbn; try (split; discriminate).
  - split; reflexivity.
  - destruct (is_empty rest); split; discriminate.
Qed.

Lemma float_begins s x : float_text s x -> exists c q, s = String c q /\ is_space c = false /\ c <> "+"%char.
Proof.
  assert (U : forall p m, unsigned_text p m -> exists c q, p = String c q /\ is_space c = false /\ c <> "+"%char).
  { assert (W : forall c w p, (c = "i" \/ c = "n")%char -> spells (String c w) p -> exists d q, p = String d q /\ is_space d = false /\ d <> "+"%char).
    { intros c w p Hc Hs. destruct (spells_first _ _ _ Hs) as (d & q & -> & Hd). exists d, q. split; [reflexivity|]. clear -Hd Hc.
      destruct d as [[] [] [] [] [] [] [] []]; destruct Hc as [->| ->]; try discriminate Hd; split; try reflexivity; discriminate. }
    intros p m H. destruct H as [m ds n y e Hm Hy|p [Hs|Hs]|p Hs|p q Hs Hq].
    - destruct (number_first m ds n Hm) as (c & t & -> & Hc). exists c, (t +s+ y). split; [reflexivity|]. destruct Hc as [Hc| ->]; [|split; [reflexivity|discriminate]].
      clear -Hc. destruct c as [[] [] [] [] [] [] [] []]; try discriminate Hc; split; try reflexivity; discriminate.
    - eapply W; [|exact Hs]; auto.
    - eapply W; [|exact Hs]; auto.
    - eapply W; [|exact Hs]; auto.
    - destruct (W _ _ _ (or_intror eq_refl) Hs) as (d & u & -> & H1 & H2). exists d, (u +s+ "(" +s+ q +s+ ")"). auto. }
  destruct 1 as [p m H|p m H]; [eauto|]. exists "-"%char, p. split; [reflexivity|]. split; [reflexivity|discriminate].
Qed.

Lemma hex_not_whole s x : hex_prefixed s -> ~ float_text s x.
Proof.
  intros (sg & z & c & q & Hsg & Hz & Hc & Hs) H. apply std_whole in H.
  assert (Z0 : exists d, z = String "0" (str1 d) /\ (d = "x" \/ d = "X")%char).
  { unfold spells in Hz. destruct z as [|a [|d [|? ?]]]; try discriminate Hz. change ([to_lower a; to_lower d] = ["0"; "x"]%char) in Hz. injection Hz as Ha Hd.
    exists d. split.
    - f_equal. clear -Ha. destruct a as [[] [] [] [] [] [] [] []]; try discriminate Ha; reflexivity.
    - clear -Hd. destruct d as [[] [] [] [] [] [] [] []]; try discriminate Hd; auto. }
  destruct Z0 as (d & -> & Hd).
  assert (K : forall t, std_scan (sg +s+ String "0" (str1 d) +s+ t) = Some ((match sg with "" => false | _ => true end, Dec 0 0), String d t)).
  { intros t. destruct Hsg as [->| ->]; destruct Hd as [->| ->]; reflexivity. }
  destruct Hs as [-> | ->]; rewrite K in H; discriminate.
Qed.
