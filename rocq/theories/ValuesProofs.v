(** Proofs about the conversion of argument text to values. *)
From Verif Require Import Base StrLib Values ValuesSpec.
From Coq Require Import DecimalString DecimalZ Decimal Permutation Sorted.

(** ** Integers *)

Lemma read_digits_all s : forall acc, sall is_digit s = true ->
  read_digits s acc = ((acc * 10 ^ Z.of_nat (String.length s) + weight s)%Z, EmptyString).
Proof.
  induction s as [|c s IH]; intros acc H; cbn [read_digits sall weight String.length] in *.
  - f_equal. cbn. lia.
  - apply andb_prop in H as [Hc H]. rewrite Hc, IH by exact H. f_equal.
    rewrite Nat2Z.inj_succ, Z.pow_succ_r by lia. ring.
Qed.

Lemma read_digits_rest s : forall acc n rest, read_digits s acc = (n, rest) -> rest = EmptyString -> sall is_digit s = true.
Proof.
  induction s as [|c s IH]; intros acc n rest H E; [reflexivity|]. cbn [read_digits sall] in *.
  destruct (is_digit c); [|injection H as _ <-; discriminate]. cbn. eapply IH; eauto.
Qed.

Lemma in_type_bool sg bits z : ((int_min sg bits <=? z) && (z <=? int_max sg bits))%Z = true <-> in_type sg bits z.
Proof. unfold in_type, int_min, int_max. rewrite andb_true_iff, !Z.leb_le. destruct sg; lia. Qed.

Lemma starts_digit_iff s : starts_digit s = true <-> exists c s', s = String c s' /\ is_digit c = true.
Proof.
  destruct s as [|c s]; cbn; split; try discriminate.
  - intros (c & s' & E & _). discriminate.
  - eauto.
  - intros (c' & s' & [= -> ->] & H). exact H.
Qed.

Lemma dash_not_digit : is_digit "-" = false. Proof. reflexivity. Qed.

Lemma digits_starts s : digits s -> starts_digit s = true.
Proof. intros [Hne Ha]. destruct s as [|c s]; [easy|]. cbn in *. now apply andb_prop in Ha as [Ha _]. Qed.

(** the sign and the digits of a text *)
Definition split_sign (sg : bool) (s : string) : bool * string :=
  match s with String c s' => if sg && Ascii.eqb c "-" then (true, s') else (false, s) | EmptyString => (false, s) end.

Lemma numeral_split sg s z : numeral sg s z <->
  let '(neg, body) := split_sign sg s in digits body /\ z = (if neg then - weight body else weight body)%Z.
Proof.
  unfold split_sign. split.
  - intros [s' H|s' -> H].
    + destruct s' as [|c s']; [now destruct H|]. destruct H as [Hne Ha]. cbn [sall] in Ha.
      destruct (Ascii.eqb_spec c "-") as [->|Hc].
      * rewrite dash_not_digit in Ha. discriminate.
      * rewrite andb_false_r. split; [split; [discriminate|exact Ha]|reflexivity].
    + cbn [andb]. rewrite Ascii.eqb_refl. auto.
  - destruct s as [|c s]; [now intros [[] _]|].
    destruct sg; cbn [andb]; [destruct (Ascii.eqb_spec c "-") as [->|Hc]|]; intros [H ->]; constructor; auto.
Qed.

Lemma from_chars_iff sg bits s v rest : from_chars_int sg bits s = FcOk v rest /\ rest = EmptyString <->
  exists z, v = VInt z /\ numeral sg s z /\ in_type sg bits z /\ rest = EmptyString.
Proof.
  unfold from_chars_int. change (match s with
                      | EmptyString => (false, s)
                      | String c s' => if sg && Ascii.eqb c "-" then (true, s') else (false, s)
                      end) with (split_sign sg s).
  setoid_rewrite numeral_split. destruct (split_sign sg s) as [neg body]. split.
  - intros [H E]. destruct (starts_digit body) eqn:Hs; [|discriminate].
    destruct (read_digits body 0) as [n r] eqn:Er.
    destruct ((int_min sg bits <=? _) && _)%Z eqn:Eb; [|discriminate]. injection H as <- <-.
    pose proof (read_digits_rest _ _ _ _ Er E) as Ha. rewrite read_digits_all in Er by exact Ha. injection Er as <- <-.
    apply in_type_bool in Eb. cbn [Z.mul Z.add] in Eb. exists (if neg then - weight body else weight body)%Z.
    assert (Hw : (0 * 10 ^ Z.of_nat (String.length body) + weight body)%Z = weight body) by lia.
    split; [destruct neg; f_equal; lia|]. split; [split; [split; [|exact Ha]|reflexivity]|].
    + destruct body; [discriminate|discriminate].
    + split; [exact Eb|reflexivity].
  - intros (z & -> & [Hd ->] & Hr & ->). rewrite (digits_starts body Hd). destruct Hd as [Hne Ha].
    rewrite read_digits_all by exact Ha. rewrite Z.mul_0_l, Z.add_0_l.
    rewrite (proj2 (in_type_bool sg bits _) Hr). auto.
Qed.

Lemma parse_int_iff sg bits old s v : of_fc old (from_chars_int sg bits s) = POk v PSuccess <->
  exists z, v = VInt z /\ numeral sg s z /\ in_type sg bits z.
Proof.
  split.
  - intros H. destruct (from_chars_int sg bits s) as [| |v' rest] eqn:E; cbn in H; try discriminate.
    destruct rest; cbn in H; try discriminate. injection H as ->.
    destruct (proj1 (from_chars_iff sg bits s v "") (conj E eq_refl)) as (z & A & B & C & _). eauto.
  - intros (z & -> & B & C). destruct (proj2 (from_chars_iff sg bits s (VInt z) "")) as [E _]; [eauto|]. rewrite E. reflexivity.
Qed.

(** ** Printing integers *)

Lemma digits_uint u : u <> Nil -> digits (NilEmpty.string_of_uint u).
Proof.
  intros H. split; [destruct u; easy|]. clear H. induction u; cbn; auto.
Qed.

Lemma weight_uint_acc u : forall acc,
  (Z.pos acc * 10 ^ Z.of_nat (String.length (NilEmpty.string_of_uint u)) + weight (NilEmpty.string_of_uint u))%Z =
  Z.pos (Pos.of_uint_acc u acc).
Proof.
  induction u; intros acc; cbn [NilEmpty.string_of_uint String.length weight Pos.of_uint_acc];
    [rewrite Z.pow_0_r; lia|..]; rewrite <- IHu, Nat2Z.inj_succ, Z.pow_succ_r by lia;
    match goal with |- context [digit_val ?c] => let d := eval vm_compute in (digit_val c) in change (digit_val c) with d end;
    rewrite ?Pos2Z.inj_add, ?Pos2Z.inj_mul; ring.
Qed.

Lemma weight_uint u : weight (NilEmpty.string_of_uint u) = Z.of_uint u.
Proof.
  induction u; cbn [NilEmpty.string_of_uint weight]; try reflexivity;
    match goal with |- context [digit_val ?c] => let d := eval vm_compute in (digit_val c) in change (digit_val c) with d end.
  1: rewrite IHu; unfold Z.of_uint; cbn [Pos.of_uint]; lia.
  all: unfold Z.of_uint; cbn [Pos.of_uint Z.of_N]; rewrite <- weight_uint_acc; reflexivity.
Qed.

Lemma to_uint_norm z : match Z.to_int z with Pos u => u <> Nil | Neg u => u <> Nil end.
Proof.
  destruct z as [|p|p]; cbn; try discriminate; intros H; pose proof (DecimalPos.Unsigned.of_to p) as E; unfold Pos.to_uint in *;
    unfold N.of_uint in E; rewrite H in E; discriminate.
Qed.

Lemma Z_to_string_numeral sg z : (sg = true \/ (0 <= z)%Z) -> numeral sg (Z_to_string z) z.
Proof.
  intros Hz. unfold Z_to_string, NilZero.string_of_int.
  pose proof (to_uint_norm z) as Hn. pose proof (DecimalZ.of_to z) as E. destruct (Z.to_int z) as [u|u] eqn:Eu.
  - assert (NilZero.string_of_uint u = NilEmpty.string_of_uint u) as -> by now destruct u.
    cbn in E. rewrite <- weight_uint in E. rewrite <- E. constructor. now apply digits_uint.
  - assert (NilZero.string_of_uint u = NilEmpty.string_of_uint u) as -> by now destruct u.
    cbn in E. rewrite <- weight_uint in E. rewrite <- E. constructor; [|now apply digits_uint].
    destruct Hz as [->|Hz]; [reflexivity|]. destruct z; cbn in Eu; try discriminate. lia.
Qed.

Lemma weight_nonneg s : sall is_digit s = true -> (0 <= weight s)%Z.
Proof.
  induction s as [|c s IH]; cbn [weight sall]; [lia|]. rewrite andb_true_iff. intros [Hc Hs]. specialize (IH Hs).
  assert (0 <= digit_val c)%Z.
  { unfold is_digit, in_range in Hc. apply andb_prop in Hc as [Hc _]. apply N.leb_le in Hc. unfold digit_val.
    change (code "0") with 48%N in Hc. lia. }
  assert (0 <= 10 ^ Z.of_nat (String.length s))%Z by (apply Z.pow_nonneg; lia). nia.
Qed.

Lemma numeral_functional sg s z z' : numeral sg s z -> numeral sg s z' -> z = z'.
Proof. rewrite !numeral_split. destruct (split_sign sg s). intros [_ ->] [_ ->]. reflexivity. Qed.

(** ** Paths *)

Lemma skip_space_spec s : exists b, s = b +s+ skip_space s /\ blanks b.
Proof.
  induction s as [|c s IH]; cbn [skip_space]; [exists ""; now split|].
  destruct (is_space c) eqn:E; [|exists ""; now split].
  destruct IH as (b & E1 & E2). exists (String c b). split; [cbn; now f_equal|]. unfold blanks in *. cbn. now rewrite E.
Qed.

Lemma skip_space_app b w : blanks b -> skip_space (b +s+ w) = skip_space w.
Proof.
  induction b as [|c b IH]; [reflexivity|]. unfold blanks. cbn. intros H. apply andb_prop in H as [-> H]. now apply IH.
Qed.

Lemma skip_space_head s c s' : skip_space s = String c s' -> is_space c = false.
Proof.
  induction s as [|d s IH]; cbn; [discriminate|]. destruct (is_space d) eqn:E; [exact IH|]. now intros [= <- _].
Qed.

Lemma read_word_empty s w r : read_word s = (w, r) -> is_empty r = true -> w = s /\ sall (fun c => negb (is_space c)) s = true.
Proof.
  revert w r; induction s as [|c s IH]; intros w r; cbn [read_word sall].
  - intros [= <- <-]. auto.
  - destruct (is_space c) eqn:E; [intros [= <- <-]; discriminate|].
    destruct (read_word s) as [w' r'] eqn:Er. intros [= <- <-] H. destruct (IH _ _ eq_refl H) as [-> ->]. auto.
Qed.

Lemma read_word_all s : sall (fun c => negb (is_space c)) s = true -> read_word s = (s, EmptyString).
Proof.
  induction s as [|c s IH]; [reflexivity|]. cbn. rewrite andb_true_iff, negb_true_iff. intros [-> H]. now rewrite IH.
Qed.

Lemma parse_path_iff old s v : of_stream (read_path old s) = POk v PSuccess <->
  exists w b, s = b +s+ w /\ blanks b /\ plain_word w /\ v = VPath w.
Proof.
  unfold read_path. split.
  - destruct (skip_space_spec s) as (b & Es & Hb). destruct (skip_space s) as [|c s'] eqn:E; [discriminate|].
    destruct (Ascii.eqb_spec c """") as [->|Hc].
    + destruct (read_quoted s' ""); discriminate.
    + destruct (read_word (String c s')) as [w r] eqn:Er. cbn. destruct (is_empty r) eqn:Ee; cbn; [|discriminate].
      intros [= <-]. destruct (read_word_empty _ _ _ Er Ee) as [-> Ha].
      exists (String c s'), b. repeat split; auto; [discriminate|]. cbn. congruence.
  - intros (w & b & -> & Hb & (Hne & Hw & Hq) & ->). rewrite skip_space_app by exact Hb.
    destruct w as [|c w]; [easy|]. cbn [skip_space]. pose proof Hw as Hw'. cbn in Hw. apply andb_prop in Hw as [Hc _].
    apply negb_true_iff in Hc. rewrite Hc. destruct (Ascii.eqb_spec c """") as [->|]; [now exfalso|].
    rewrite read_word_all by exact Hw'. reflexivity.
Qed.

(** ** Enumerations *)

Lemma assoc_In k l z : NoDup (map fst l) -> (assoc k l = Some z <-> In (k, z) l).
Proof.
  induction l as [|[k' z'] l IH]; cbn; intros Hnd; [split; [discriminate|tauto]|]. inversion Hnd as [|? ? Hn Hnd']; subst.
  destruct (String.eqb_spec k k') as [->|Hk].
  - split; [intros [= ->]; now left|]. intros [[= ->]|Hin]; [reflexivity|]. exfalso. apply Hn.
    change k' with (fst (k', z)). now apply in_map.
  - rewrite IH by exact Hnd'. split; [now right|]. intros [[= -> ->]|H]; [easy|exact H].
Qed.

Lemma assoc_None k l : assoc k l = None <-> ~ In k (map fst l).
Proof.
  induction l as [|[k' z'] l IH]; cbn; [tauto|]. destruct (String.eqb_spec k k') as [->|Hk].
  - split; [discriminate|]. intros H. exfalso. apply H. now left.
  - rewrite IH. split; intros H; [intros [E|E]; [now subst|contradiction]|tauto].
Qed.

Lemma str_ltb_lex a b : str_ltb a b = true <-> lex_lt a b.
Proof.
  split.
  - revert b; induction a as [|c a IH]; intros [|d b]; cbn; try discriminate.
    + intros _. apply (lex_end "" d b).
    + destruct (N.ltb_spec (code c) (code d)) as [H|H].
      * intros _. now apply (lex_diff "" c d a b).
      * destruct (N.ltb_spec (code d) (code c)); [discriminate|]. intros E. apply IH in E.
        assert (c = d) as -> by (unfold code in *; rewrite <- (ascii_N_embedding c), <- (ascii_N_embedding d); f_equal; lia).
        inversion E as [p e s E1 E2|p e e' s t Hlt E1 E2]; subst.
        -- apply (lex_end (String d a) e s).
        -- now apply (lex_diff (String d p) e e' s t).
  - intros [p c s|p c d s t H].
    + induction p as [|e p IH]; cbn; [reflexivity|]. now rewrite N.ltb_irrefl.
    + induction p as [|e p IH]; cbn; [apply N.ltb_lt in H; now rewrite H|]. now rewrite N.ltb_irrefl.
Qed.

Lemma str_ltb_total a b : str_ltb a b = false -> a = b \/ str_ltb b a = true.
Proof.
  revert b; induction a as [|c a IH]; intros [|d b]; cbn; auto; try discriminate.
  destruct (N.ltb_spec (code c) (code d)) as [H|H]; [discriminate|].
  destruct (N.ltb_spec (code d) (code c)); [auto|]. intros E.
  assert (c = d) as -> by (unfold code in *; rewrite <- (ascii_N_embedding c), <- (ascii_N_embedding d); f_equal; lia).
  destruct (IH _ E) as [->|]; auto.
Qed.

Lemma entry_ltb_lt x y : entry_ltb x y = true <-> entry_lt x y.
Proof.
  unfold entry_ltb, entry_lt. destruct (Z.eqb_spec (snd x) (snd y)) as [E|E].
  - rewrite str_ltb_lex. split; [tauto|]. intros [H|H]; [lia|tauto].
  - rewrite Z.ltb_lt. intuition lia.
Qed.

Lemma entry_ltb_total x y : fst x <> fst y -> entry_ltb x y = false -> entry_lt y x.
Proof.
  intros Hk. unfold entry_ltb, entry_lt. destruct (Z.eqb_spec (snd x) (snd y)) as [E|E].
  - intros H. right. split; [now symmetry|]. apply str_ltb_total in H as [H|H]; [contradiction|]. now apply str_ltb_lex.
  - intros H. apply Z.ltb_ge in H. left. lia.
Qed.

Lemma insert_perm x l : Permutation (x :: l) (insert_entry x l).
Proof.
  induction l as [|y l IH]; cbn; [reflexivity|]. destruct (entry_ltb y x); [|reflexivity].
  rewrite perm_swap. now apply perm_skip.
Qed.

Lemma sort_perm l : Permutation l (sort_entries l).
Proof. induction l as [|x l IH]; cbn; [reflexivity|]. rewrite <- insert_perm. now apply perm_skip. Qed.

Lemma insert_sorted x l : ~ In (fst x) (map fst l) -> LocallySorted entry_lt l -> LocallySorted entry_lt (insert_entry x l).
Proof.
  intros Hn Hs. induction Hs as [|y|y z l Hs IH Hyz]; cbn.
  - constructor.
  - destruct (entry_ltb y x) eqn:E.
    + constructor; [constructor|]. now apply entry_ltb_lt.
    + constructor; [constructor|]. apply entry_ltb_total; [|exact E]. intros H. apply Hn. now left.
  - cbn in IH, Hn. destruct (entry_ltb y x) eqn:E.
    + destruct (entry_ltb z x) eqn:E2.
      * constructor; [apply IH; tauto|exact Hyz].
      * constructor; [apply IH; tauto|]. now apply entry_ltb_lt.
    + constructor; [now constructor|]. apply entry_ltb_total; [|exact E]. intros H. apply Hn. now left.
Qed.

Lemma sort_sorted l : NoDup (map fst l) -> LocallySorted entry_lt (sort_entries l).
Proof.
  induction l as [|x l IH]; cbn; [constructor|]. intros H. inversion H as [|? ? Hn Hnd]; subst.
  apply insert_sorted; [|now apply IH]. intros Hi. apply Hn. eapply Permutation_in; [|exact Hi].
  apply Permutation_map, Permutation_sym, sort_perm.
Qed.

Lemma comma_list_join l : l <> [] -> comma_list l = join_comma l +s+ ", ".
Proof.
  induction l as [|a l IH]; [easy|]. intros _. destruct l as [|b l]; [cbn; now rewrite ?app_nil_r_s|].
  change (comma_list (a :: b :: l)) with (a +s+ ", " +s+ comma_list (b :: l)).
  change (join_comma (a :: b :: l)) with (a +s+ ", " +s+ join_comma (b :: l)).
  rewrite IH by discriminate. rewrite !app_assoc_s. reflexivity.
Qed.

Lemma replace_last2_app a c d r : replace_last2 (a +s+ String c (String d "")) r = a +s+ r.
Proof.
  unfold replace_last2. rewrite length_app_s. cbn [String.length].
  replace (String.length a + 2 - 2) with (String.length a) by lia. now rewrite stake_app.
Qed.

Lemma enum_keys_bracket names : names <> [] -> enum_keys names = Some (bracket (map fst (sort_entries names))).
Proof.
  intros H. unfold enum_keys. destruct names as [|x l]; [easy|]. f_equal. unfold bracket.
  rewrite comma_list_join.
  - rewrite <- app_assoc_s. rewrite replace_last2_app. now rewrite app_assoc_s.
  - intros E. apply map_eq_nil in E. pose proof (sort_perm (x :: l)) as P. rewrite E in P.
    apply Permutation_sym, Permutation_nil in P. discriminate.
Qed.

(** ** All types *)

Lemma parse_elem_means e old s v : enum_ok e -> (parse_elem e old s = POk v PSuccess <-> means e old s v).
Proof.
  intros Hok. destruct e as [sg bits| | | | |n names|n mn mx rd|n rd pr]; cbn [parse_elem means].
  - apply parse_int_iff.
  - apply parse_int_iff.
  - destruct (String.eqb_spec s "0"); [|destruct (String.eqb_spec s "1"); [|destruct (String.eqb_spec s "true"); [|destruct (String.eqb_spec s "false")]]];
      subst; split; try (intros [= <-]); try (intuition congruence); try (intuition subst; try discriminate; reflexivity).
  - split; [now intros [= <-]|now intros ->].
  - apply parse_path_iff.
  - destruct Hok as [Hnd Hne]. split.
    + destruct (assoc s names) as [z|] eqn:E; [|now rewrite enum_keys_bracket].
      intros [= <-]. exists z. split; [reflexivity|]. now apply assoc_In.
    + intros (z & -> & Hin). apply assoc_In in Hin as ->; [reflexivity|exact Hnd].
  - destruct (rd s) as [| |v' rest]; cbn; split; try discriminate.
    + destruct rest; cbn; [|discriminate]. now intros [= ->].
    + now intros [= -> ->].
  - unfold of_stream. destruct (rd old s) as [[v' f] eof]. destruct f, eof; cbn; split; try discriminate; try congruence.
Qed.

(** a text that denotes nothing is an input error (or an overflow), and never an escaping
    exception of another kind *)
Lemma parse_elem_fails e old s : enum_ok e -> (forall v, ~ means e old s v) ->
  (exists v, parse_elem e old s = POk v PError \/ parse_elem e old s = POk v POverflow) \/
  (exists m, parse_elem e old s = PThrow (Exn KUserInput m)).
Proof.
  intros Hok Hn. destruct (parse_elem e old s) as [v [| |]|ex] eqn:E.
  - exfalso. apply (Hn v). now apply parse_elem_means.
  - left. eauto.
  - left. eauto.
  - right. destruct e as [sg bits| | | | |n names|n mn mx rd|n rd pr]; cbn [parse_elem] in E.
    + destruct (from_chars_int sg bits s); discriminate.
    + destruct (from_chars_int true 8 s); discriminate.
    + repeat (destruct (String.eqb _ _) in E; [discriminate|]). discriminate.
    + discriminate.
    + destruct (read_path old s) as [[? ?] ?]. discriminate.
    + destruct (assoc s names); [discriminate|]. destruct Hok as [_ Hne]. rewrite enum_keys_bracket in E by exact Hne.
      injection E as <-. eauto.
    + destruct (rd s); discriminate.
    + destruct (rd old s) as [[? ?] ?]. discriminate.
Qed.

Lemma enum_print_In names z k : NoDup (map fst names) -> In (k, z) names ->
  exists k', enum_print names z = k' /\ In (k', z) names.
Proof.
  intros _. induction names as [|[a b] l IH]; [intros []|]. cbn. destruct (Z.eqb_spec z b) as [->|Hz]; [eauto|].
  intros [[= -> ->]|H]; [easy|]. destruct (IH H) as (k' & E & Hin). eauto.
Qed.
