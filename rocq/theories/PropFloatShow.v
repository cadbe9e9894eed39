(** Properties of floating point options: values, printing and validators (C87 - C90). *)
From Coq Require Import QArith Qabs.
From Verif Require Import Base StrLib Fs FloatNum Values Validators ValidatorsSpec ValidatorsProofs FormatParse Invocation ValuesSpec ScanSpec Charconv FloatSpec FloatProofs Ieee
  FloatNumProofs FloatDigits FloatText FloatRoundSpec FloatRound FloatBack FloatRange HelpBase Samples.
Local Open Scope Z_scope.

(** ** C87: reading and showing *)

(** Rounding: a positive number denoted by a text is out of range, or the value is the nearest number of the type, the even one
    of two *)
Theorem C87_rounding : forall k neg m, mag_finite m -> (0 < mag_value m)%Q ->
  let x := mag_value m in
  (too_large k x /\ ieee_round k (neg, m) = (VFloat (FInf neg), true)) \/
  (~ too_large k x /\ too_small k x /\ ieee_round k (neg, m) = (VFloat (FZero neg), true)) \/
  (~ too_large k x /\ ~ too_small k x /\ exists a e, ieee_round k (neg, m) = (VFloat (FFin neg a e), false) /\
     rounds_to k x (inject_Z (Zpos a) * 2 ^ e) /\ (normal k x -> (Qabs (x - inject_Z (Zpos a) * 2 ^ e) <= x * 2 ^ (- bits k))%Q)).
Proof. exact round_lemma. Qed.
Print Assumptions C87_rounding.

(** what is shown is a number text; no number of at most six significant digits is nearer *)
Theorem C87_shown : forall neg m e, exists w j, float_text (print_g (FFin neg m e)) (neg, Dec w j) /\
  (decimal6 (inject_Z w * 10 ^ j) /\ (0 < inject_Z w * 10 ^ j)%Q) /\
  (forall y, decimal6 y -> Qabs (inject_Z (Zpos m) * 2 ^ e - inject_Z w * 10 ^ j) <= Qabs (inject_Z (Zpos m) * 2 ^ e - y))%Q /\
  (forall a k, 0 < a < 1000000 -> (Qabs (inject_Z (Zpos m) * 2 ^ e - inject_Z a * 10 ^ k) <= inject_Z a * 10 ^ k * (1 # 16777216))%Q ->
     (inject_Z w * 10 ^ j == inject_Z a * 10 ^ k)%Q).
Proof. exact print_g_finite. Qed.
Print Assumptions C87_shown.

(** Full statement: the text shown for a value of the type is read as this value.  What holds: values given with at most six
    significant digits *)
Definition shown_is_read : Prop := forall k x nm mn mx old, of_kind k x ->
  parse_elem (float_ty k nm mn mx) old (to_string (Scalar (float_ty k nm mn mx)) (VFloat x)) = POk (VFloat x) PSuccess.
Theorem C87_read_back_partial : forall k neg a i s w j nm mn mx old, 0 < a < 1000000 -> (inject_Z w * 10 ^ j == inject_Z a * 10 ^ i)%Q ->
  float_text s (neg, Dec w j) -> ~ too_large k (inject_Z a * 10 ^ i) -> ~ too_small k (inject_Z a * 10 ^ i) ->
  exists x, parse_elem (float_ty k nm mn mx) old s = POk (VFloat x) PSuccess /\
    parse_elem (float_ty k nm mn mx) old (to_string (Scalar (float_ty k nm mn mx)) (VFloat x)) = POk (VFloat x) PSuccess /\
    (normal k (inject_Z a * 10 ^ i) -> exists w' j', float_text (to_string (Scalar (float_ty k nm mn mx)) (VFloat x)) (neg, Dec w' j') /\
       (inject_Z w' * 10 ^ j' == inject_Z a * 10 ^ i)%Q).
Proof. exact read_back_lemma. Qed.
Print Assumptions C87_read_back_partial.

(** exactly these are read back: the values which can be given with at most six significant digits *)
Theorem C87_exact : forall k neg m e nm mn mx old,
  parse_elem (float_ty k nm mn mx) old (to_string (Scalar (float_ty k nm mn mx)) (VFloat (FFin neg m e))) = POk (VFloat (FFin neg m e)) PSuccess <->
  exists s w j a i, 0 < a < 1000000 /\ (inject_Z w * 10 ^ j == inject_Z a * 10 ^ i)%Q /\ float_text s (neg, Dec w j) /\
    parse_elem (float_ty k nm mn mx) old s = POk (VFloat (FFin neg m e)) PSuccess.
Proof. exact read_back_exact. Qed.
Print Assumptions C87_exact.

Theorem C87_special : forall k nm mn mx old x, (exists s, x = FZero s) \/ (exists s, x = FInf s) \/ x = FNan ->
  parse_elem (float_ty k nm mn mx) old (to_string (Scalar (float_ty k nm mn mx)) (VFloat x)) = POk (VFloat x) PSuccess.
Proof. intros k nm mn mx old x [[[] ->]|[[[] ->]| ->]]; destruct k; vm_compute; reflexivity. Qed.
Print Assumptions C87_special.

(** seven digits: shown is another number *)
Definition float_type (k : fkind) : ety := match k with
  | F32 => float_ty F32 "float" (print_f (FFin false 1 (-126))) (print_f (FFin false 16777215 104))
  | _ => float_ty F64 "double" (print_f (FFin false 1 (-1022))) (print_f (FFin false 9007199254740991 971)) end.
Theorem C87_read_back_refuted : ~ shown_is_read.
Proof.
  intros H. specialize (H F32 (FFin false 16572377 (-27)) "float" "" "" (VInt 0)). assert (K : of_kind F32 (FFin false 16572377 (-27))).
  { split; [reflexivity|]. split; [exists 16572377, (-27); split; [vm_compute; split; congruence|]; split; [vm_compute; congruence|reflexivity]|vm_compute; reflexivity]. }
  specialize (H K). vm_compute in H. discriminate.
Qed.
Print Assumptions C87_read_back_refuted.

Example C87_case : map (fun s => match parse_elem (float_type F64) (VInt 0) s with POk (VFloat x) PSuccess => print_g x | _ => "" end)
    ["0.1234567"; "1e21"; "100000"; "1000000"; "-2.50"; "0.0001"; "0.00001"; "123456.7"; "9.999996"; "-0"; "nan(x)"; "-Infinity"; "5e-324"; "1e400"]
  = ["0.123457"; "1e+21"; "100000"; "1e+06"; "-2.5"; "0.0001"; "1e-05"; "123457"; "10"; "-0"; "nan"; "-inf"; "4.94066e-324"; ""].
Proof. vm_compute. reflexivity. Qed.
Example C87_case_hyps : 0 < 123456 < 1000000 /\ float_text "-123.4560" (true, Dec 1234560 (-4)) /\ (inject_Z 1234560 * 10 ^ (-4) == inject_Z 123456 * 10 ^ (-3))%Q /\
  ~ too_large F32 (inject_Z 123456 * 10 ^ (-3)) /\ ~ too_small F32 (inject_Z 123456 * 10 ^ (-3)) /\ normal F32 (inject_Z 123456 * 10 ^ (-3)).
Proof.
  split; [lia|]. split; [apply (std_whole "-123.4560"); vm_compute; reflexivity|]. split; [vm_compute; reflexivity|]. split; [vm_compute; congruence|]. split; [vm_compute; congruence|vm_compute; congruence].
Qed.
Example C87_case_exact : map (fun s => match parse_elem (float_type F32) (VInt 0) s with
    | POk x PSuccess => match parse_elem (float_type F32) (VInt 0) (to_string (Scalar (float_type F32)) x) with POk y PSuccess => print_g (match y with VFloat y => y | _ => FNan end) =? s | _ => false end
    | _ => false end)%string ["0.1"; "1e-45"; "123456"; "3.40282e+38"; "16777216"; "0.1234567"] = [true; false; true; true; false; false].
Proof. vm_compute. reflexivity. Qed.
Example C87_case_page : option_info (Scalar (float_type F64)) (VFloat (FFin false 3 (-1))) (cfg "r" "ratio") = "desc Default: 1.5".
Proof. vm_compute. reflexivity. Qed.

(** ** C88: ranges and lists of floating point numbers *)

Theorem C88_range : forall k mn mx f x ys, elements x = map VFloat ys -> Forall (of_kind k) ys ->
  (Forall (float_within mn mx) ys /\ float_range_validator k mn mx f x = (f, VOk)) \/
  (exists l y l', ys = l ++ y :: l' /\ Forall (float_within mn mx) l /\ ~ float_within mn mx y /\
     float_range_validator k mn mx f x = (f, VThrow ("Value " +s+ print_f y +s+ " is not in range [" +s+ print_f mn +s+ "," +s+ print_f mx +s+ "]."))).
Proof. exact float_range_lemma. Qed.
Print Assumptions C88_range.

(** not a number is never in a range *)
Theorem C88_nan : forall k mn mx f, exists m, float_range_validator k mn mx f (VFloat FNan) = (f, VThrow m).
Proof. exact nan_refused. Qed.
Print Assumptions C88_nan.

(** the values read are values of the type *)
Theorem C88_values : forall k neg m v b, mag_finite m -> (0 < mag_value m)%Q -> ieee_round k (neg, m) = (VFloat v, b) -> of_kind k v /\ to_kind k v = v.
Proof.
  intros k neg m v b F P E. destruct (exact_fraction k neg m F P) as (n & d & N & D & _ & R & _). unfold ieee_round in E. rewrite R in E. injection E as <- _.
  pose proof (ieee_kind k neg n d N D) as K. split; [exact K|now apply to_kind_id].
Qed.
Print Assumptions C88_values.

(** the numbers in the messages: the nearest multiple of 10^-6, with six digits behind the point *)
Theorem C88_message_numbers : forall neg m e, exists i f z, print_f (FFin neg m e) = sign neg +s+ i +s+ "." +s+ f /\ digits i /\ digits f /\ String.length f = 6%nat /\
  weight (i +s+ f) = z /\ next_to (inject_Z (Zpos m) * 2 ^ e * 1000000) z.
Proof. exact print_f_finite. Qed.
Print Assumptions C88_message_numbers.

(** the message need not tell the value from the bounds: 1e-7 is refused for the range from 1e-8 to 2e-8 *)
Definition small_range : validator := float_range_validator F64 (round_exact F64 (false, Dec 1 (-8))) (round_exact F64 (false, Dec 2 (-8))).
Theorem C88_message_refuted : exists x, of_kind F64 x /\ snd (small_range no_fs (VFloat x)) = VThrow "Value 0.000000 is not in range [0.000000,0.000000].".
Proof.
  exists (round_exact F64 (false, Dec 1 (-7))). split; [|vm_compute; reflexivity].
  apply (ieee_kind F64 false (fst (fraction 10 1 (-7))) (snd (fraction 10 1 (-7)))); vm_compute; reflexivity.
Qed.
Print Assumptions C88_message_refuted.

(** the value is converted to the type of the validator before it is compared: a float option whose validator was given
    doubles, integer options *)
Theorem C88_converted : forall k mn mx f x, Forall is_number (elements x) -> exists ys, Forall2 (converts k) (elements x) ys /\
  ((Forall (float_within mn mx) ys /\ float_range_validator k mn mx f x = (f, VOk)) \/
   (exists l y l', ys = l ++ y :: l' /\ Forall (float_within mn mx) l /\ ~ float_within mn mx y /\
      float_range_validator k mn mx f x = (f, VThrow ("Value " +s+ print_f y +s+ " is not in range [" +s+ print_f mn +s+ "," +s+ print_f mx +s+ "].")))).
Proof. exact converted_range_lemma. Qed.
Print Assumptions C88_converted.
(** integers that fit into the mantissa are compared as they are *)
Theorem C88_integers : forall k z y, Z.abs z <= 2 ^ bits k -> converts k (VInt z) y ->
  (fvalue y == inject_Z z)%Q /\ (exists s, y = FZero s) \/ (fvalue y == inject_Z z)%Q /\ (exists s m e, y = FFin s m e).
Proof. exact small_integers. Qed.
Print Assumptions C88_integers.
(** others are not: 9007199254740993 is accepted for the range from 0 to 9007199254740992 *)
Theorem C88_integers_refuted : exists vs f, okind_of (snd (parse_args true [DOption 0%nat (Scalar (TInt true 64)) (validated (float_range_validator F64 (FZero false) (FFin false 1 53)) (cfg "r" "ratio"))]
    ["-r"; "9007199254740993"] vs f)) = ORet /\
  vars (fst (parse_args true [DOption 0%nat (Scalar (TInt true 64)) (validated (float_range_validator F64 (FZero false) (FFin false 1 53)) (cfg "r" "ratio"))]
    ["-r"; "9007199254740993"] vs f)) 0%nat = VInt (2 ^ 53 + 1).
Proof. exists vars0, no_fs. vm_compute. auto. Qed.
Print Assumptions C88_integers_refuted.

(** arithmetic_range_validator{0.0, 0.1} on a float option refuses 0.1, value_list_validator{0.1, 0.5} too *)
Definition tenth : fnum := round_exact F64 (false, Dec 1 (-1)).
Definition half : fnum := FFin false 1 (-1).
Theorem C88_same_text_refuted : exists decls args vs f, decls = [DOption 0%nat (Scalar (float_type F32)) (validated (float_range_validator F64 (FZero false) tenth) (cfg "r" "ratio"))] /\
  args = ["-r"; "0.1"] /\ snd (parse_args true decls args vs f) = Throw (Exn KValidation "Validation failed for option -r/--ratio: Value 0.100000 is not in range [0.000000,0.100000].").
Proof.
  exists [DOption 0%nat (Scalar (float_type F32)) (validated (float_range_validator F64 (FZero false) tenth) (cfg "r" "ratio"))], ["-r"; "0.1"], vars0, no_fs.
  split; [reflexivity|]. split; [reflexivity|]. vm_compute. reflexivity.
Qed.
Print Assumptions C88_same_text_refuted.

Theorem C88_list : forall k values f x, Forall is_number (elements x) -> exists ys, Forall2 (converts k) (elements x) ys /\
  let listed y := Exists (same_number y) values in
  ((Forall listed ys /\ float_list_validator k values f x = (f, VOk)) \/
   (exists l y l', ys = l ++ y :: l' /\ Forall listed l /\ ~ listed y /\
      float_list_validator k values f x = (f, VThrow ("Value " +s+ print_g y +s+ " is not one of " +s+ bracket (map print_g values) +s+ ".")))).
Proof. exact converted_list_lemma. Qed.
Print Assumptions C88_list.

Theorem C88_list_refuted : exists decls args vs f, decls = [DOption 0%nat (Scalar (float_type F32)) (validated (float_list_validator F64 [tenth; half]) (cfg "r" "ratio"))] /\
  args = ["-r"; "0.1"] /\ snd (parse_args true decls args vs f) = Throw (Exn KValidation "Validation failed for option -r/--ratio: Value 0.1 is not one of [0.1, 0.5].").
Proof.
  exists [DOption 0%nat (Scalar (float_type F32)) (validated (float_list_validator F64 [tenth; half]) (cfg "r" "ratio"))], ["-r"; "0.1"], vars0, no_fs.
  split; [reflexivity|]. split; [reflexivity|]. vm_compute. reflexivity.
Qed.
Print Assumptions C88_list_refuted.

Example C88_case : of_kind F64 half /\ float_within (FZero true) half half /\ ~ float_within (FZero true) half FNan /\ ~ float_within (FZero true) half (FInf false) /\
  map (fun y => snd (float_range_validator F64 (FZero true) half no_fs (VFloat y))) [half; FZero false; FZero true; FFin true 1 (-40); FInf true; FNan] =
    [VOk; VOk; VOk; VThrow "Value -0.000000 is not in range [-0.000000,0.500000]."; VThrow "Value -inf is not in range [-0.000000,0.500000].";
     VThrow "Value nan is not in range [-0.000000,0.500000]."] /\
  snd (float_list_validator F64 [tenth; FZero false] no_fs (VList [VFloat (FZero true); VFloat tenth; VFloat FNan])) = VThrow "Value nan is not one of [0.1, 0].".
Proof.
  split; [split; [reflexivity|]; split; [exists 1, (-1); split; [vm_compute; split; congruence|]; split; [vm_compute; congruence|reflexivity]|vm_compute; reflexivity]|].
  split; [split; vm_compute; congruence|]. split; [intros [[] _]|]. split; [intros [_ []]|]. vm_compute. auto.
Qed.

(** ** C89: validators for integers on floating point options, e.g. arithmetic_range_validator{1, 20} (deduced: int) on a
    double, as in test/unit/parser/format_parse_validators_test.cpp 606-610 and 658-662 *)

(** the digits behind the point are ignored, also in the message.
    Full statement: compared is the value itself *)
Theorem C89_range_partial : forall sg bits mn mx f x ys zs, (0 < bits)%N -> elements x = map VFloat ys -> Forall2 whole_part ys zs -> Forall (in_type sg bits) zs ->
  (Forall (within mn mx) zs /\ arithmetic_range_any sg bits mn mx f x = (f, VOk)) \/
  (exists l z l', zs = l ++ z :: l' /\ Forall (within mn mx) l /\ ~ within mn mx z /\ arithmetic_range_any sg bits mn mx f x =
     (f, VThrow ("Value " +s+ Z_to_string z +s+ " is not in range [" +s+ Z_to_string mn +s+ "," +s+ Z_to_string mx +s+ "]."))).
Proof. exact cut_range_lemma. Qed.
Print Assumptions C89_range_partial.

Theorem C89_list_partial : forall sg bits values f x ys zs, (0 < bits)%N -> Forall (in_type sg bits) values -> elements x = map VFloat ys ->
  Forall2 whole_part ys zs -> Forall (in_type sg bits) zs ->
  snd (value_list_any (TInt sg bits) (map VInt values) f x) = VOk <-> Forall (fun z => In z values) zs.
Proof. exact cut_list_lemma. Qed.
Print Assumptions C89_list_partial.

(** numbers without a whole part of the type: undefined behaviour *)
Theorem C89_undefined : forall sg bits mn mx f x l y l', (0 < bits)%N -> elements x = map VFloat l ++ VFloat y :: l' -> (forall z, whole_part y z -> ~ in_type sg bits z) ->
  Forall (fun y => exists z, whole_part y z /\ in_type sg bits z /\ within mn mx z) l -> arithmetic_range_any sg bits mn mx f x = (f, VUB).
Proof.
  intros sg bits mn mx f x l y l' Hb Hx Hy Hl. unfold arithmetic_range_any.
  replace (by_characters x) with x by (destruct x; try reflexivity; destruct l as [|a [|]]; discriminate). apply (cut_undefined_lemma sg bits (arithmetic_range1 sg bits mn mx) f x l y l' Hx Hy). eapply Forall_impl; [|exact Hl].
  intros a (z & W & T & R). exists z. split; [exact W|]. split; [exact T|]. unfold arithmetic_range1. cbn [promote]. rewrite (wrap_int_id sg bits z Hb T). unfold within in R. destruct (Z.leb_spec z mx), (Z.leb_spec mn z); try lia. reflexivity.
Qed.
Print Assumptions C89_undefined.
Theorem C89_no_whole_part : forall y z, y = FNan \/ (exists s, y = FInf s) -> ~ whole_part y z.
Proof. intros y z [->|[s ->]] [[(? & E) _]|[(? & ? & ? & E) _]]; discriminate. Qed.
Print Assumptions C89_no_whole_part.

Definition ratio_decls (v : validator) : list decl := [DOption 0%nat (Scalar (float_type F64)) (validated v (cfg "r" "ratio"))].
(** 20.9 is accepted for the range from 1 to 20, -0.9 for the range from 0 to 20, 2.7 for the values 1, 2 *)
Theorem C89_accepts_outside_refuted : exists vs f, okind_of (snd (parse_args true (ratio_decls (arithmetic_range_any true 32 1 20)) ["-r"; "20.9"] vs f)) = ORet /\
  okind_of (snd (parse_args true (ratio_decls (arithmetic_range_any true 32 0 20)) ["-r"; "-0.9"] vs f)) = ORet /\
  okind_of (snd (parse_args true (ratio_decls (value_list_any int32 [VInt 1; VInt 2])) ["-r"; "2.7"] vs f)) = ORet.
Proof. exists vars0, no_fs. vm_compute. auto. Qed.
Print Assumptions C89_accepts_outside_refuted.
(** what is shown is another number: 0 for 0.9 *)
Theorem C89_message_refuted : exists vs f, snd (parse_args true (ratio_decls (arithmetic_range_any true 32 1 20)) ["-r"; "0.9"] vs f) =
  Throw (Exn KValidation "Validation failed for option -r/--ratio: Value 0 is not in range [1,20].").
Proof. exists vars0, no_fs. vm_compute. reflexivity. Qed.
Print Assumptions C89_message_refuted.
(** undefined behaviour by an argument *)
Theorem C89_undefined_refuted : exists vs f, Forall (fun a => okind_of (snd (parse_args true (ratio_decls (arithmetic_range_any true 32 1 20)) ["-r"; a] vs f)) = OUB) ["nan"; "-inf"; "1e10"; "-2147483649"].
Proof. exists vars0, no_fs. repeat constructor. Qed.
Print Assumptions C89_undefined_refuted.

Example C89_case : Forall2 whole_part [FFin false 219 (-3); FFin true 7 (-3); FZero true] [27; 0; 0] /\ Forall (in_type true 32) [27; 0; 0] /\
  snd (arithmetic_range_any true 32 0 20 no_fs (VList (map VFloat [FFin true 7 (-3); FFin false 219 (-3); FNan]))) = VThrow "Value 27 is not in range [0,20]." /\
  snd (arithmetic_range_any true 32 0 20 no_fs (VList (map VFloat [FFin true 7 (-3); FNan; FFin false 219 (-3)]))) = VUB /\
  snd (value_list_any int32 [VInt 27; VInt 3] no_fs (VFloat (FFin false 219 (-3)))) = VOk.
Proof.
  split; [|split; [repeat constructor; vm_compute; congruence|vm_compute; auto]].
  assert (P : forall s m e z, cut_off (fvalue (FFin s m e)) z -> whole_part (FFin s m e) z) by (intros s m e z C; right; eauto).
  constructor; [apply P; left; vm_compute; repeat split; congruence|]. constructor; [apply P; right; vm_compute; repeat split; congruence|]. constructor; [left; eauto|constructor].
Qed.

(** ** C90: arguments out of range *)

(** refused are exactly the numbers other than zero that are closer to infinity or to zero than to any other number of the type *)
Theorem C90_refused : forall k nm mn mx old s, parse_elem (float_ty k nm mn mx) old s = POk old POverflow <->
  exists p neg m, longest s p /\ float_text p (neg, m) /\ mag_finite m /\ (0 < mag_value m)%Q /\ (too_large k (mag_value m) \/ too_small k (mag_value m)).
Proof. exact out_of_range_lemma. Qed.
Print Assumptions C90_refused.

(** the range in the message excludes all negative numbers, which are accepted *)
Theorem C90_message_refuted : exists vs f,
  snd (parse_args true [DOption 0%nat (Scalar (float_type F32)) (cfg "r" "ratio")] ["-r"; "-1e40"] vs f) =
    Throw (Exn KUserInput "Value parse failed for -r: Numeric argument -1e40 is not in the valid range [0.000000,340282346638528859811704183484516925440.000000].") /\
  okind_of (snd (parse_args true [DOption 0%nat (Scalar (float_type F32)) (cfg "r" "ratio")] ["-r"; "-1e30"] vs f)) = ORet.
Proof. exists vars0, no_fs. vm_compute. auto. Qed.
Print Assumptions C90_message_refuted.
(** a number inside the range shown is refused *)
Theorem C90_small_refuted : exists vs f, snd (parse_args true [DOption 0%nat (Scalar (float_type F32)) (cfg "r" "ratio")] ["-r"; "1e-46"] vs f) =
    Throw (Exn KUserInput "Value parse failed for -r: Numeric argument 1e-46 is not in the valid range [0.000000,340282346638528859811704183484516925440.000000].").
Proof. exists vars0, no_fs. vm_compute. reflexivity. Qed.
Print Assumptions C90_small_refuted.

Example C90_case : map (fun s => match parse_elem (float_type F32) (VInt 7) s with POk _ POverflow => true | _ => false end)
  ["3.4028235e38"; "3.4028236e38"; "-1e39x"; "7.1e-46"; "7e-46"; "0"; "0e999"; "inf"] = [false; true; true; false; true; false; false; false].
Proof. vm_compute. reflexivity. Qed.
