(** Properties of the conversion of floating point numbers (C75 - C77). *)
From Verif Require Import Base StrLib Fs FloatNum Values Validators FormatParse Invocation ValuesSpec ScanSpec DiagnosisSpec Charconv FloatSpec FloatProofs ShimProofs Ieee Samples.

(** ** C75: what is accepted and what it means, for the function of the standard library and every
    rounding *)

Theorem C75_accepted : forall round k nm mn mx old s v,
  parse_elem (TFloat nm mn mx (std_from_chars round k)) old s = POk v PSuccess <-> exists x, float_text s x /\ round k x = (v, false).
Proof. exact float_parse. Qed.
Print Assumptions C75_accepted.

(** a text denotes at most one number *)
Theorem C75_unique : forall s x y, float_text s x -> float_text s y -> x = y.
Proof. exact float_text_unique. Qed.
Print Assumptions C75_unique.

(** "out of range" is said exactly if the number the text starts with is *)
Theorem C75_overflow : forall round k nm mn mx old s,
  parse_elem (TFloat nm mn mx (std_from_chars round k)) old s = POk old POverflow <-> exists p x v, longest s p /\ float_text p x /\ round k x = (v, true).
Proof. exact float_overflow. Qed.
Print Assumptions C75_overflow.

(** no blanks, no plus sign, no hexadecimal numbers *)
Theorem C75_begins : forall s x, float_text s x -> exists c q, s = String c q /\ is_space c = false /\ c <> "+"%char.
Proof. exact float_begins. Qed.
Print Assumptions C75_begins.
Theorem C75_decimal : forall s x, hex_prefixed s -> ~ float_text s x.
Proof. exact hex_not_whole. Qed.
Print Assumptions C75_decimal.

Definition f32 : ety := TFloat "float" (print_f (FFin false 1 (-126))) (print_f (FFin false 16777215 104)) (std_from_chars ieee_round F32).
Definition f64 : ety := TFloat "double" (print_f (FFin false 1 (-1022))) (print_f (FFin false 9007199254740991 971)) (std_from_chars ieee_round F64).

(** test/unit/std/charconv_float_test.cpp *)
Definition num (s : string) : val :=
  VFloat (match strto_scan s with
          | Some ((neg, Hexa (Zpos m) e), _) => FFin neg m e
          | Some ((neg, Infinite), _) => FInf neg
          | Some ((neg, Dec 0 _), _) => FZero neg
          | _ => FNan
          end).
Example C75_case_tests : map (std_from_chars ieee_round F32)
  ["1234"; "1.2e3"; "1.e2"; "1."; ".2e3"; "2e3"; "2"; "4em"; "-1.2e3"; "1.2e"; "0.0"; "3.19abc"; "inf"; "INFINITY"; "nan(abc)"; "e3"; "+1.2e3"; ""; "."; "-"]
  = [FcOk (num "0x269p1") ""; FcOk (num "0x4bp4") ""; FcOk (num "0x19p2") ""; FcOk (num "0x1p0") ""; FcOk (num "0x19p3") ""; FcOk (num "0x7dp4") ""; FcOk (num "0x1p1") "";
     FcOk (num "0x1p2") "em"; FcOk (num "-0x4bp4") ""; FcOk (num "0x4ccccdp-22") "e"; FcOk (num "0") ""; FcOk (num "0x66147bp-21") "abc"; FcOk (num "inf") ""; FcOk (num "inf") ""; FcOk (num "nan") "";
     FcInvalid; FcInvalid; FcInvalid; FcInvalid; FcInvalid].
Proof. vm_compute. reflexivity. Qed.

Example C75_case : float_text "-1.25E+2" (true, Dec 125 0) /\ float_text ".5" (false, Dec 5 (-1)) /\ longest "1e39x" "1e39".
Proof.
  split; [|split].
  - apply (std_whole "-1.25E+2"). vm_compute. reflexivity.
  - apply (std_whole ".5"). vm_compute. reflexivity.
  - destruct (proj1 (std_longest "1e39x" (false, Dec 1 39) "x") eq_refl) as (p & E & _ & H).
    assert (p = "1e39"); [|now subst]. clear -E.
    destruct p as [|? [|? [|? [|? [|? p]]]]]; try discriminate E; cbn in E; injection E; intros; subst; try discriminate; try reflexivity. now destruct p.
Qed.

(** in a command line *)
Example C75_case_line : okind_of (snd (parse_args true [DOption 0 (Scalar f64) (cfg "r" "ratio")] ["-r"; "1e2"] vars0 no_fs)) = ORet
  /\ vars (fst (parse_args true [DOption 0 (Scalar f64) (cfg "r" "ratio")] ["-r"; "1e2"] vars0 no_fs)) 0 = num "0x19p2"
  /\ okind_of (snd (parse_args true [DOption 0 (Scalar f64) (cfg "r" "ratio")] ["-r"; "1e2x"] vars0 no_fs)) = OThrow KUserInput.
Proof. vm_compute. auto. Qed.

(** ** C76: the replacement for missing library support *)

(** the claim without the conditions; refuted below *)
Definition replacement_agrees (round : fkind -> exact -> val * bool) (through_float : val -> val) : Prop :=
  forall k l e, no_nul (fold_right append "" l) -> e = false -> shim_reads round through_float k l e = map (std_from_chars round k) l.

(** missing: texts starting with a blank, hexadecimal numbers, numbers that are changed by a
    conversion to float, and every conversion after one that was out of range.
    (Texts with null characters cannot be arguments.) *)
Theorem C76_agrees_partial : forall round through_float k s,
  no_nul s -> (forall c q, s = String c q -> is_space c = false) -> ~ hex_prefixed s -> fits_float round through_float k s ->
  shim_read round through_float k s false = (range_result (std_from_chars round k s), std_from_chars round k s).
Proof. exact shim_agrees. Qed.
Print Assumptions C76_agrees_partial.

Theorem C76_defined : forall round through_float k s errno, snd (shim_from_chars round through_float k General s (str1 nul) errno) <> ShimUB.
Proof. exact shim_no_ub. Qed.
Print Assumptions C76_defined.

(** once a number was out of range nothing is accepted any more *)
Theorem C76_poisoned : forall round through_float k l e i j v r, i < j ->
  nth_error (shim_reads round through_float k l e) i = Some FcRange -> nth_error (shim_reads round through_float k l e) j <> Some (FcOk v r).
Proof. exact poisoned. Qed.
Print Assumptions C76_poisoned.

Theorem C76_errno_refuted : exists k l, forallb (fun s => sall (fun c => negb (Ascii.eqb c nul)) s) l = true /\
  shim_reads ieee_round ieee_through_float k l false = [FcRange; FcRange] /\ map (std_from_chars ieee_round k) l = [FcRange; FcOk (num "0x1p0") ""].
Proof. exists F32, ["1e99"; "1"]. vm_compute. auto. Qed.
Print Assumptions C76_errno_refuted.

Theorem C76_precision_refuted : exists s, shim_reads ieee_round ieee_through_float F64 [s] false = [FcOk (num "0xcccccdp-27") ""] /\
  std_from_chars ieee_round F64 s = FcOk (num "0xccccccccccccdp-55") "".
Proof. exists "0.1". vm_compute. auto. Qed.
Print Assumptions C76_precision_refuted.

(** a number within the range of double becomes infinite *)
Theorem C76_infinite_refuted : exists s, shim_reads ieee_round ieee_through_float F64 [s] false = [FcOk (num "inf") ""] /\
  std_from_chars ieee_round F64 s = FcOk (num "0x8e679c2f5e45p976") "".
Proof. exists "1e308". vm_compute. auto. Qed.
Print Assumptions C76_infinite_refuted.

Theorem C76_blank_refuted : exists s, shim_reads ieee_round ieee_through_float F32 [s] false = [FcOk (num "0x5p0") ""] /\ std_from_chars ieee_round F32 s = FcInvalid.
Proof. exists " +5". vm_compute. auto. Qed.
Print Assumptions C76_blank_refuted.

Theorem C76_hex_refuted : exists s, shim_reads ieee_round ieee_through_float F32 [s] false = [FcOk (num "0x1p4") ""] /\ std_from_chars ieee_round F32 s = FcOk (num "0") "x10".
Proof. exists "0x10". vm_compute. auto. Qed.
Print Assumptions C76_hex_refuted.

Theorem C76_agrees_refuted : ~ replacement_agrees ieee_round ieee_through_float.
Proof. intros H. specialize (H F64 ["0.1"] false). assert (N : no_nul (fold_right append "" ["0.1"])) by reflexivity. specialize (H N eq_refl). vm_compute in H. discriminate. Qed.
Print Assumptions C76_agrees_refuted.

(** the hypotheses of the agreement hold of ordinary numbers, e.g. 120.25 as double *)
Example C76_case : no_nul "120.25" /\ (forall c q, "120.25" = String c q -> is_space c = false) /\ ~ hex_prefixed "120.25" /\ fits_float ieee_round ieee_through_float F64 "120.25"
  /\ shim_read ieee_round ieee_through_float F64 "120.25" false = (false, FcOk (num "0x1e1p-2") "").
Proof.
  split; [reflexivity|]. split; [intros c q [= <- _]; reflexivity|]. split.
  { intros (sg & z & c & q & Hsg & Hz & _ & H). destruct z as [|a [|b [|? ?]]]; try discriminate Hz. change ([to_lower a; to_lower b] = ["0"; "x"]%char) in Hz. injection Hz as Ha _.
    destruct Hsg as [->| ->]; destruct H as [H|H]; try discriminate H; injection H as H _; subst a; discriminate Ha. }
  split; [|vm_compute; reflexivity]. right. intros p x v Hl Hp Hr.
  assert (E : std_scan "120.25" = Some ((false, Dec 12025 (-2)), "")) by reflexivity.
  destruct Hl as ((rest & Es) & Hl). assert (E2 : std_scan "120.25" = Some (x, rest)).
  { apply std_longest. exists p. split; [exact Es|]. split; [exact Hp|]. split; [eauto|exact Hl]. }
  rewrite E in E2. injection E2 as <- _. vm_compute in Hr. injection Hr as <-. vm_compute. reflexivity.
Qed.

(** ** C77: the other uses of the replacement (not made by the parser) *)

(** a text inside a longer one is read like a text of its own *)
Theorem C77_inside_partial : forall round through_float k s c b errno, c <> nul -> s <> "" -> String.length s < 100 ->
  shim_from_chars round through_float k General s (String c b) errno = shim_from_chars round through_float k General s (str1 nul) errno.
Proof. exact shim_buffer. Qed.
Print Assumptions C77_inside_partial.

(** for longer texts the buffer overflows *)
Theorem C77_inside_refuted : exists s c b, c <> nul /\ s <> "" /\ shim_from_chars ieee_round ieee_through_float F32 General s (String c b) false = (false, ShimUB)
  /\ exists v, snd (shim_from_chars ieee_round ieee_through_float F32 General s (str1 nul) false) = ShimOk v (String.length s).
Proof. exists ("1." +s+ of_chars (List.repeat "0"%char 98)), "0"%char, "". split; [discriminate|]. split; [discriminate|]. split; [vm_compute; reflexivity|]. eexists. vm_compute. reflexivity. Qed.
Print Assumptions C77_inside_refuted.
Theorem C77_overflow : forall round through_float k s c b errno, c <> nul -> 100 <= String.length s -> after_char "+" s = None ->
  shim_from_chars round through_float k General s (String c b) errno = (errno, ShimUB).
Proof. exact shim_overflow. Qed.
Print Assumptions C77_overflow.

(** in hexadecimal format the last two digits are lost *)
Theorem C77_hex : forall round through_float k a x y behind,
  sall is_hex (a +s+ String x (str1 y)) = true -> a <> "" -> String.length a <= 96 -> behind <> "" -> snd (round k (false, Hexa (weight16 a) 0)) = false ->
  shim_from_chars round through_float k Hexformat (a +s+ String x (str1 y)) behind false =
    (false, ShimOk (let v := fst (round k (false, Hexa (weight16 a) 0)) in match k with F32 => v | _ => through_float v end) (String.length a + 2)).
Proof. exact shim_hex. Qed.
Print Assumptions C77_hex.
Theorem C77_hex_refuted : exists s, s = "ff" /\ weight16 s = 255%Z /\
  shim_from_chars ieee_round ieee_through_float F32 Hexformat s (str1 nul) false = (false, ShimOk (num "0") 1).
Proof. exists "ff". vm_compute. auto. Qed.
Print Assumptions C77_hex_refuted.

(** the fixed format refuses texts with an exponent mark and otherwise changes nothing *)
Theorem C77_fixed : forall round through_float k s behind errno,
  (In "e"%char (chars s) \/ In "E"%char (chars s) -> shim_from_chars round through_float k Fixed s behind errno = (errno, ShimInvalid (String.length s))) /\
  (~ In "e"%char (chars s) -> ~ In "E"%char (chars s) ->
   shim_from_chars round through_float k Fixed s behind errno = shim_from_chars round through_float k General s behind errno).
Proof. exact shim_fixed. Qed.
Print Assumptions C77_fixed.
(** the scientific format refuses texts without one and otherwise changes nothing *)
Theorem C77_scientific_partial : forall round through_float k s behind errno,
  (~ In "e"%char (chars s) -> ~ In "E"%char (chars s) -> shim_from_chars round through_float k Scientific s behind errno = (errno, ShimInvalid (String.length s))) /\
  (In "e"%char (chars s) \/ In "E"%char (chars s) ->
   shim_from_chars round through_float k Scientific s behind errno = shim_from_chars round through_float k General s behind errno).
Proof. exact shim_scientific. Qed.
Print Assumptions C77_scientific_partial.

(** full statement of the scientific format: the exponent belongs to the number.  It may be anywhere: *)
Theorem C77_scientific_refuted : exists s, ~ (exists p m x e, longest s p /\ p = m +s+ x /\ exponent_text x e /\ x <> "") /\
  shim_from_chars ieee_round ieee_through_float F32 Scientific s (str1 nul) false = (false, ShimOk (num "0x1p0") 1).
Proof.
  exists "1 e". split; [|vm_compute; reflexivity]. intros (p & m & x & e & Hl & Ep & Hx & Hne).
  destruct (proj1 (std_longest "1 e" (false, Dec 1 0) " e") eq_refl) as (p0 & E0 & Hp0 & _).
  destruct Hl as ((r & Es) & (y & Hy) & Hmax). assert (E2 : std_scan "1 e" = Some (y, r)).
  { apply std_longest. exists p. split; [exact Es|]. split; [exact Hy|]. split; [eauto|]. split; [eauto|exact Hmax]. }
  vm_compute in E2. injection E2 as _ <-. assert (p = "1"). { destruct p as [|a [|b [|c [|d p]]]]; try discriminate Es; injection Es; intros; subst; try discriminate; reflexivity. }
  subst p. destruct Hx as [|c d Hc Hd|c d Hc Hd|c d Hc Hd]; [contradiction| | |]; destruct m as [|a m]; injection H; intros; subst;
    try (destruct m; discriminate); destruct Hc; discriminate.
Qed.
Print Assumptions C77_scientific_refuted.

(** printing stays within the range and reports exactly when the range is too small *)
Theorem C77_to_chars : forall text m m' r, shim_to_chars text m = (m', r) ->
  List.length m' = List.length m /\ (r = None <-> List.length m < String.length text) /\ (r = None -> m' = m) /\
  (forall n, r = Some n -> n = String.length text /\ m' = chars text ++ skipn n m).
Proof. exact to_chars_lemma. Qed.
Print Assumptions C77_to_chars.

Example C77_case : shim_from_chars ieee_round ieee_through_float F64 General "3.25" "7" false = (false, ShimOk (num "0xdp-2") 4)
  /\ shim_from_chars ieee_round ieee_through_float F32 Hexformat "1f00" " " false = (false, ShimOk (num "0x1fp0") 4)
  /\ shim_to_chars "120.25" (chars "..........") = (chars "120.25....", Some 6) /\ shim_to_chars "120.25" (chars "...") = (chars "...", None).
Proof. vm_compute. auto. Qed.
