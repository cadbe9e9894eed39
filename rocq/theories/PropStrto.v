(** The replacement of from_chars: exactly what it reads (C76). *)
From Verif Require Import Base StrLib FloatNum Values Validators ValuesSpec Charconv FloatSpec StrtoSpec FloatProofs ShimProofs StrtoProofs Ieee.

(** what strtod reads: the longest beginning that is a number by the grammar, and its value *)
Theorem C76_reads : forall s x r, strto_scan s = Some (x, r) <-> exists p, s = p +s+ r /\ strto_text p x /\ longest_strto s p.
Proof. exact strto_longest. Qed.
Print Assumptions C76_reads.
Theorem C76_unique : forall s x y, strto_text s x -> strto_text s y -> x = y.
Proof. exact strto_text_unique. Qed.
Print Assumptions C76_unique.

(** the replacement accepts a whole argument exactly if it is such a number without a plus sign as
    its first character and the number is in range; the value has passed through a float *)
Theorem C76_accepted : forall round through_float k s v, no_nul s ->
  snd (shim_read round through_float k s false) = FcOk v "" <->
  (forall q, s <> String "+" q) /\ exists x w, strto_text s x /\ round k x = (w, false) /\ v = stored through_float k w.
Proof. exact shim_whole. Qed.
Print Assumptions C76_accepted.

Theorem C76_range : forall round through_float k s, no_nul s ->
  snd (shim_read round through_float k s false) = FcRange <->
  (forall q, s <> String "+" q) /\ exists p x w, longest_strto s p /\ strto_text p x /\ round k x = (w, true).
Proof. exact shim_range. Qed.
Print Assumptions C76_range.

(** it agrees with the function of the standard library exactly in these cases *)
Theorem C76_agrees_exact : forall round through_float k s, no_nul s -> (forall neg, snd (round k (neg, Dec 0 0)) = false) ->
  snd (shim_read round through_float k s false) = std_from_chars round k s <->
  (exists q, s = String "+" q) \/ (forall p r x, s = p +s+ r -> ~ strto_text p x) \/
  (exists p x, longest_strto s p /\ float_text p x /\ (snd (round k x) = true \/ stored through_float k (fst (round k x)) = fst (round k x))).
Proof. exact shim_agrees_exact. Qed.
Print Assumptions C76_agrees_exact.

(** every number of the standard function is one of strtod's, with the same value *)
Theorem C76_more : forall s x, float_text s x -> strto_text s x.
Proof. exact strto_of_std. Qed.
Print Assumptions C76_more.

Example C76_case_texts : strto_text "-0x1.8P+1" (true, Hexa 24 (-3)) /\ strto_text "  +12.5" (false, Dec 125 (-1)) /\ strto_text "0X.fp-2" (false, Hexa 15 (-6)) /\ strto_text "0xAb" (false, Hexa 171 0)
  /\ longest_strto "0x1pq" "0x1" /\ longest_strto "0xg" "0".
Proof.
  split; [apply strto_whole; vm_compute; reflexivity|]. split; [apply strto_whole; vm_compute; reflexivity|]. split; [apply strto_whole; vm_compute; reflexivity|]. split; [apply strto_whole; vm_compute; reflexivity|]. split.
  - destruct (proj1 (strto_longest "0x1pq" (false, Hexa 1 0) "pq") eq_refl) as (p & E & _ & H). assert (p = "0x1"); [|now subst]. clear -E.
    destruct p as [|? [|? [|? [|? [|? [|? p]]]]]]; try discriminate E; cbn in E; injection E; intros; subst; try discriminate; try reflexivity.
  - destruct (proj1 (strto_longest "0xg" (false, Dec 0 0) "xg") eq_refl) as (p & E & _ & H). assert (p = "0"); [|now subst]. clear -E.
    destruct p as [|? [|? [|? [|? p]]]]; try discriminate E; cbn in E; injection E; intros; subst; try discriminate; try reflexivity.
Qed.
Example C76_case_zero : forallb (fun k => forallb (fun neg => negb (snd (ieee_round k (neg, Dec 0 0)))) [true; false]) [F32; F64; F80] = true.
Proof. vm_compute. reflexivity. Qed.
Example C76_case_hex : snd (shim_read ieee_round ieee_through_float F64 "0x1.8p1" false) = FcOk (VFloat (FFin false 3 0)) "" /\ std_from_chars ieee_round F64 "0x1.8p1" = FcOk (VFloat (FZero false)) "x1.8p1".
Proof. vm_compute. auto. Qed.
