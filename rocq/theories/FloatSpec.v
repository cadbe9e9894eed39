(** Texts of floating point numbers, as a grammar. *)
From Verif Require Import Base Values Validators ValuesSpec Charconv.

(** digits, possibly with a point: the text, all digits, the number of digits behind the point *)
Inductive mantissa_text : string -> string -> nat -> Prop :=
| mantissa_whole i : digits i -> mantissa_text i i 0
| mantissa_point i f : digits (i +s+ f) -> mantissa_text (i +s+ "." +s+ f) (i +s+ f) (String.length f).

Inductive exponent_text : string -> Z -> Prop :=
| exponent_none : exponent_text "" 0
| exponent_plain c d : c = "e"%char \/ c = "E"%char -> digits d -> exponent_text (String c d) (weight d)
| exponent_plus c d : c = "e"%char \/ c = "E"%char -> digits d -> exponent_text (String c ("+" +s+ d)) (weight d)
| exponent_minus c d : c = "e"%char \/ c = "E"%char -> digits d -> exponent_text (String c ("-" +s+ d)) (- weight d).

(** equal but for the case of letters; [w] in lower case *)
Definition spells (w s : string) : Prop := map to_lower (chars s) = chars w.

Inductive unsigned_text : string -> mag -> Prop :=
| text_number m ds n x e : mantissa_text m ds n -> exponent_text x e ->
    unsigned_text (m +s+ x) (Dec (weight ds) (e - Z.of_nat n))
| text_inf s : spells "inf" s \/ spells "infinity" s -> unsigned_text s Infinite
| text_nan s : spells "nan" s -> unsigned_text s NotANumber
| text_payload s p : spells "nan" s -> sall (fun c => is_alnum c || Ascii.eqb c "_") p = true ->
    unsigned_text (s +s+ "(" +s+ p +s+ ")") NotANumber.

(** a text denotes a number *)
Inductive float_text : string -> exact -> Prop :=
| float_plain s x : unsigned_text s x -> float_text s (false, x)
| float_minus s x : unsigned_text s x -> float_text ("-" +s+ s) (true, x).

(** [p] is the longest beginning of [s] that denotes a number *)
Definition longest (s p : string) : Prop :=
  (exists r, s = p +s+ r) /\ (exists x, float_text p x) /\
  forall p' r' x', s = p' +s+ r' -> float_text p' x' -> String.length p' <= String.length p.

(** a hexadecimal number with prefix, as read by strtod: 0x, then a digit, possibly behind a point *)
Definition hex_digits : list chr := chars "0123456789abcdefABCDEF".
Definition hex_prefixed (s : string) : Prop :=
  exists sg z c q, (sg = "" \/ sg = "-") /\ spells "0x" z /\ In c hex_digits /\
    (s = sg +s+ z +s+ String c q \/ s = sg +s+ z +s+ "." +s+ String c q).

(** the value of hexadecimal digits *)
Definition digit16 (c : chr) : Z :=
  if is_digit c then Z.of_N (code c) - 48 else if is_upper c then Z.of_N (code c) - 55 else Z.of_N (code c) - 87.
Fixpoint weight16 (s : string) : Z :=
  match s with
  | EmptyString => 0
  | String c s' => digit16 c * 16 ^ Z.of_nat (String.length s') + weight16 s'
  end.

(** the number [s] starts with is not changed by a conversion to float *)
Definition fits_float (round : fkind -> exact -> val * bool) (through_float : val -> val) (k : fkind) (s : string) : Prop :=
  k = F32 \/ forall p x v, longest s p -> float_text p x -> round k x = (v, false) -> through_float v = v.

Definition no_nul (s : string) : Prop := sall (fun c => negb (Ascii.eqb c nul)) s = true.

Definition range_result (r : fc_res) : bool := match r with FcRange => true | _ => false end.
