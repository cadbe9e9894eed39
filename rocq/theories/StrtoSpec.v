(** The numbers strtof, strtod and strtold read, as a grammar (C11, 7.22.1.3): those of FloatSpec.v,
    hexadecimal ones, blanks and a sign in front. *)
From Verif Require Import Base Values Validators ValuesSpec Charconv FloatSpec.

Definition hexes (s : string) : Prop := s <> EmptyString /\ forall c, In c (chars s) -> In c hex_digits.

Inductive power_text : string -> Z -> Prop :=
| power_none : power_text "" 0
| power_plain c d : c = "p"%char \/ c = "P"%char -> digits d -> power_text (String c d) (weight d)
| power_plus c d : c = "p"%char \/ c = "P"%char -> digits d -> power_text (String c ("+" +s+ d)) (weight d)
| power_minus c d : c = "p"%char \/ c = "P"%char -> digits d -> power_text (String c ("-" +s+ d)) (- weight d).

(** a digit behind the point counts one sixteenth of the one in front of it *)
Inductive hex_text : string -> mag -> Prop :=
| hex_whole z i x e : spells "0x" z -> hexes i -> power_text x e -> hex_text (z +s+ i +s+ x) (Hexa (weight16 i) e)
| hex_point z i f x e : spells "0x" z -> hexes (i +s+ f) -> power_text x e ->
    hex_text (z +s+ i +s+ "." +s+ f +s+ x) (Hexa (weight16 (i +s+ f)) (e - 4 * Z.of_nat (String.length f))).

Definition blanks (s : string) : Prop := sall is_space s = true.

Inductive strto_text : string -> exact -> Prop :=
| strto_plain b s x : blanks b -> unsigned_text s x \/ hex_text s x -> strto_text (b +s+ s) (false, x)
| strto_plus b s x : blanks b -> unsigned_text s x \/ hex_text s x -> strto_text (b +s+ "+" +s+ s) (false, x)
| strto_minus b s x : blanks b -> unsigned_text s x \/ hex_text s x -> strto_text (b +s+ "-" +s+ s) (true, x).

(** [p] is the longest beginning of [s] that strtod reads *)
Definition longest_strto (s p : string) : Prop :=
  (exists r, s = p +s+ r) /\ (exists x, strto_text p x) /\
  forall p' r' x', s = p' +s+ r' -> strto_text p' x' -> String.length p' <= String.length p.

(** the number of the type that is left after [float tmp] *)
Definition stored (through_float : val -> val) (k : fkind) (v : val) : val :=
  match k with F32 => v | _ => through_float v end.
