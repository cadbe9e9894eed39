(** What a stored time means. *)
From Coq Require Import QArith.
From Verif Require Import Base FloatNum Values Charconv FloatSpec Ieee.
Local Open Scope Z_scope.

(** the double a line stands for: that of the number it starts with if there is one within the range, else 0.
    (What [ieee_round] is: C87.) *)
Definition stands_for (line : string) (d : fnum) : Prop :=
  (exists p x, longest line p /\ float_text p x /\ ieee_round F64 x = (VFloat d, false)) \/
  (d = FZero false /\ forall p x, longest line p -> float_text p x -> snd (ieee_round F64 x) = true).

(** differences from here on are rounded to one day: half a unit of the last bit of 86400 *)
Definition middle : Q := (86400 - 2 ^ (-37))%Q.
(** less than a day has passed since d, in seconds *)
Definition younger (now : Z) (d : fnum) : Prop :=
  match d with FNan => False | FInf s => s = false | _ => (inject_Z now - fvalue d < middle)%Q end.
