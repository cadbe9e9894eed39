(** Rounding of exact numbers to the floating point types of the machine, round to nearest even (IEEE 754). *)
From Verif Require Import Base FloatNum Values Charconv.
Local Open Scope Z_scope.

Definition round_exact (k : fkind) (x : exact) : fnum :=
  let '(neg, m) := x in
  match m with
  | Infinite => FInf neg
  | NotANumber => FNan
  | Dec (Zpos n) e => let '(a, b) := fraction 10 (Zpos n) e in ieee k neg a b
  | Hexa (Zpos n) e => let '(a, b) := fraction 2 (Zpos n) e in ieee k neg a b
  | _ => FZero neg
  end.

Definition finite_mag (m : mag) : bool := match m with Dec (Zpos _) _ | Hexa (Zpos _) _ => true | _ => false end.
(** out of range: a finite number that becomes infinite or zero *)
Definition ieee_round (k : fkind) (x : exact) : val * bool :=
  let v := round_exact k x in
  (VFloat v, finite_mag (snd x) && match v with FFin _ _ _ => false | _ => true end).

Definition ieee_through_float (v : val) : val :=
  match v with
  | VFloat (FFin neg m e) => fst (ieee_round F32 (neg, Hexa (Zpos m) e))
  | _ => v
  end.
