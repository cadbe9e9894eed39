(** The floating point types of the machine (IEEE 754 binary32 and binary64, x87 extended), as sets of numbers. *)
From Coq Require Import QArith Qabs.
From Verif Require Import Base FloatNum Values Charconv.
Local Open Scope Z_scope.

(** bits of a mantissa, exponent of the smallest number, exponent of the first power of two above all numbers *)
Definition format (k : fkind) : Z * Z * Z :=
  match k with F32 => (24, -149, 128) | F64 => (53, -1074, 1024) | F80 => (64, -16445, 16384) end.
Definition bits (k : fkind) : Z := fst (fst (format k)).
Definition least (k : fkind) : Z := snd (fst (format k)).
Definition top (k : fkind) : Z := snd (format k).

(** the numbers of a type that are not negative, without a largest one *)
Definition grid (k : fkind) (y : Q) : Prop :=
  exists m e, 0 <= m < 2 ^ bits k /\ least k <= e /\ (y == inject_Z m * 2 ^ e)%Q.
(** the last bit of the mantissa is zero *)
Definition grid_even (k : fkind) (y : Q) : Prop :=
  exists m e, 0 <= m < 2 ^ bits k /\ least k <= e /\ (2 ^ (bits k - 1) <= m \/ e = least k) /\ (y == inject_Z m * 2 ^ e)%Q /\ Z.even m = true.

(** y is the number of the type next to x; the even one of two *)
Definition rounds_to (k : fkind) (x y : Q) : Prop :=
  grid k y /\ (forall z, grid k z -> Qabs (x - y) <= Qabs (x - z))%Q /\
  forall z, grid k z -> ~ (z == y)%Q -> (Qabs (x - y) == Qabs (x - z))%Q -> grid_even k y.

(** from here on numbers become infinite: halfway between the largest number and the next power of two *)
Definition too_large (k : fkind) (x : Q) : Prop := (2 ^ top k - 2 ^ (top k - bits k - 1) <= x)%Q.
(** up to here numbers become zero: half the smallest number *)
Definition too_small (k : fkind) (x : Q) : Prop := (x <= 2 ^ (least k - 1))%Q.
(** all bits of the mantissa are available *)
Definition normal (k : fkind) (x : Q) : Prop := (2 ^ (least k + bits k - 1) <= x)%Q.

(** what is denoted, without the sign *)
Definition mag_value (m : mag) : Q :=
  match m with Dec m e => inject_Z m * 10 ^ e | Hexa m e => inject_Z m * 2 ^ e | _ => 0 end.
Definition mag_finite (m : mag) : Prop := match m with Dec _ _ | Hexa _ _ => True | _ => False end.

(** magnitude and sign of a number *)
Definition abs_value (x : fnum) : Q := Qabs (fvalue x).

(** ** Order and types *)

(** x <= y; NaN is not comparable *)
Definition float_le (x y : fnum) : Prop :=
  match x, y with
  | FNan, _ | _, FNan => False
  | FInf true, _ | _, FInf false => True
  | FInf false, _ | _, FInf true => False
  | _, _ => (fvalue x <= fvalue y)%Q
  end.

(** x is a number of type k, written with an odd mantissa *)
Definition of_kind (k : fkind) (x : fnum) : Prop :=
  match x with
  | FFin _ m e => Z.odd (Zpos m) = true /\ grid k (inject_Z (Zpos m) * 2 ^ e) /\ (inject_Z (Zpos m) * 2 ^ e < 2 ^ top k)%Q
  | _ => True
  end.

(** z is x without the digits behind the point *)
Definition cut_off (x : Q) (z : Z) : Prop :=
  (0 <= x /\ inject_Z z <= x < inject_Z (z + 1))%Q \/ (x < 0 /\ inject_Z (z - 1) < x <= inject_Z z)%Q.

(** ** Conversion of values to type k *)

(** x > 0 with sign neg becomes y *)
Definition becomes (k : fkind) (neg : bool) (x : Q) (y : fnum) : Prop :=
  (too_large k x /\ y = FInf neg) \/ (~ too_large k x /\ too_small k x /\ y = FZero neg) \/
  (~ too_large k x /\ ~ too_small k x /\ exists m e, y = FFin neg m e /\ rounds_to k x (inject_Z (Zpos m) * 2 ^ e)).
(** floating point numbers and integers *)
Definition converts (k : fkind) (v : val) (y : fnum) : Prop :=
  match v with
  | VFloat (FFin neg m e) => becomes k neg (inject_Z (Zpos m) * 2 ^ e) y
  | VFloat x => y = x
  | VInt Z0 => y = FZero false
  | VInt (Zpos m) => becomes k false (inject_Z (Zpos m)) y
  | VInt (Zneg m) => becomes k true (inject_Z (Zpos m)) y
  | _ => False
  end.
Definition is_number (v : val) : Prop := match v with VFloat _ | VInt _ => True | _ => False end.
