(** Floating point numbers: values, comparison, rounding of exact numbers (IEEE 754) and printing by the C library.
    The functions of the standard library used by the code are modelled here; no file of /repo corresponds. *)
From Coq Require Import QArith.
From Verif Require Import Base.
Local Open Scope Z_scope.

(** m * 2^e; equal numbers are equal terms if the mantissas are odd ([fin]).  The sign and the payload of NaN are left
    out. *)
Inductive fnum := FZero (neg : bool) | FInf (neg : bool) | FNan | FFin (neg : bool) (m : positive) (e : Z).

Fixpoint odd_part (m : positive) (e : Z) : positive * Z := match m with xO m => odd_part m (e + 1) | _ => (m, e) end.
Definition fin (neg : bool) (m : positive) (e : Z) : fnum := let '(m, e) := odd_part m e in FFin neg m e.

(** numerator and denominator of m * b^e *)
Definition fraction (b m e : Z) : Z * Z := if 0 <=? e then (m * b ^ e, 1) else (m, b ^ (- e)).

(** ** Comparison: [operator<=] *)
Definition numerator (x : fnum) : Z := match x with FFin neg m _ => if neg then Zneg m else Zpos m | _ => 0 end.
Definition exponent (x : fnum) : Z := match x with FFin _ _ e => e | _ => 0 end.
Definition fleb (x y : fnum) : bool :=
  match x, y with
  | FNan, _ | _, FNan => false
  | FInf true, _ | _, FInf false => true
  | FInf false, _ | _, FInf true => false
  | _, _ => let k := Z.min (exponent x) (exponent y) in
            numerator x * 2 ^ (exponent x - k) <=? numerator y * 2 ^ (exponent y - k)
  end.
(** [operator==] *)
Definition feqb (x y : fnum) : bool := fleb x y && fleb y x.

(** ** The integer next to n / d; the even one of two *)
Definition nearest (n d : Z) : Z :=
  let q := n / d in
  match 2 * (n mod d) ?= d with Lt => q | Gt => q + 1 | Eq => if Z.even q then q else q + 1 end.

(** number of digits of z to the base b *)
Fixpoint places (fuel : nat) (b z : Z) : Z :=
  match fuel with
  | O => 1
  | S fuel => if z <? b then 1 else 1 + places fuel b (z / b)
  end.
Definition width (b z : Z) : Z := places (Z.to_nat (Z.log2 z)) b z.
(** the exponent X with b^X <= n/d < b^(X+1) *)
Definition magnitude (b n d : Z) : Z :=
  if d <=? n then width b (n / d) - 1 else - width b ((d - 1) / n).

(** the integer next to n / (d * b^u) *)
Definition nearest_unit (b n d u : Z) : Z := if 0 <=? u then nearest n (d * b ^ u) else nearest (n * b ^ (- u)) d.

(** ** Rounding n / d > 0 to nearest even: [p] bits, smallest exponent [emin] of a mantissa; no upper limit *)
Definition round_bits (p emin n d : Z) : Z * Z :=
  let u := Z.max emin (magnitude 2 n d - p + 1) in (nearest_unit 2 n d u, u).

(** ** The types of the machine *)

(** float, double, long double *)
Inductive fkind := F32 | F64 | F80.
(** bits of the mantissa, maximal exponent *)
Definition precision (k : fkind) : Z * Z := match k with F32 => (24, 128) | F64 => (53, 1024) | F80 => (64, 16384) end.

(** n / d > 0; numbers that are too large become infinite, numbers that are too small become zero *)
Definition ieee (k : fkind) (neg : bool) (n d : Z) : fnum :=
  let '(p, emax) := precision k in
  let '(q, u) := round_bits p (3 - emax - p) n d in
  match q with
  | Zpos m => if (emax <? u) || (2 ^ (emax - u) <=? q) then FInf neg else fin neg m u
  | _ => FZero neg
  end.

(** conversion of a number of another type.  (A finite number too large for the type: undefined behaviour in C++,
    infinite with IEEE 754 arithmetic.) *)
Definition to_kind (k : fkind) (x : fnum) : fnum :=
  match x with FFin neg m e => let '(n, d) := fraction 2 (Zpos m) e in ieee k neg n d | _ => x end.
(** conversion of an integer *)
Definition of_int (k : fkind) (z : Z) : fnum :=
  match z with Z0 => FZero false | Zpos m => ieee k false (Zpos m) 1 | Zneg m => ieee k true (Zpos m) 1 end.
(** conversion to an integer: the part before the point *)
Definition truncate (x : fnum) : option Z :=
  match x with
  | FZero _ => Some 0
  | FFin neg m e => let '(n, d) := fraction 2 (Zpos m) e in Some (if neg then - (n / d) else n / d)
  | _ => None
  end.

(** ** %g, i.e. [stream << x] without manipulators: six significant digits (C11, 7.21.6.1) *)

(** the six digits and the exponent of the first *)
Definition six (n d : Z) : Z * Z :=
  let X := magnitude 10 n d in
  let q := nearest_unit 10 n d (X - 5) in
  if q =? 1000000 then (100000, X + 1) else (q, X).

(** [strip s]: without zeros at the end *)
Fixpoint strip (s : string) : string :=
  match s with
  | EmptyString => EmptyString
  | String c s' => let t := strip s' in if Ascii.eqb c "0" && is_empty t then EmptyString else String c t
  end.
Definition point (f : string) : string := if is_empty f then EmptyString else String "." f.
Fixpoint zeros (n : nat) : string := match n with O => EmptyString | S n => String "0" (zeros n) end.

(** the last w digits of z *)
Fixpoint fixed (w : nat) (z : Z) : string :=
  match w with O => EmptyString | S w => fixed w (z / 10) +s+ str1 (ascii_of_N (Z.to_N (48 + z mod 10))) end.

Definition layout (q X : Z) : string :=
  let s := fixed 6 q in
  if (-4 <=? X) && (X <? 6) then
    if 0 <=? X then stake (Z.to_nat (X + 1)) s +s+ point (strip (sdrop (Z.to_nat (X + 1)) s))
    else "0." +s+ zeros (Z.to_nat (- X - 1)) +s+ strip s
  else stake 1 s +s+ point (strip (sdrop 1 s)) +s+ "e" +s+ (if X <? 0 then "-" else "+") +s+
       (if Z.abs X <? 10 then "0" else "") +s+ Z_to_string (Z.abs X).

Definition sign (neg : bool) : string := if neg then "-" else "".

Definition print_g (x : fnum) : string :=
  match x with
  | FZero neg => sign neg +s+ "0"
  | FInf neg => sign neg +s+ "inf"
  | FNan => "nan"
  | FFin neg m e => let '(n, d) := fraction 2 (Zpos m) e in let '(q, X) := six n d in sign neg +s+ layout q X
  end.

(** ** %f, i.e. [std::to_string]: six digits behind the point.  (libstdc++: vsnprintf with "%f".) *)
Definition print_f (x : fnum) : string :=
  match x with
  | FZero neg => sign neg +s+ "0.000000"
  | FInf neg => sign neg +s+ "inf"
  | FNan => "nan"
  | FFin neg m e =>
      let '(n, d) := fraction 2 (Zpos m) e in
      let q := nearest_unit 10 n d (-6) in
      sign neg +s+ Z_to_string (q / 1000000) +s+ "." +s+ fixed 6 q
  end.

(** exact value, for specifications *)
Definition fvalue (x : fnum) : Q := match x with FFin _ _ e => (inject_Z (numerator x) * (2 ^ e))%Q | _ => 0%Q end.
