(** version_check.hpp 461-471: the age of the stored answer, computed with doubles. *)
From Verif Require Import Base FloatNum Values Charconv Ieee VersionCheck.
Local Open Scope Z_scope.

(** [x - y]: the exact difference, rounded (IEEE 754) *)
Definition fsub (k : fkind) (x y : fnum) : fnum :=
  match x, y with
  | FNan, _ | _, FNan => FNan
  | FInf a, FInf b => if Bool.eqb a b then FNan else FInf a
  | FInf a, _ => FInf a
  | _, FInf b => FInf (negb b)
  | _, _ =>
      let u := Z.min (exponent x) (exponent y) in
      match numerator x * 2 ^ (exponent x - u) - numerator y * 2 ^ (exponent y - u) with
      | Z0 => FZero (match x, y with FZero true, FZero false => true | _, _ => false end)
      | Zpos m => let '(n, d) := fraction 2 (Zpos m) u in ieee k false n d
      | Zneg m => let '(n, d) := fraction 2 (Zpos m) u in ieee k true n d
      end
  end.
(** [x < y] *)
Definition fltb (x y : fnum) : bool := fleb x y && negb (fleb y x).

(** 467-468: [d_time] keeps its initial value 0 if nothing is read *)
Definition time_read (r : fc_res) : fnum := match r with FcOk (VFloat x) _ => x | _ => FZero false end.
(** 462-471 *)
Definition time_diff (read : string -> fc_res) (line : string) (now : Z) : fnum :=
  fsub F64 (of_int F64 now) (time_read (read line)).
(** 311 *)
Definition recent (read : string -> fc_res) (line : string) (now : Z) : bool :=
  fltb (time_diff read line now) (of_int F64 86400).

(** with the function of the standard library *)
Definition library_recent : string -> Z -> bool := recent (std_from_chars ieee_round F64).
(** with the replacement in sharg/std/charconv; [errno]: a number was out of range before, in this process *)
Definition shim_recent (errno : bool) : string -> Z -> bool :=
  recent (fun s => snd (shim_read ieee_round ieee_through_float F64 s errno)).
