(** Tests, not proofs: expectations of test/unit/std/charconv_float_test.cpp, evaluated for the replacement in sharg/std/charconv
    and for the function of the standard library, of charconv_int_test.cpp (base 10), and of
    test/unit/detail/safe_filesystem_entry_test.cpp. *)
From Verif Require Import Base Fs FloatNum Values Charconv Ieee.

(** EXPECT_FLOAT_EQ: equal as [float] (the test allows four units more) *)
Definition as_float (v : val) : fnum := match ieee_through_float v with VFloat x => x | _ => FNan end.
Definition close (v : val) (x : exact) : bool := feqb (as_float v) (as_float (fst (ieee_round F64 x))).
Definition is_nan (v : val) : bool := match v with VFloat FNan => true | _ => false end.
Definition kinds : list fkind := [F32; F64; F80].

(** the result, and the number of characters read, in a text with [behind] after [last] *)
Definition shim_fits (good : val -> bool) (n : nat) (behind : string) (k : fkind) (s : string) : bool :=
  match shim_from_chars ieee_round ieee_through_float k General s behind false with
  | (false, ShimOk v m) => good v && Nat.eqb m n
  | _ => false
  end.
Definition std_fits (good : val -> bool) (n : nat) (k : fkind) (s : string) : bool :=
  match std_from_chars ieee_round k s with FcOk v rest => good v && Nat.eqb (String.length s - String.length rest) n | _ => false end.
Definition reads (s : string) (n : nat) (neg : bool) (m e : Z) : bool :=
  forallb (fun k => shim_fits (fun v => close v (neg, Dec m e)) n (str1 nul) k s && std_fits (fun v => close v (neg, Dec m e)) n k s) kinds.
Definition reads_all (s : string) (neg : bool) (m e : Z) : bool := reads s (String.length s) neg m e.

(** 29-155 *)
Example real_numbers :
  reads_all "1234" false 1234 0 && reads_all "1.2e3" false 1200 0 && reads_all "1.2e-3" false 12 (-4) && reads_all "1.e2" false 100 0 &&
  reads_all "1." false 1 0 && reads_all ".2e3" false 200 0 && reads_all "2e3" false 2000 0 && reads_all "2" false 2 0 &&
  reads "4em" 1 false 4 0 && reads_all "-1.2e3" true 1200 0 && reads_all "-.3" true 3 (-1) && reads "1.2e" 3 false 12 (-1) && reads_all "0.0" false 0 0 &&
  reads "3.19abc" 4 false 319 (-2) = true.
Proof. vm_compute. reflexivity. Qed.

(** 140-147: read only until a certain position *)
Example certain_position :
  forallb (fun k => shim_fits (fun v => close v (false, Dec 319 (-2))) 4 ("4357" +s+ str1 nul) k "3.19") kinds = true.
Proof. vm_compute. reflexivity. Qed.

(** 160-198, 200-245 *)
Example infinity_and_nan :
  forallb (fun k => forallb (fun s => shim_fits (fun v => feqb (as_float v) (FInf false)) (String.length s) (str1 nul) k s
      && std_fits (fun v => feqb (as_float v) (FInf false)) (String.length s) k s) ["inf"; "infinity"; "INF"; "INFINITY"]
    && forallb (fun s => shim_fits is_nan (String.length s) (str1 nul) k s && std_fits is_nan (String.length s) k s) ["nan"; "NAN"; "nan(abc)"; "NAN(abc)"]) kinds = true.
Proof. vm_compute. reflexivity. Qed.

(** 247-264 *)
Example non_valid_strings :
  forallb (fun k => forallb (fun s => match shim_from_chars ieee_round ieee_through_float k General s (str1 nul) false with (false, ShimInvalid _) => true | _ => false end
      && match std_from_chars ieee_round k s with FcInvalid => true | _ => false end) ["e3"; "+1.2e3"]) kinds = true.
Proof. vm_compute. reflexivity. Qed.

(** 270-287 *)
Example to_chars : let r := shim_to_chars (print_g (round_exact F64 (false, Dec 12025 (-2)))) (repeat nul 10) in
  snd r = Some 6%nat /\ of_chars (firstn 6 (fst r)) = "120.25".
Proof. vm_compute. auto. Qed.

(** charconv_int_test.cpp *)
Definition integers : list (bool * N) := [(true, 8); (false, 8); (true, 16); (false, 16); (true, 32); (false, 32); (true, 64); (false, 64)]%N.
Definition int_is (s : string) (r : bool -> fc_res) : bool :=
  forallb (fun t => match from_chars_int (fst t) (snd t) s, r (fst t) with
                    | FcOk (VInt a) x, FcOk (VInt b) y => Z.eqb a b && String.eqb x y
                    | FcInvalid, FcInvalid | FcRange, FcRange => true
                    | _, _ => false
                    end) integers.
Definition int_reads (s : string) (z : Z) (rest : string) : bool := int_is s (fun _ => FcOk (VInt z) rest).

(** 28-59, 61-79, 81-92, 94-128, 149-168 *)
Example integers_base_10 :
  int_reads "123" 123 "" && int_reads "023" 23 "" && int_is "-123" (fun signed => if signed then FcOk (VInt (-123)) "" else FcInvalid) &&
  int_is "123000000000000000000" (fun _ => FcRange) && int_reads "1a3" 1 "a3" && int_reads "12a" 12 "a" && int_reads "1.3" 1 ".3" &&
  int_is "a13" (fun _ => FcInvalid) && int_is "+13" (fun _ => FcInvalid) = true.
Proof. vm_compute. reflexivity. Qed.

(** safe_filesystem_entry_test.cpp: the guard of a file, of a directory, and of nothing *)
Example guards : forallb (fun n => let f := upd (upd (fun _ => None) ["tmp"] (Some (NDir rw))) ["tmp"; "dummy.txt"] n in
  let '(g, ok) := guard_destroy f "/tmp/dummy.txt" in ok && negb (match lookup g "/tmp/dummy.txt" with Some _ => true | None => false end)
  && match lookup g "/tmp" with Some (NDir _) => true | _ => false end) [Some (NFile "" rw); Some (NDir rw); None] = true.
Proof. vm_compute. reflexivity. Qed.
