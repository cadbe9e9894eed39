(** Tests, not proofs: expectations about floating point options of test/unit/parser/format_parse_test.cpp and
    format_parse_validators_test.cpp, evaluated in the model. *)
From Verif Require Import Base Fs FloatNum Values Validators ValidatorsHelp FormatParse Parser Charconv Ieee Samples HelpSamples Conformance ConformanceHelp ConformanceValidators
  FloatBack.

Definition double : vty := Scalar (float_ty F64 "double" "" "").
(** a literal *)
Definition lit (m e : Z) : val := VFloat (round_exact F64 (false, Dec m e)).
Definition zero : val := VFloat (FZero false).

(** format_parse_test.cpp 358-377 *)
Example parse_success_double_option :
  passes ["-d"; "6.0221418e23"] [zero] [opt 0 double (sh "d"); parses Fine] [lit 60221418 16] &&
  passes ["-d"; "12.457"; "0.123"] [zero; zero] [opt 0 double (sh "d"); (CAddPositional 1 double none, Fine); parses Fine] [lit 12457 (-3); lit 123 (-3)] = true.
Proof. vm_compute. reflexivity. Qed.

(** 430-446 *)
Example parse_error_double_option :
  passes ["-i"; "abc"] [zero] [opt 0 double (sh "d"); parses Error] [zero] &&
  passes ["-d"; "12.457a"] [zero] [opt 0 double (sh "d"); parses Error] [lit 12457 (-3)] = true.
Proof. vm_compute. reflexivity. Qed.

(** format_parse_validators_test.cpp 606-610, 658-662 *)
Example arithmetic_range_validator_double :
  passes ["-i"; "10.9"] [zero] [opt_by 0 double "i" (range 1 20); parses Fine] [lit 109 (-1)] &&
  passes ["-i"; "0.9"] [zero] [opt_by 0 double "i" (range 1 20); parses (Throws KValidation)] [lit 9 (-1)] = true.
Proof. vm_compute. reflexivity. Qed.

(** 956-996 *)
Example chaining_validators_common_type_double :
  let max64 := 9223372036854775807%Z in
  let a := ValidValues (TInt true 64) (map VInt [1; 2; 3; max64]%Z) in let b := ValidValues (TInt false 64) (map VInt [4; max64]%Z) in
  let c := ValidFloatValues F64 [of_int F64 4; of_int F64 max64] in let all := ValidBoth (ValidBoth a b) c in
  feqb (of_int F64 max64) (of_int F64 (max64 - 1)) && accepts a disk (VInt max64) && accepts b disk (VInt max64) && accepts c disk (VFloat (of_int F64 max64)) && accepts all disk (VInt max64) &&
  rejects a disk (VInt (max64 - 1)) && rejects b disk (VInt (max64 - 1)) && accepts c disk (VFloat (of_int F64 (max64 - 1))) && rejects all disk (VInt (max64 - 1)) = true.
Proof. vm_compute. reflexivity. Qed.
