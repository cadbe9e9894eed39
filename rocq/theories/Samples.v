(** Concrete interfaces and environments used by the examples beside the theorems. *)
From Verif Require Import Base Fs Values Validators FormatParse Invocation.

Definition cfg (s : chr) (l : string) : config :=
  {| c_short := s; c_long := l; c_desc := "desc"; c_default_message := ""; c_advanced := false; c_hidden := false;
     c_required := false; c_validator := default_validator; c_vhelp := "" |}.
Definition required (c : config) : config :=
  {| c_short := c_short c; c_long := c_long c; c_desc := c_desc c; c_default_message := c_default_message c;
     c_advanced := c_advanced c; c_hidden := c_hidden c; c_required := true; c_validator := c_validator c;
     c_vhelp := c_vhelp c |}.
Definition validated (v : validator) (c : config) : config :=
  {| c_short := c_short c; c_long := c_long c; c_desc := c_desc c; c_default_message := c_default_message c;
     c_advanced := c_advanced c; c_hidden := c_hidden c; c_required := c_required c; c_validator := v;
     c_vhelp := c_vhelp c |}.

Definition int32 : ety := TInt true 32.
Definition uint8 : ety := TInt false 8.

Definition no_fs : fs := fun _ => None.

(** variables 0..4: int, list of int, flag, flag, string; 5: list of strings *)
Definition vars0 : store := fun x =>
  match x with
  | 0 => VInt 1 | 1 => VList [VInt 7; VInt 8] | 2 => VBool false | 3 => VBool false
  | 4 => VStr "old" | 5 => VList [VStr "rest"] | _ => VOther "unbound"
  end.

(** an int option, a list option, two flags, a string positional, a list positional *)
Definition sample : list decl :=
  [DOption 0 (Scalar int32) (cfg "i" "int");
   DOption 1 (ListOf int32) (cfg "l" "list");
   DFlag 2 (cfg "a" "all");
   DFlag 3 (cfg "b" "brief");
   DPositional 4 (Scalar TString) (cfg nul "");
   DPositional 5 (ListOf TString) (cfg nul "")].

(** -ab -i5 word --list 1 -- -x y *)
Definition sample_inv : invocation :=
  {| items := [ICluster "ab"; IOpt (IdShort "i") Joined "5"; IWord "word"; IOpt (IdLong "list") Separate "1";
               IOpt (IdLong "list") Equals "-2"];
     tail := Some ["-x"; "y"] |}.
