(** Specification of what an argument text denotes for each type of variable, independent of the
    conversion code. *)
From Verif Require Import Base Values.

(** ** Decimal numerals *)

Definition digits (s : string) : Prop := s <> EmptyString /\ sall is_digit s = true.

(** positional value: a digit counts ten to the number of digits behind it *)
Fixpoint weight (s : string) : Z :=
  match s with
  | EmptyString => 0
  | String c s' => (digit_val c * 10 ^ Z.of_nat (String.length s') + weight s')%Z
  end.

(** [numeral sg s z]: the text [s] denotes the integer [z]; a sign only for signed types *)
Inductive numeral (sg : bool) : string -> Z -> Prop :=
| num_pos s : digits s -> numeral sg s (weight s)
| num_neg s : sg = true -> digits s -> numeral sg (String "-" s) (- weight s)%Z.

Definition in_type (sg : bool) (bits : N) (z : Z) : Prop :=
  if sg then (- 2 ^ (Z.of_N bits - 1) <= z < 2 ^ (Z.of_N bits - 1))%Z
  else (0 <= z < 2 ^ Z.of_N bits)%Z.

(** ** Lexicographic order of byte strings *)

Inductive lex_lt : string -> string -> Prop :=
| lex_end p c s : lex_lt p (p +s+ String c s)
| lex_diff p c d s t : (code c < code d)%N -> lex_lt (p +s+ String c s) (p +s+ String d t).

(** order of the names in the message: by value, then by name *)
Definition entry_lt (x y : string * Z) : Prop :=
  (snd x < snd y)%Z \/ (snd x = snd y /\ lex_lt (fst x) (fst y)).

(** ** Denotation *)

Definition blanks (s : string) : Prop := sall is_space s = true.
(** what stream extraction takes as one unquoted word *)
Definition plain_word (s : string) : Prop :=
  s <> EmptyString /\ sall (fun c => negb (is_space c)) s = true /\ snth 0 s <> Some """"%char.

(** [means e s v]: for a variable of type [e] the text [s] denotes [v].  For floating point
    numbers and user defined types this is what the standard library's or the user's function
    says. *)
Definition means (e : ety) (old : val) (s : string) (v : val) : Prop :=
  match e with
  | TInt sg bits => exists z, v = VInt z /\ numeral sg s z /\ in_type sg bits z
  | TChar => exists z, v = VInt z /\ numeral true s z /\ in_type true 8 z
  | TBool => (v = VBool true /\ (s = "1" \/ s = "true")) \/ (v = VBool false /\ (s = "0" \/ s = "false"))
  | TString => v = VStr s
  | TPath => exists w b, s = b +s+ w /\ blanks b /\ plain_word w /\ v = VPath w
  | TEnum _ names => exists z, v = VEnum z /\ In (s, z) names
  | TFloat _ _ _ rd => rd s = FcOk v ""
  | TStream _ rd _ => rd old s = (v, false, true)
  end.

(** names of an enumeration are the keys of a map *)
Definition enum_ok (e : ety) : Prop :=
  match e with TEnum _ names => NoDup (map fst names) /\ names <> [] | _ => True end.

(** types whose values have a range *)
Definition numeric (e : ety) : bool := match e with TInt _ _ | TChar | TFloat _ _ _ _ => true | _ => false end.

(** how a type is called on help pages and in messages *)
Definition spoken_type (e : ety) : string :=
  match e with
  | TInt sg bits => (if sg then "signed " else "unsigned ") +s+ Z_to_string (Z.of_N bits) +s+ " bit integer"
  | TChar => "char"
  | TBool => "bool"
  | TString => "std::string"
  | TPath => "std::filesystem::path"
  | TEnum n _ | TFloat n _ _ _ | TStream n _ _ => n
  end.
