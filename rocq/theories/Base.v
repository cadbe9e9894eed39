(** Basic vocabulary shared by all model files: byte strings, exceptions and outcomes.
    Nothing in this file models sharg code by itself; the string functions mirror the
    [std::string] members the code uses. *)
From Coq Require Export String Ascii List Bool Arith ZArith NArith Lia.
From Coq Require Import DecimalString.
Export ListNotations.
Open Scope string_scope.
Open Scope list_scope.
Open Scope bool_scope.

(** ** Characters and strings (a C++ [std::string] is a finite sequence of bytes) *)

Notation chr := ascii.

Definition nul : chr := Ascii.zero.
Definition nl : string := String "010" EmptyString.

Definition str1 (c : chr) : string := String c EmptyString.

(** concatenation of strings (list concatenation keeps [++]) *)
Notation "a +s+ b" := (String.append a b) (at level 60, right associativity) : string_scope.

(** [s.substr(n)] for [n <= s.size()] *)
Fixpoint sdrop (n : nat) (s : string) : string :=
  match n, s with
  | O, _ => s
  | S n', String _ s' => sdrop n' s'
  | S _, EmptyString => EmptyString
  end.

(** [s.substr(0, n)] *)
Fixpoint stake (n : nat) (s : string) : string :=
  match n, s with
  | O, _ => EmptyString
  | S n', String c s' => String c (stake n' s')
  | S _, EmptyString => EmptyString
  end.

(** [s.find(c)]: index of the first occurrence *)
Fixpoint sfind (c : chr) (s : string) : option nat :=
  match s with
  | EmptyString => None
  | String d s' => if Ascii.eqb c d then Some O else option_map S (sfind c s')
  end.

(** [s.erase(n, 1)] *)
Fixpoint erase_at (n : nat) (s : string) : string :=
  match n, s with
  | O, String _ s' => s'
  | S n', String c s' => String c (erase_at n' s')
  | _, EmptyString => EmptyString
  end.

(** [s.starts_with(p)] *)
Definition starts_with (p s : string) : bool := String.prefix p s.

Definition is_empty (s : string) : bool :=
  match s with EmptyString => true | _ => false end.

(** [s[i]] for [i < s.size()] *)
Definition snth (n : nat) (s : string) : option chr := String.get n s.

(** all characters satisfy [f] *)
Fixpoint sall (f : chr -> bool) (s : string) : bool :=
  match s with EmptyString => true | String c s' => f c && sall f s' end.

Fixpoint scontains (c : chr) (s : string) : bool :=
  match s with EmptyString => false | String d s' => Ascii.eqb c d || scontains c s' end.

Fixpoint srev_app (s acc : string) : string :=
  match s with EmptyString => acc | String c s' => srev_app s' (String c acc) end.

(** character repetition, [std::string(n, c)] *)
Fixpoint srep (n : nat) (c : chr) : string :=
  match n with O => EmptyString | S n' => String c (srep n' c) end.

Definition mem (s : string) (l : list string) : bool := existsb (String.eqb s) l.

Definition chars (s : string) : list chr := list_ascii_of_string s.
Definition of_chars (l : list chr) : string := string_of_list_ascii l.

Fixpoint sconcat (l : list string) : string :=
  match l with [] => EmptyString | s :: l' => s +s+ sconcat l' end.

(** ** Character classes of the "C" locale *)

Definition code (c : chr) : N := N_of_ascii c.

Definition in_range (lo hi c : chr) : bool :=
  (N.leb (code lo) (code c) && N.leb (code c) (code hi))%N.

Definition is_digit (c : chr) : bool := in_range "0" "9" c.
Definition is_lower (c : chr) : bool := in_range "a" "z" c.
Definition is_upper (c : chr) : bool := in_range "A" "Z" c.
Definition is_alnum (c : chr) : bool := is_lower c || is_upper c || is_digit c.

(** [isspace] in the "C" locale: space, \t, \n, \v, \f, \r *)
Definition is_space (c : chr) : bool :=
  (N.eqb (code c) 32 || (N.leb 9 (code c) && N.leb (code c) 13))%N.

Definition digit_val (c : chr) : Z := Z.of_N (code c) - 48.

(** ** Decimal printing, [std::to_string] of an integer *)

Definition Z_to_string (z : Z) : string := NilZero.string_of_int (Z.to_int z).
Definition nat_to_string (n : nat) : string := Z_to_string (Z.of_nat n).

(** ** Exceptions (include/sharg/exceptions.hpp 39-209; all sharg classes derive from
    [parser_error]).  The last three are standard library exceptions that escape. *)

Inductive exn_kind :=
| KUnknownOption        (* unknown_option *)
| KTooMany              (* too_many_arguments *)
| KTooFew               (* too_few_arguments *)
| KRequiredMissing      (* required_option_missing *)
| KMultiple             (* option_declared_multiple_times *)
| KUserInput            (* user_input_error *)
| KValidation           (* validation_error *)
| KDesign               (* design_error *)
| KStdOutOfRange        (* std::out_of_range *)
| KStdOther.            (* any other exception that is not a parser_error *)

Record exn := Exn { ekind : exn_kind; emsg : string }.

(** documented exceptions, i.e. those derived from [parser_error] *)
Definition is_parser_error (k : exn_kind) : bool :=
  match k with KStdOutOfRange | KStdOther => false | _ => true end.

(** ** Outcomes of running a piece of code *)

Inductive res (A : Type) : Type :=
| Ret (a : A)            (* normal return *)
| Throw (e : exn)        (* exception propagates to the caller *)
| Exit (out : string)    (* std::exit(EXIT_SUCCESS) after printing [out] *)
| AssertFail             (* failed assert(), only in builds without NDEBUG *)
| UB                     (* undefined behaviour *)
| OutOfFuel.             (* the model's loop bound was too small *)
Arguments Ret {A}. Arguments Throw {A}. Arguments Exit {A}.
Arguments AssertFail {A}. Arguments UB {A}. Arguments OutOfFuel {A}.

(** Computations with state that is kept when an exception is thrown. *)
Definition M (St A : Type) : Type := St -> St * res A.

Definition ret {St A} (a : A) : M St A := fun s => (s, Ret a).
Definition throw {St A} (k : exn_kind) (m : string) : M St A := fun s => (s, Throw (Exn k m)).
Definition lift_res {A B} (r : res A) (k : A -> res B) : res B :=
  match r with
  | Ret a => k a
  | Throw e => Throw e
  | Exit o => Exit o
  | AssertFail => AssertFail
  | UB => UB
  | OutOfFuel => OutOfFuel
  end.
Definition bind {St A B} (m : M St A) (k : A -> M St B) : M St B :=
  fun s => match m s with
           | (s', Ret a) => k a s'
           | (s', Throw e) => (s', Throw e)
           | (s', Exit o) => (s', Exit o)
           | (s', AssertFail) => (s', AssertFail)
           | (s', UB) => (s', UB)
           | (s', OutOfFuel) => (s', OutOfFuel)
           end.

Declare Scope monad_scope.
Notation "'do' x <- m ; k" := (bind m (fun x => k))
  (at level 200, x name, m at level 100, k at level 200) : monad_scope.
Notation "m ;; k" := (bind m (fun _ => k))
  (at level 100, k at level 200, right associativity) : monad_scope.
Open Scope monad_scope.

Definition get {St} : M St St := fun s => (s, Ret s).
Definition put {St} (s : St) : M St unit := fun _ => (s, Ret tt).
Definition modify {St} (f : St -> St) : M St unit := fun s => (f s, Ret tt).

(** run a list of calls in order, [for (auto && f : calls) f();] *)
Fixpoint mapM_ {St A} (f : A -> M St unit) (l : list A) : M St unit :=
  match l with
  | [] => ret tt
  | a :: l' => f a ;; mapM_ f l'
  end.

Definition is_ret {A} (r : res A) : bool := match r with Ret _ => true | _ => false end.
