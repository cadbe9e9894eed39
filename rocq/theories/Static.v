(** What the compiler decides: which variables may be bound to options, which overload reads them, under which name their type is
    shown, and whether a validator looks at a value as a whole or at its elements.
    Models the constraints of include/sharg/concept.hpp, detail/concept.hpp, enumeration_names.hpp 86-238, parser.hpp 238-240 and
    322-324, the overload sets of detail/format_parse.hpp 288-439 and validators.hpp, and the type names of
    detail/format_base.hpp 37-105 and detail/type_name_as_string.hpp.  The rules of the language used here (overload resolution,
    ordering of constrained templates, implicit conversions) are those of C++20; x86-64 Linux (LP64). *)
From Verif Require Import Base Values.

(** ** Types *)

Inductive arith :=
| Bool | Char | SChar | UChar | WChar | Char8 | Char16 | Char32
| Short | UShort | Int | UInt | Long | ULong | LLong | ULLong | Float | Double | LDouble.

(** Types of bound variables, without qualifiers.  [Seq]: std::vector, std::deque, std::list.  [Class]: any other class or
    enumeration, with the facts the code asks for:
    [into]     is >> x is valid and returns the stream,
    [out]      os << x is valid without the help of the library,
    [custom]   sharg::custom::parsing<T>::enumeration_names exists,
    [adl]      enumeration_names(T) is found by argument dependent lookup,
    [range]    the value type if T is a forward range (also T::value_type; the references are references to it),
    [push]     x.push_back(value) is valid,
    [derived]  T is publicly derived from std::string,
    [number]   T converts implicitly to numbers (unscoped enumerations). *)
Inductive cty :=
| Arith (a : arith)
| Str
| Path
| Seq (t : cty)
| Class (name : string) (into out custom adl : bool) (range : option cty) (push derived number : bool).

Definition is_arith (t : cty) : bool := match t with Arith _ => true | _ => false end.
Definition is_str (t : cty) : bool := match t with Str => true | _ => false end.
Definition is_path (t : cty) : bool := match t with Path => true | _ => false end.

(** [std::ranges::range_value_t]; a path is a range of paths *)
Definition range_value (t : cty) : option cty :=
  match t with
  | Arith _ => None
  | Str => Some (Arith Char)
  | Path => Some Path
  | Seq u => Some u
  | Class _ _ _ _ _ r _ _ _ => r
  end.

(** concept.hpp 37-41: [istreamable].  There is no extraction of the other character types from a stream of [char]. *)
Definition istreamable (t : cty) : bool :=
  match t with
  | Arith (WChar | Char8 | Char16 | Char32) => false
  | Arith _ | Str | Path => true
  | Seq _ => false
  | Class _ into _ _ _ _ _ _ _ => into
  end.

(** enumeration_names.hpp 212-214 and 234-238; the deleted overload at 90 finds nothing *)
Definition named_enumeration (t : cty) : bool := match t with Class _ _ _ c a _ _ _ _ => c || a | _ => false end.

(** os << x; enumeration_names.hpp 248-261 adds the named enumerations.  The insertion of other character types is deleted. *)
Definition inserted (t : cty) : bool :=
  match t with
  | Arith (WChar | Char8 | Char16 | Char32) => false
  | Arith _ | Str | Path => true
  | Seq _ => false
  | Class _ _ out _ _ _ _ _ _ => out || named_enumeration t
  end.
(** concept.hpp 61-70: [ostreamable] *)
Definition ostreamable (t : cty) : bool := inserted t || match range_value t with Some r => inserted r | None => false end.
(** concept.hpp 90-92: [parsable] *)
Definition parsable (t : cty) : bool := (istreamable t && ostreamable t) || named_enumeration t.

(** the member function push_back *)
Definition has_push_back (t : cty) : bool := match t with Seq _ | Str => true | Class _ _ _ _ _ (Some _) p _ _ => p | _ => false end.
(** detail/concept.hpp 37-44: [is_container_option] *)
Definition container_option (t : cty) : bool := negb (is_str t) && has_push_back t.

(** parser.hpp 239 and 323: the constraint on the variable *)
Definition accepted (t : cty) : bool := parsable t || match range_value t with Some r => parsable r | None => false end.

(** ** Overload resolution *)

(** the atomic constraints of the templates, after normalisation *)
Inductive atom := AStream | ANames | ANoString | APush | AElements | AArith.
Definition atom_eqb (a b : atom) : bool :=
  match a, b with
  | AStream, AStream | ANames, ANames | ANoString, ANoString | APush, APush | AElements, AElements | AArith, AArith => true
  | _, _ => false
  end.

(** A candidate: rank of the conversion of its argument ([None]: there is none; 0 identity, 1 standard conversion, 2 user defined
    conversion), whether it is a template, its constraints, and whether they are satisfied. *)
Record candidate (W : Type) := Cand { what : W; number : nat; rank : option nat; template : bool; wants : list atom; satisfied : bool }.
Arguments Cand {W}. Arguments what {W}. Arguments number {W}. Arguments rank {W}. Arguments template {W}. Arguments wants {W}. Arguments satisfied {W}.

Definition viable {W} (c : candidate W) : bool := match rank c with Some _ => satisfied c | None => false end.
(** conjunctions: [subsumes p q] iff every constraint of [q] is one of [p] *)
Definition subsumes (p q : list atom) : bool := forallb (fun a => existsb (atom_eqb a) p) q.
(** [c] is better than [d]: better conversion; else a function against a template; else the more constrained template *)
Definition better {W} (c d : candidate W) : bool :=
  match rank c, rank d with
  | Some i, Some j =>
      Nat.ltb i j ||
      (Nat.eqb i j && ((negb (template c) && template d) ||
                       (template c && template d && subsumes (wants c) (wants d) && negb (subsumes (wants d) (wants c)))))
  | _, _ => false
  end.

Inductive choice (W : Type) := NoMatch | Ambiguous | Chosen (w : W).
Arguments NoMatch {W}. Arguments Ambiguous {W}. Arguments Chosen {W}.
Definition best {W} (l : list (candidate W)) : choice W :=
  let vs := filter viable l in
  match vs with
  | [] => NoMatch
  | _ => match filter (fun c => forallb (fun d => Nat.eqb (number c) (number d) || better c d) vs) vs with
         | [c] => Chosen (what c)
         | _ => Ambiguous
         end
  end.
Definition is_chosen {W} (c : choice W) : bool := match c with Chosen _ => true | _ => false end.

(** ** parse_option_value (format_parse.hpp) *)

Inductive way := ByStream | ByNames | ByText | ByElement | ByNumber | ByTruth.

(** The overloads in the order of the file.  [elements]: parse_option_value(value_type &, in) is valid. *)
Definition overloads (elements : bool) (t : cty) : list (candidate way) :=
  [ Cand ByStream 0 (Some 0%nat) true [AStream] (istreamable t);                                      (* 288-299 *)
    Cand ByNames 1 (Some 0%nat) true [ANames] (named_enumeration t);                                  (* 308-347 *)
    Cand ByText 2 (match t with Str => Some 0%nat | Class _ _ _ _ _ _ _ true _ => Some 1%nat | _ => None end) false [] true;  (* 350-354 *)
    Cand ByElement 3 (Some 0%nat) true [ANoString; APush; AElements] (container_option t && elements);  (* 369-387 *)
    Cand ByNumber 4 (Some 0%nat) true [AArith; AStream] (is_arith t && istreamable t);                (* 401-413 *)
    Cand ByTruth 5 (match t with Arith Bool => Some 0%nat | _ => None end) false [] true ].           (* 425-439 *)

Fixpoint resolve (t : cty) : choice way :=
  best (overloads (match t with
                   | Seq u => is_chosen (resolve u)
                   | Class _ _ _ _ _ (Some u) _ _ _ => is_chosen (resolve u)
                   | _ => false
                   end) t).

(** A call of add_option compiles: the constraint holds and the call of parse_option_value in the body (format_parse.hpp 526, 770,
    786) is valid. *)
Definition compiles (t : cty) : bool := accepted t && is_chosen (resolve t).

(** ** Names of types *)

(** type_name_as_string.hpp 39-80: [status] of abi::__cxa_demangle, qualifiers of the type *)
Inductive reference := NoRef | LRef | RRef.
Definition type_name_as_string (status : Z) (mangled demangled : string) (const : bool) (ref : reference) : string :=
  if negb (Z.eqb status 0) then
    mangled +s+ " (abi::__cxa_demangle error status (" +s+ Z_to_string status +s+ "): " +s+
    (if Z.eqb status (-1) then "A memory allocation failure occurred."
     else if Z.eqb status (-2) then "mangled_name is not a valid name under the C++ ABI mangling rules."
     else if Z.eqb status (-3) then "One of the arguments is invalid." else "Unknown Error") +s+ ")"
  else demangled +s+ (if const then " const" else "") +s+ (match ref with NoRef => "" | LRef => " &" | RRef => " &&" end).

(** abi::__cxa_demangle for the types that get there; of a container nothing is asked *)
Definition demangled (t : cty) : string :=
  match t with
  | Arith WChar => "wchar_t" | Arith Char8 => "char8_t" | Arith Char16 => "char16_t" | Arith Char32 => "char32_t"
  | Arith LLong => "long long" | Arith ULLong => "unsigned long long" | Arith LDouble => "long double"
  | Class n _ _ _ _ _ _ _ _ => n
  | _ => ""
  end.

(** format_base.hpp 37-83; int8_t is [signed char], int64_t is [long] *)
Fixpoint get_type_name (t : cty) : string :=
  match t with
  | Arith SChar => "signed 8 bit integer"
  | Arith UChar => "unsigned 8 bit integer"
  | Arith Short => "signed 16 bit integer"
  | Arith UShort => "unsigned 16 bit integer"
  | Arith Int => "signed 32 bit integer"
  | Arith UInt => "unsigned 32 bit integer"
  | Arith Long => "signed 64 bit integer"
  | Arith ULong => "unsigned 64 bit integer"
  | Arith Double => "double"
  | Arith Float => "float"
  | Arith Bool => "bool"
  | Arith Char => "char"
  | Str => "std::string"
  | Path => "std::filesystem::path"
  | Seq u => get_type_name u
  | Class _ _ _ _ _ (Some u) true _ _ => get_type_name u
  | _ => type_name_as_string 0 "" (demangled t) false NoRef
  end.
(** format_base.hpp 90-105 *)
Definition type_and_list (t : cty) : string :=
  if container_option t then "(\fIList\fP of \fI" +s+ get_type_name t +s+ "\fP)" else "(\fI" +s+ get_type_name t +s+ "\fP)".

(** ** The table of a named enumeration: enumeration_names.hpp 112-151.  The tag of priority 1 is an exact match for the first
    overload and a conversion to a base for the second. *)
Definition names_table {T} (custom adl : option T) : choice T :=
  match best [ Cand custom 0 (Some 0%nat) true [] (match custom with Some _ => true | None => false end);
               Cand adl 1 (Some 1%nat) true [] (match adl with Some _ => true | None => false end) ] with
  | Chosen (Some t) => Chosen t
  | Ambiguous => Ambiguous
  | _ => NoMatch
  end.

(** ** Validators *)

(** arithmetic_range_validator<a>, value_list_validator<t>, the file and directory validators, regex_validator, default_validator,
    chains *)
Inductive vkind := KRange (a : arith) | KValues (t : cty) | KFile | KRegex | KAny | KBoth (v w : vkind).

Definition same_arith (a b : arith) : bool := match a, b with
  | Bool, Bool | Char, Char | SChar, SChar | UChar, UChar | WChar, WChar | Char8, Char8 | Char16, Char16 | Char32, Char32 | Short, Short | UShort, UShort
  | Int, Int | UInt, UInt | Long, Long | ULong, ULong | LLong, LLong | ULLong, ULLong | Float, Float | Double, Double | LDouble, LDouble => true
  | _, _ => false end.

(** rank of the implicit conversion to [u const &], for the option value types of the validators.  Simplification: a class converts
    to itself (same name) and as its facts say; lists are not option value types. *)
Definition conversion (t u : cty) : option nat :=
  match t, u with
  | Arith a, Arith b => Some (if same_arith a b then 0 else 1)%nat
  | Str, Str | Path, Path => Some 0%nat
  | Path, Str | Str, Path => Some 2%nat            (* path::operator string_type, path::path(Source const &) *)
  | Class n _ _ _ _ _ _ _ _, Class m _ _ _ _ _ _ _ _ => if String.eqb n m then Some 0%nat else None
  | Class _ _ _ _ _ _ _ true _, Str => Some 1%nat
  | Class _ _ _ _ _ _ _ true _, Path => Some 2%nat
  | Class _ _ _ _ _ _ _ _ true, Arith _ => Some 1%nat
  | _, _ => None
  end.
Definition converts (t u : cty) : bool := match conversion t u with Some _ => true | None => false end.

Inductive look := Whole | Each.
(** the overloads of operator(): for the option value type [u] and for ranges, with the constraint [c] on the value type *)
Definition call (u t : cty) (c : cty -> bool) : choice look :=
  best [ Cand Whole 0 (conversion t u) false [] true;
         Cand Each 1 (Some 0%nat) true [AElements] (match range_value t with Some r => c r | None => false end) ].
Fixpoint looks (v : vkind) (t : cty) : choice look :=
  match v with
  | KRange a => call (Arith a) t is_arith                                                   (* 104, 119-121 *)
  | KValues u => call u t (fun r => converts r u && negb (is_path t))                       (* 228, 242-245 *)
  | KFile => call Path t (fun r => converts r Path && negb (converts t Path))               (* 336, 349-352 *)
  | KRegex => call Str t (fun r => converts r Str)                                          (* 997, 1013-1015 *)
  | KAny => Chosen Whole                                                                    (* 1059 *)
  | KBoth v w => if is_chosen (looks v t) && is_chosen (looks w t) then Chosen Whole else NoMatch  (* 1122-1124 *)
  end.
(** [std::invocable<validator_type, option_type>], parser.hpp 240 and 324 *)
Definition invocable (v : vkind) (t : cty) : bool := is_chosen (looks v t).
