(** Values of bound variables and the conversion of argument text to values.
    Models include/sharg/detail/format_parse.hpp 281-472, the type names of
    include/sharg/detail/format_base.hpp 38-83, the enumeration printing of
    include/sharg/enumeration_names.hpp 248-261 and include/sharg/detail/to_string.hpp 41-81. *)
From Verif Require Import Base FloatNum.

(** Content of a bound variable.  [VOther] stands for user defined streamable types, which the model treats as
    opaque tokens. *)
Inductive val :=
| VInt (z : Z)
| VBool (b : bool)
| VStr (s : string)
| VPath (s : string)
| VEnum (z : Z)
| VFloat (x : fnum)
| VOther (s : string)
| VList (l : list val).

(** Result of [std::from_chars]: [ec == invalid_argument], [ec == result_out_of_range], or
    success with the value and the unread rest. *)
Inductive fc_res :=
| FcInvalid
| FcRange
| FcOk (v : val) (rest : string).

(** Element types.  [TInt sg bits] are the fixed width integers, [TChar] is [char] (for which
    [std::from_chars] reads a number; [char] is modelled as signed, as on x86).
    [TFloat] and [TStream] carry the reading function of the standard library or of the user as
    an oracle: nothing about it is assumed. [TFloat] also carries the printed limits. *)
Inductive ety :=
| TInt (sg : bool) (bits : N)
| TChar
| TBool
| TString
| TPath
| TEnum (tname : string) (names : list (string * Z))
| TFloat (tname mn mx : string) (rd : string -> fc_res)
| TStream (tname : string) (rd : val -> string -> val * bool * bool) (pr : val -> string).
   (* rd old text = (new value, fail(), eof()) *)

Inductive vty := Scalar (e : ety) | ListOf (e : ety).

(** detail/concept.hpp: [is_container_option] *)
Definition is_container (t : vty) : bool := match t with ListOf _ => true | _ => false end.
Definition elem_ty (t : vty) : ety := match t with Scalar e | ListOf e => e end.

(** ** Integers: [std::from_chars] with base 10 *)

Definition int_min (sg : bool) (bits : N) : Z :=
  if sg then (- 2 ^ (Z.of_N bits - 1))%Z else 0%Z.
Definition int_max (sg : bool) (bits : N) : Z :=
  if sg then (2 ^ (Z.of_N bits - 1) - 1)%Z else (2 ^ Z.of_N bits - 1)%Z.

(** longest prefix of digits, its value (accumulated), and the rest *)
Fixpoint read_digits (s : string) (acc : Z) : Z * string :=
  match s with
  | String c s' => if is_digit c then read_digits s' (acc * 10 + digit_val c)%Z else (acc, s)
  | EmptyString => (acc, s)
  end.

Definition starts_digit (s : string) : bool :=
  match s with String c _ => is_digit c | EmptyString => false end.

(** [from_chars]: a minus sign only for signed types, then at least one digit; all digits are
    consumed before the range check. *)
Definition from_chars_int (sg : bool) (bits : N) (s : string) : fc_res :=
  let '(neg, body) := match s with
                      | String c s' => if sg && Ascii.eqb c "-" then (true, s') else (false, s)
                      | EmptyString => (false, s)
                      end in
  if starts_digit body then
    let '(n, rest) := read_digits body 0 in
    let z := if neg then (- n)%Z else n in
    if ((int_min sg bits <=? z) && (z <=? int_max sg bits))%Z then FcOk (VInt z) rest else FcRange
  else FcInvalid.

(** ** Paths: [operator>>(std::istream &, std::filesystem::path &)] reads a [std::quoted] string *)

Fixpoint skip_space (s : string) : string :=
  match s with
  | String c s' => if is_space c then skip_space s' else s
  | EmptyString => s
  end.

(** [stream >> string]: up to the next white space *)
Fixpoint read_word (s : string) : string * string :=
  match s with
  | String c s' => if is_space c then (EmptyString, s)
                   else let '(w, r) := read_word s' in (String c w, r)
  | EmptyString => (EmptyString, s)
  end.

(** after the opening quote: [Some content] iff a closing quote is found; '\' escapes *)
Fixpoint read_quoted (s : string) (acc : string) : option string :=
  match s with
  | EmptyString => None
  | String c s' =>
      if Ascii.eqb c "\" then
        match s' with
        | EmptyString => None
        | String d s'' => read_quoted s'' (acc +s+ str1 d)
        end
      else if Ascii.eqb c """" then Some acc
      else read_quoted s' (acc +s+ str1 c)
  end.

(** new value, fail(), eof() after [stream >> value].  After a closing quote the end of the
    stream has not been noticed yet, so eof() is false even if nothing follows. *)
Definition read_path (old : val) (s : string) : val * bool * bool :=
  match skip_space s with
  | EmptyString => (old, true, true)
  | String c s' =>
      if Ascii.eqb c """" then
        match read_quoted s' EmptyString with
        | Some q => (VPath q, false, false)
        | None => (old, true, true)
        end
      else let '(w, r) := read_word (String c s') in (VPath w, false, is_empty r)
  end.

(** ** Enumerations *)

(** [map.find(in)]; the table is a [std::unordered_map], i.e. keys are unique *)
Fixpoint assoc (k : string) (l : list (string * Z)) : option Z :=
  match l with
  | [] => None
  | (k', v) :: l' => if String.eqb k k' then Some v else assoc k l'
  end.

(** byte-wise lexicographic order, [std::string::operator<] *)
Fixpoint str_ltb (a b : string) : bool :=
  match a, b with
  | _, EmptyString => false
  | EmptyString, String _ _ => true
  | String c a', String d b' =>
      if N.ltb (code c) (code d) then true
      else if N.ltb (code d) (code c) then false
      else str_ltb a' b'
  end.

(** format_parse.hpp 321-330: order by value, then by name *)
Definition entry_ltb (x y : string * Z) : bool :=
  if Z.eqb (snd x) (snd y) then str_ltb (fst x) (fst y) else Z.ltb (snd x) (snd y).

Fixpoint insert_entry (x : string * Z) (l : list (string * Z)) : list (string * Z) :=
  match l with
  | [] => [x]
  | y :: l' => if entry_ltb y x then y :: insert_entry x l' else x :: l
  end.
(** [std::sort] with a strict weak order; keys are unique, so the result is determined *)
Fixpoint sort_entries (l : list (string * Z)) : list (string * Z) :=
  match l with [] => [] | x :: l' => insert_entry x (sort_entries l') end.

(** "a, b, c, " *)
Fixpoint comma_list (l : list string) : string :=
  match l with [] => EmptyString | k :: l' => k +s+ ", " +s+ comma_list l' end.

(** [result.replace(result.size() - 2, 2, r)] *)
Definition replace_last2 (s r : string) : string := stake (String.length s - 2) s +s+ r.

(** format_parse.hpp 315-337; [None]: the table is empty, [result.size() - 2] wraps around and
    [std::string::replace] throws [std::out_of_range] *)
Definition enum_keys (names : list (string * Z)) : option string :=
  match names with
  | [] => None
  | _ => Some (replace_last2 ("[" +s+ comma_list (map fst (sort_entries names))) "]")
  end.

(** ** [parse_option_value] (format_parse.hpp 281-439) *)

Inductive pres := PSuccess | PError | POverflow.

Inductive pout := POk (v : val) (r : pres)      (* value of the variable afterwards *)
                | PThrow (e : exn).             (* the variable is unchanged *)

Definition of_fc (old : val) (r : fc_res) : pout :=
  match r with
  | FcRange => POk old POverflow
  | FcInvalid => POk old PError
  | FcOk v rest => POk v (if is_empty rest then PSuccess else PError)
  end.

Definition of_stream (t : val * bool * bool) : pout :=
  let '(v, fail, eof) := t in POk v (if fail || negb eof then PError else PSuccess).

Definition parse_elem (e : ety) (old : val) (s : string) : pout :=
  match e with
  | TInt sg bits => of_fc old (from_chars_int sg bits s)           (* 403-413 *)
  | TChar => of_fc old (from_chars_int true 8 s)                   (* 403-413 *)
  | TFloat _ _ _ rd => of_fc old (rd s)                            (* 403-413 *)
  | TBool =>                                                       (* 425-439 *)
      if String.eqb s "0" then POk (VBool false) PSuccess
      else if String.eqb s "1" then POk (VBool true) PSuccess
      else if String.eqb s "true" then POk (VBool true) PSuccess
      else if String.eqb s "false" then POk (VBool false) PSuccess
      else POk old PError
  | TString => POk (VStr s) PSuccess                               (* 350-354 *)
  | TPath => of_stream (read_path old s)                           (* 290-299 *)
  | TStream _ rd _ => of_stream (rd old s)                         (* 290-299 *)
  | TEnum _ names =>                                               (* 308-347 *)
      match assoc s names with
      | Some z => POk (VEnum z) PSuccess
      | None =>
          match enum_keys names with
          | Some keys => PThrow (Exn KUserInput ("You have chosen an invalid input value: " +s+ s +s+
                                                 ". Please use one of: " +s+ keys))
          | None => PThrow (Exn KStdOutOfRange "basic_string::replace")
          end
      end
  end.

(** a value-initialised element, [value_type tmp{}] *)
Definition default_val (e : ety) : val :=
  match e with
  | TInt _ _ | TChar => VInt 0
  | TBool => VBool false
  | TString => VStr EmptyString
  | TPath => VPath EmptyString
  | TEnum _ _ => VEnum 0
  | TFloat _ _ _ _ => VFloat (FZero false)
  | TStream _ _ _ => VOther EmptyString
  end.

(** Elements of a container variable.  The C++ type system guarantees that a container option is
    bound to a container; the other cases are unreachable for well-typed stores. *)
Definition elems (v : val) : list val := match v with VList l => l | _ => [] end.

Definition parse_option_value (t : vty) (old : val) (s : string) : pout :=
  match t with
  | Scalar e => parse_elem e old s
  | ListOf e =>                                                    (* 377-387 *)
      match parse_elem e (default_val e) s with
      | POk v PSuccess => POk (VList (elems old ++ [v])) PSuccess
      | POk _ r => POk old r
      | PThrow ex => PThrow ex
      end
  end.

(** ** Type names (format_base.hpp 38-83) *)

Definition type_name (e : ety) : string :=
  match e with
  | TInt sg bits => (if sg then "signed " else "unsigned ") +s+ Z_to_string (Z.of_N bits) +s+ " bit integer"
  | TChar => "char"
  | TBool => "bool"
  | TString => "std::string"
  | TPath => "std::filesystem::path"
  | TEnum n _ | TFloat n _ _ _ | TStream n _ _ => n
  end.

(** [std::is_arithmetic_v<option_type>] *)
Definition is_arithmetic (t : vty) : bool :=
  match t with
  | Scalar (TInt _ _) | Scalar TChar | Scalar TBool | Scalar (TFloat _ _ _ _) => true
  | _ => false
  end.

Definition limits (e : ety) : string * string :=
  match e with
  | TInt sg bits => (Z_to_string (int_min sg bits), Z_to_string (int_max sg bits))
  | TChar => (Z_to_string (int_min true 8), Z_to_string (int_max true 8))
  | TBool => ("0", "1")
  | TFloat _ mn mx _ => (mn, mx)
  | _ => (EmptyString, EmptyString)
  end.

(** format_parse.hpp 449-472.  [ndebug]: the trailing assert is compiled out. *)
Definition throw_on_input_error (ndebug : bool) (t : vty) (r : pres) (name input : string) : res unit :=
  let msg := "Value parse failed for " +s+ name +s+ ": " in
  match r with
  | PError => Throw (Exn KUserInput (msg +s+ "Argument " +s+ input +s+ " could not be parsed as type "
                                     +s+ type_name (elem_ty t) +s+ "."))
  | POverflow =>
      if is_arithmetic t then
        Throw (Exn KUserInput (msg +s+ "Numeric argument " +s+ input +s+ " is not in the valid range ["
                               +s+ fst (limits (elem_ty t)) +s+ "," +s+ snd (limits (elem_ty t)) +s+ "]."))
      else if ndebug then Ret tt else AssertFail
  | PSuccess => Ret tt
  end.

(** ** Printing values (enumeration_names.hpp 250-261, to_string.hpp 41-81) *)

(** [operator<<] of a named enumeration: first table entry with that value.  The iteration order
    of the [unordered_map] is the order of [names]. *)
Fixpoint enum_print (names : list (string * Z)) (z : Z) : string :=
  match names with
  | [] => "<UNKNOWN_VALUE>"
  | (k, v) :: l => if Z.eqb z v then k else enum_print l z
  end.

(** [std::quoted(s)] *)
Fixpoint quote_body (s : string) : string :=
  match s with
  | EmptyString => EmptyString
  | String c s' => if (Ascii.eqb c """" || Ascii.eqb c "\")%bool
                   then String "\" (String c (quote_body s')) else String c (quote_body s')
  end.
Definition quoted (s : string) : string := String """" (quote_body s +s+ """").

(** [stream << v] for an element; 8 bit integers are characters for [operator<<] *)
Definition print_stream (e : ety) (v : val) : string :=
  match e, v with
  | TInt _ bits, VInt z => if N.eqb bits 8 then str1 (ascii_of_N (Z.to_N (z mod 256))) else Z_to_string z
  | TChar, VInt z => str1 (ascii_of_N (Z.to_N (z mod 256)))
  | TBool, VBool b => if b then "1" else "0"
  | TString, VStr s => s
  | TPath, VPath s => quoted s
  | TEnum _ names, VEnum z => enum_print names z
  | TFloat _ _ _ _, VFloat x => print_g x
  | TStream _ _ pr, _ => pr v
  | _, VOther s => s
  | _, _ => EmptyString
  end.

(** "[a, b, c]" *)
Fixpoint join_comma (l : list string) : string :=
  match l with
  | [] => EmptyString
  | [a] => a
  | a :: l' => a +s+ ", " +s+ join_comma l'
  end.
Definition bracket (l : list string) : string := "[" +s+ join_comma l +s+ "]".

(** [detail::to_string(value)]: 8 bit integers as numbers, but not inside containers *)
Definition to_string (t : vty) (v : val) : string :=
  match t with
  | ListOf e => bracket (map (print_stream e) (elems v))
  | Scalar (TInt sg bits) => match v with VInt z => Z_to_string z | _ => EmptyString end
  | Scalar e => print_stream e v
  end.
