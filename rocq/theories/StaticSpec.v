(** What a reader of the documentation expects of the decisions of the compiler (C98); nothing here resolves overloads. *)
From Verif Require Import Base Values FloatNum Static.

(** the character types that a stream of [char] does not read *)
Definition wide (a : arith) : Prop := In a [WChar; Char8; Char16; Char32].

(** how a variable of type [t] is read *)
Definition only (a b c : Prop) : Prop := a /\ ~ b /\ ~ c.
Fixpoint reads (t : cty) (w : way) : Prop :=
  match t with
  | Arith Bool => w = ByTruth
  | Arith a => w = ByNumber /\ ~ wide a
  | Str => w = ByText
  | Path => w = ByStream
  | Seq u => w = ByElement /\ exists w', reads u w'
  | Class _ into _ custom adl range push derived _ =>
      let streamed := into = true in
      let named := custom = true \/ adl = true in
      let listed := push = true /\ match range with Some u => exists w', reads u w' | None => False end in
      w = ByStream /\ only streamed named listed \/ w = ByNames /\ only named streamed listed \/ w = ByElement /\ only listed streamed named \/
      w = ByText /\ derived = true /\ ~ streamed /\ ~ named /\ ~ listed
  end.

(** at least two of three *)
Definition two_of (a b c : Prop) : Prop := a /\ b \/ a /\ c \/ b /\ c.

(** types made of numbers, texts, paths and lists only *)
Fixpoint plain (t : cty) : Prop := match t with Arith _ | Str | Path => True | Seq u => plain u | Class _ _ _ _ _ _ _ _ _ => False end.
Definition basic (t : cty) : Prop := match t with Arith a => ~ wide a | Str | Path => True | _ => False end.

(** C++ types and the types of the model of values *)
Inductive models_elem : cty -> ety -> Prop :=
| m_bool : models_elem (Arith Bool) TBool
| m_char : models_elem (Arith Char) TChar
| m_i8 : models_elem (Arith SChar) (TInt true 8)
| m_u8 : models_elem (Arith UChar) (TInt false 8)
| m_i16 : models_elem (Arith Short) (TInt true 16)
| m_u16 : models_elem (Arith UShort) (TInt false 16)
| m_i32 : models_elem (Arith Int) (TInt true 32)
| m_u32 : models_elem (Arith UInt) (TInt false 32)
| m_i64 : models_elem (Arith Long) (TInt true 64)
| m_u64 : models_elem (Arith ULong) (TInt false 64)
| m_ll : models_elem (Arith LLong) (TInt true 64)
| m_ull : models_elem (Arith ULLong) (TInt false 64)
| m_f mn mx rd : models_elem (Arith Float) (TFloat "float" mn mx rd)
| m_d mn mx rd : models_elem (Arith Double) (TFloat "double" mn mx rd)
| m_ld mn mx rd : models_elem (Arith LDouble) (TFloat "long double" mn mx rd)
| m_str : models_elem Str TString
| m_path : models_elem Path TPath
| m_enum n o c a d k names : c = true \/ a = true -> models_elem (Class n false o c a None false d k) (TEnum n names)
| m_stream n d k rd pr : models_elem (Class n true true false false None false d k) (TStream n rd pr).
Inductive models : cty -> vty -> Prop :=
| m_one t e : models_elem t e -> models t (Scalar e)
| m_list t e : models_elem t e -> models (Seq t) (ListOf e).

(** the branch of [Values.parse_option_value] that reads a type *)
Definition branch (v : vty) : way :=
  match v with
  | ListOf _ => ByElement
  | Scalar e => match e with
                | TInt _ _ | TChar | TFloat _ _ _ _ => ByNumber | TBool => ByTruth | TString => ByText
                | TPath | TStream _ _ _ => ByStream | TEnum _ _ => ByNames
                end
  end.

(** [long long] is not one of the fixed width integers *)
Definition long_long (t : cty) : Prop := In t [Arith LLong; Arith ULLong; Seq (Arith LLong); Seq (Arith ULLong)].

(** values of a type *)
Inductive holds : val -> cty -> Prop :=
| h_bool b : holds (VBool b) (Arith Bool)
| h_int z a : ~ In a [Bool; Float; Double; LDouble] -> holds (VInt z) (Arith a)
| h_float x a : In a [Float; Double; LDouble] -> holds (VFloat x) (Arith a)
| h_str s : holds (VStr s) Str
| h_path s : holds (VPath s) Path
| h_list l t : Forall (fun x => holds x t) l -> holds (VList l) (Seq t).

(** texts: what can be handed to the validators for texts and paths; numbers: to those for numbers *)
Definition textual (t : cty) : Prop := In t [Str; Path; Seq Str; Seq Path].
Definition numeral (t : cty) : Prop := t = Str \/ exists a, t = Arith a \/ t = Seq (Arith a).

(** what is behind the constraint: types that are printed, types that are parsed, elements *)
Definition prints (t : cty) : Prop :=
  match t with Arith a => ~ wide a | Str | Path => True | Seq _ => False | Class _ _ out custom adl _ _ _ _ => out = true \/ custom = true \/ adl = true end.
Inductive element_of : cty -> cty -> Prop :=
| e_str : element_of (Arith Char) Str
| e_path : element_of Path Path
| e_list t : element_of t (Seq t)
| e_class n i o c a t p d k : element_of t (Class n i o c a (Some t) p d k).
Definition may_parse (t : cty) : Prop :=
  match t with
  | Arith a => ~ wide a
  | Str | Path => True
  | Seq _ => False
  | Class _ into out custom adl _ _ _ _ => custom = true \/ adl = true \/ into = true /\ (out = true \/ exists u, element_of u t /\ prints u)
  end.

(** the name of a type with its qualifiers; the reasons the demangler gives *)
Inductive named_type (demangled : string) : bool -> reference -> string -> Prop :=
| nt_value : named_type demangled false NoRef demangled
| nt_const : named_type demangled true NoRef (demangled +s+ " const")
| nt_l : named_type demangled false LRef (demangled +s+ " &")
| nt_cl : named_type demangled true LRef (demangled +s+ " const &")
| nt_r : named_type demangled false RRef (demangled +s+ " &&")
| nt_cr : named_type demangled true RRef (demangled +s+ " const &&").
Inductive reason : Z -> string -> Prop :=
| r_memory : reason (-1) "A memory allocation failure occurred."
| r_name : reason (-2) "mangled_name is not a valid name under the C++ ABI mangling rules."
| r_argument : reason (-3) "One of the arguments is invalid."
| r_other z : ~ In z [-3; -2; -1; 0]%Z -> reason z "Unknown Error".

(** conversions to numbers and to paths *)
Definition to_number (t : cty) : Prop := match t with Arith _ => True | Class _ _ _ _ _ _ _ _ number => number = true | _ => False end.
Definition to_path (t : cty) : Prop := match t with Str | Path => True | Class _ _ _ _ _ _ _ derived _ => derived = true | _ => False end.

(** the name of a type on help pages *)
Inductive says : cty -> string -> Prop :=
| says_signed a n : In (a, n) [(SChar, "8"); (Short, "16"); (Int, "32"); (Long, "64")] -> says (Arith a) ("signed " +s+ n +s+ " bit integer")
| says_unsigned a n : In (a, n) [(UChar, "8"); (UShort, "16"); (UInt, "32"); (ULong, "64")] -> says (Arith a) ("unsigned " +s+ n +s+ " bit integer")
| says_keyword a w : In (a, w) [(Bool, "bool"); (Char, "char"); (Float, "float"); (Double, "double"); (LDouble, "long double"); (LLong, "long long");
    (ULLong, "unsigned long long"); (WChar, "wchar_t"); (Char8, "char8_t"); (Char16, "char16_t"); (Char32, "char32_t")] -> says (Arith a) w
| says_string : says Str "std::string"
| says_path : says Path "std::filesystem::path"
| says_list t w : says t w -> says (Seq t) w
| says_container n i o c a t d k w : says t w -> says (Class n i o c a (Some t) true d k) w
| says_class n i o c a r p d k : r = None \/ p = false -> says (Class n i o c a r p d k) n.
