(** The shipped validators: include/sharg/validators.hpp. *)
From Verif Require Import Base Fs Values FloatNum.

(** Result of running a validator.  [VThrow]: some [std::exception] with that [what()]. *)
Inductive vout :=
| VOk
| VThrow (msg : string)
| VAssert                (* failed assertion in a destructor, builds without NDEBUG *)
| VUB.                   (* undefined behaviour *)

(** A validator may inspect and change the file system. *)
Definition validator := fs -> val -> fs * vout.

(** validators.hpp 1053-1068 *)
Definition default_validator : validator := fun f _ => (f, VOk).

(** [std::for_each] over the elements of a container, stopping at the first exception *)
Fixpoint for_each (v : validator) (f : fs) (l : list val) : fs * vout :=
  match l with
  | [] => (f, VOk)
  | x :: l' => match v f x with
               | (f', VOk) => for_each v f' l'
               | r => r
               end
  end.

(** the range overloads of every validator (119-129, 242-253, 349-360, 1013-1022) *)
Definition lift_range (v : validator) : validator :=
  fun f x => match x with VList l => for_each v f l | _ => v f x end.

(** The elements of a path as [std::filesystem::path] iterates over them: "/" for the root directory, then the names
    between the slashes, and an empty name at the end if a slash follows the last name. *)
Definition names_of (s : string) : list string := filter (fun x => negb (is_empty x)) (split_slash s EmptyString).
Definition path_elements (s : string) : list string :=
  (match s with String c _ => if Ascii.eqb c slash then ["/"] else [] | EmptyString => [] end) ++ names_of s ++
  (match last_chr s, names_of s with Some c, _ :: _ => if Ascii.eqb c slash then [EmptyString] else [] | _, _ => [] end).

(** The range overload is chosen for every forward range that satisfies its constraint.  A [std::string] is a range of
    characters, which are numbers: the validators of numbers check the (signed) code of each (119-129, 242-253). *)
Definition char_code (c : chr) : Z := let n := Z.of_N (code c) in if (128 <=? n)%Z then (n - 256)%Z else n.
Definition by_characters (x : val) : val := match x with VStr s => VList (map (fun c => VInt (char_code c)) (chars s)) | _ => x end.
(** A [std::filesystem::path] is a range of paths.  Only the regex validator (1013-1022) treats it as one: its template is
    a better match for a path than the overload for [std::string] const &, which needs a conversion.  (The others exclude
    paths, 244 and 351.) *)
Definition by_elements (x : val) : val := match x with VPath s => VList (map VStr (path_elements s)) | _ => x end.

(** the conversion of [bool] to a number *)
Definition promote (x : val) : val := match x with VBool b => VInt (if b then 1 else 0) | _ => x end.

(** A validator that only looks at the value. *)
Definition pure_validator (g : val -> vout) : validator := fun f x => (f, g x).

(** ** arithmetic_range_validator (104-129) *)

(** conversion of an integer to another integer type (the implicit conversion to
    [option_value_type const &]) *)
Definition wrap_int (sg : bool) (bits : N) (z : Z) : Z :=
  let m := (z mod 2 ^ Z.of_N bits)%Z in
  if sg && (2 ^ (Z.of_N bits - 1) <=? m)%Z then (m - 2 ^ Z.of_N bits)%Z else m.

Definition range_str (mn mx : Z) : string :=
  "[" +s+ Z_to_string mn +s+ "," +s+ Z_to_string mx +s+ "]".

(** [arithmetic_range_validator<T>{mn, mx}] for the integer type [T] = ([sg], [bits]).
    (Called with an integer; floating point numbers are converted first, see below.) *)
Definition arithmetic_range1 (sg : bool) (bits : N) (mn mx : Z) (x : val) : vout :=
  match promote x with
  | VInt z =>
      let cmp := wrap_int sg bits z in
      if negb ((cmp <=? mx) && (mn <=? cmp))%Z
      then VThrow ("Value " +s+ Z_to_string cmp +s+ " is not in range " +s+ range_str mn mx +s+ ".")
      else VOk
  | _ => VOk      (* excluded by the concept std::invocable<validator, option_type> *)
  end.
Definition arithmetic_range_validator (sg : bool) (bits : N) (mn mx : Z) : validator :=
  fun f x => lift_range (pure_validator (arithmetic_range1 sg bits mn mx)) f (by_characters x).

(** The same validator called with a value of any arithmetic type.  A floating point number is converted to [T], i.e.
    cut off at the point; undefined if the result does not fit (C++20, [conv.fpint]). *)
Definition cut_first (sg : bool) (bits : N) (g : val -> vout) (x : val) : vout :=
  match x with
  | VFloat y =>
      match truncate y with
      | Some z => if ((int_min sg bits <=? z) && (z <=? int_max sg bits))%Z then g (VInt z) else VUB
      | None => VUB
      end
  | _ => g x
  end.
Definition arithmetic_range_any (sg : bool) (bits : N) (mn mx : Z) : validator :=
  fun f x => lift_range (pure_validator (cut_first sg bits (arithmetic_range1 sg bits mn mx))) f (by_characters x).

(** [arithmetic_range_validator<T>{mn, mx}] for a floating point type *)
Definition float_range_str (mn mx : fnum) : string := "[" +s+ print_f mn +s+ "," +s+ print_f mx +s+ "]".
Definition float_range1 (k : fkind) (mn mx : fnum) (x : val) : vout :=
  let check cmp :=
    if negb (fleb cmp mx && fleb mn cmp)
    then VThrow ("Value " +s+ print_f cmp +s+ " is not in range " +s+ float_range_str mn mx +s+ ".")
    else VOk in
  match promote x with
  | VFloat y => check (to_kind k y)
  | VInt z => check (of_int k z)
  | _ => VOk      (* excluded by the concept std::invocable<validator, option_type> *)
  end.
Definition float_range_validator (k : fkind) (mn mx : fnum) : validator :=
  fun f x => lift_range (pure_validator (float_range1 k mn mx)) f (by_characters x).

(** ** value_list_validator (228-253) *)

Definition conv_to (e : ety) (x : val) : val :=
  match e, x with
  | TInt sg bits, VInt z => VInt (wrap_int sg bits z)
  | TInt _ _, VBool _ | TChar, VBool _ => promote x
  | TChar, VInt z => VInt (wrap_int true 8 z)
  | TBool, VInt z => VBool (negb (Z.eqb z 0))
  | TBool, VFloat y => VBool (negb (feqb y (FZero false)))
  | TString, VPath s => VStr s           (* implicit conversion of std::filesystem::path *)
  | TPath, VStr s => VPath s
  | _, _ => x
  end.

(** equal lists of strings *)
Fixpoint strings_eqb (a b : list string) : bool :=
  match a, b with
  | [], [] => true
  | x :: a, y :: b => String.eqb x y && strings_eqb a b
  | _, _ => false
  end.

(** [operator==] of the (scalar) option value type.  Two paths are compared element by element, so that a//b equals a/b
    (the deduction guides 268-291 make a list of paths a list of strings, however).  Simplification: opaque values are
    compared as tokens. *)
Definition val_eqb (a b : val) : bool :=
  match a, b with
  | VInt x, VInt y => Z.eqb x y
  | VBool x, VBool y => Bool.eqb x y
  | VStr x, VStr y => String.eqb x y
  | VPath x, VPath y => strings_eqb (path_elements x) (path_elements y)
  | VEnum x, VEnum y => Z.eqb x y
  | VFloat x, VFloat y => feqb x y
  | VOther x, VOther y => String.eqb x y
  | _, _ => false
  end.

Definition value_list1 (e : ety) (values : list val) (x : val) : vout :=
  let cmp := conv_to e x in
  if existsb (val_eqb cmp) values then VOk
  else VThrow ("Value " +s+ to_string (Scalar e) cmp +s+ " is not one of "
               +s+ to_string (ListOf e) (VList values) +s+ ".").
(** the values given one by one: the characters of a text if the values of the list are numbers *)
Definition as_range (e : ety) (x : val) : val :=
  match e with TInt _ _ | TChar | TBool => by_characters x | _ => x end.
Definition value_list_validator (e : ety) (values : list val) : validator :=
  fun f x => lift_range (pure_validator (value_list1 e values)) f (as_range e x).
(** called with a value of any type; [value_list_validator<T>] for an integer type [T] *)
Definition value_list_any (e : ety) (values : list val) : validator :=
  fun f x => lift_range (pure_validator (match e with TInt sg bits => cut_first sg bits (value_list1 e values) | _ => value_list1 e values end))
                        f (as_range e x).
(** [value_list_validator<T>] for a floating point type [T]; integers and other floating point numbers are converted *)
Definition float_list1 (k : fkind) (values : list fnum) (x : val) : vout :=
  let check cmp :=
    if existsb (feqb cmp) values then VOk
    else VThrow ("Value " +s+ print_g cmp +s+ " is not one of " +s+ bracket (map print_g values) +s+ ".") in
  match promote x with
  | VFloat y => check (to_kind k y)
  | VInt z => check (of_int k z)
  | _ => VOk      (* excluded by the type system *)
  end.
Definition float_list_validator (k : fkind) (values : list fnum) : validator :=
  fun f x => lift_range (pure_validator (float_list1 k values)) f (by_characters x).

(** ** regex_validator (997-1022)
    [rx] is the behaviour of [std::regex]: [None] if the pattern is malformed (construction
    throws [std::regex_error]), otherwise whether the whole text matches.  The paths in a list are converted to text
    (1020), but a single path is taken apart, see [by_elements]. *)
Definition regex1 (pattern : string) (rx : string -> option bool) (x : val) : vout :=
  match x with
  | VStr s | VPath s =>
      match rx s with
      | None => VThrow "regex_error"
      | Some true => VOk
      | Some false => VThrow ("Value " +s+ s +s+ " did not match the pattern " +s+ pattern +s+ ".")
      end
  | _ => VOk      (* excluded by the type system *)
  end.
Definition regex_validator (pattern : string) (rx : string -> option bool) : validator :=
  fun f x => lift_range (pure_validator (regex1 pattern rx)) f (by_elements x).

(** ** validator_chain_adaptor (1122-1126) *)
Definition chain (v1 v2 : validator) : validator :=
  fun f x => match v1 f x with
             | (f', VOk) => v2 f' x
             | r => r
             end.

(** ** file_validator_base *)

Definition to_lower (c : chr) : chr := if is_upper c then ascii_of_N (code c + 32) else c.

(** [std::tolower(c)] for a (signed) [char] is undefined unless the value is representable as
    [unsigned char] or equal to EOF (-1, i.e. byte 255) *)
Definition tolower_defined (c : chr) : bool := (N.ltb (code c) 128 || N.eqb (code c) 255)%N.

(** 483-485: compare two strings of equal length; [None] is undefined behaviour *)
Fixpoint ci_eq (a b : string) : option bool :=
  match a, b with
  | String x a', String y b' =>
      if tolower_defined x && tolower_defined y then
        if Ascii.eqb (to_lower x) (to_lower y) then ci_eq a' b' else Some false
      else None
  | _, _ => Some true
  end.

(** case_insensitive_string_ends_with, 475-488 *)
Definition ci_ends_with (str suffix : string) : option bool :=
  if (String.length str <? String.length suffix)%nat then Some false
  else ci_eq (sdrop (String.length str - String.length suffix) str) suffix.

(** [std::find_if(extensions..., case_insensitive_ends_with)] *)
Fixpoint any_ext (file_path : string) (exts : list string) : option bool :=
  match exts with
  | [] => Some false
  | e :: l => match ci_ends_with file_path e with
              | None => None
              | Some true => Some true
              | Some false => any_ext file_path l
              end
  end.

Definition drop_dot (s : string) : string :=
  match s with String c s' => if Ascii.eqb c "." then s' else s | EmptyString => s end.

(** [s.substr(s.find(".") + 1)] *)
Definition after_first_dot (s : string) : string :=
  match sfind "." s with Some n => sdrop (S n) s | None => s end.

(** validate_filename, 368-404 *)
Definition validate_filename (exts : list string) (p : string) : vout :=
  match exts with
  | [] => VOk
  | _ =>
      if negb (has_extension p) then
        VThrow ("The given filename " +s+ p +s+ " has no extension. Expected one of the following valid extensions:"
                +s+ bracket exts +s+ "!")
      else
        let file_path := drop_dot (filename p) in
        match any_ext file_path exts with
        | None => VUB
        | Some true => VOk
        | Some false => VThrow ("Expected one of the following valid extensions: " +s+ bracket exts
                                +s+ "! Got " +s+ after_first_dot file_path +s+ " instead!")
        end
  end.

Definition dq (s : string) : string := String """" (s +s+ """").

(** validate_readability, 411-431 *)
Definition validate_readability (f : fs) (p : string) : vout :=
  if is_directory f p then
    (if open_read f p then VOk else VThrow ("Cannot read the directory " +s+ dq p +s+ "!"))
  else if negb (is_regular_file f p) then VThrow ("Expected a regular file " +s+ dq p +s+ "!")
  else if open_read f p then VOk else VThrow ("Cannot read the file " +s+ dq p +s+ "!").

(** Result of validate_writeability: [WFsError] is a [std::filesystem::filesystem_error]. *)
Inductive wout := WOk | WThrow (msg : string) | WFsError | WAssert.

(** leaving a scope holding a safe_filesystem_entry for [p] with result [r] *)
Definition unwind (ndebug : bool) (f : fs) (p : string) (r : wout) : fs * wout :=
  let '(f', ok) := guard_destroy f p in
  match r with
  | WAssert => (f, WAssert)
  | _ => if ok || ndebug then (f', r) else (f', WAssert)
  end.

(** validate_writeability, 439-459 *)
Definition validate_writeability (ndebug : bool) (f : fs) (p : string) : fs * wout :=
  if is_directory f p then (f, WThrow (dq p +s+ " is a directory. Cannot validate writeability."))
  else
    let '(f1, good) := open_write f p in
    if negb good then unwind ndebug f1 p (WThrow ("Cannot write " +s+ dq p +s+ "!"))
    else
      let '(f2, err) := remove f1 p in
      if err then unwind ndebug f2 p WFsError else unwind ndebug f2 p WOk.

(** the catch clauses of the file validators *)
Definition of_wout (r : wout) : vout :=
  match r with
  | WOk => VOk
  | WThrow m => VThrow m
  | WFsError => VThrow "Unhandled filesystem error!"
  | WAssert => VAssert
  end.

(** input_file_validator::operator(), 563-586 *)
Definition input_file1 (exts : list string) (f : fs) (p : string) : vout :=
  if negb (exists_ f p) then VThrow ("The file " +s+ dq p +s+ " does not exist!")
  else match validate_readability f p with
       | VOk => validate_filename exts p
       | r => r
       end.

Inductive open_mode := OpenOrCreate | CreateNew.

(** output_file_validator::operator(), 721-746 *)
Definition output_file1 (ndebug : bool) (mode : open_mode) (exts : list string) (f : fs) (p : string) : fs * vout :=
  if is_directory f p then (f, VThrow (dq p +s+ " is a directory. Expected a file."))
  else if (match mode with CreateNew => exists_ f p | OpenOrCreate => false end)
       then (f, VThrow ("The file " +s+ dq p +s+ " already exists!"))
  else match validate_writeability ndebug f p with
       | (f', WOk) => (f', validate_filename exts p)
       | (f', r) => (f', of_wout r)
       end.

(** input_directory_validator::operator(), 823-846 *)
Definition input_directory1 (f : fs) (p : string) : vout :=
  if negb (exists_ f p) then VThrow ("The directory " +s+ dq p +s+ " does not exists!")
  else if negb (is_directory f p) then VThrow ("The path " +s+ dq p +s+ " is not a directory!")
  else validate_readability f p.

(** output_directory_validator::operator(), 908-941 *)
Definition output_directory1 (ndebug : bool) (f : fs) (p : string) : fs * vout :=
  let dir_exists := exists_ f p in
  let '(f1, ec) := create_directory f p in
  if ec then (f1, VThrow ("Cannot create directory: " +s+ dq p +s+ "!"))
  else if negb dir_exists then
    match validate_writeability ndebug f1 (path_join p "dummy.txt") with
    | (f2, WOk) =>
        let '(f3, err) := remove_all f2 p in
        let '(f4, r) := unwind ndebug f3 p (if err then WFsError else WOk) in (f4, of_wout r)
    | (f2, r) => let '(f3, r') := unwind ndebug f2 p r in (f3, of_wout r')
    end
  else
    let '(f2, r) := validate_writeability ndebug f1 (path_join p "dummy.txt") in (f2, of_wout r).

(** the implicit conversion of the bound value to [std::filesystem::path] *)
Definition on_path (g : fs -> string -> fs * vout) : validator :=
  fun f x => match x with VStr s | VPath s => g f s | _ => (f, VOk) end.

Definition input_file_validator (exts : list string) : validator :=
  lift_range (on_path (fun f p => (f, input_file1 exts f p))).
Definition output_file_validator (ndebug : bool) (mode : open_mode) (exts : list string) : validator :=
  lift_range (on_path (output_file1 ndebug mode exts)).
Definition input_directory_validator : validator :=
  lift_range (on_path (fun f p => (f, input_directory1 f p))).
Definition output_directory_validator (ndebug : bool) : validator :=
  lift_range (on_path (output_directory1 ndebug)).
