(** The shipped validators as objects: what they check and what get_help_page_message() says,
    include/sharg/validators.hpp. *)
From Verif Require Import Base Fs FloatNum Values Validators.

(** The constructors with their arguments.  [ValidRegex]: the oracle for [std::regex] comes with the pattern
    (see Validators.v). *)
Inductive shipped :=
| ValidAny                                             (* detail::default_validator, 1053-1068 *)
| ValidRange (sg : bool) (bits : N) (mn mx : Z)        (* arithmetic_range_validator, 78-151 *)
| ValidFloats (k : fkind) (mn mx : fnum)               (* the same for floating point types *)
| ValidValues (e : ety) (values : list val)            (* value_list_validator, 174-268 *)
| ValidFloatValues (k : fkind) (values : list fnum)    (* the same for floating point types *)
| ValidInFile (exts : list string)                     (* input_file_validator, 520-598 *)
| ValidOutFile (mode : open_mode) (exts : list string) (* output_file_validator, 639-775 *)
| ValidInDir                                           (* input_directory_validator, 792-857 *)
| ValidOutDir                                          (* output_directory_validator, 877-952 *)
| ValidRegex (pattern : string) (rx : string -> option bool)  (* regex_validator, 975-1037 *)
| ValidBoth (v1 v2 : shipped).                         (* validator_chain_adaptor, 1085-1142, made by operator| *)

(** operator() *)
Fixpoint check_of (ndebug : bool) (v : shipped) : validator :=
  match v with
  | ValidAny => default_validator
  | ValidRange sg bits mn mx => arithmetic_range_any sg bits mn mx
  | ValidFloats k mn mx => float_range_validator k mn mx
  | ValidValues e l => value_list_any e l
  | ValidFloatValues k l => float_list_validator k l
  | ValidInFile exts => input_file_validator exts
  | ValidOutFile mode exts => output_file_validator ndebug mode exts
  | ValidInDir => input_directory_validator
  | ValidOutDir => output_directory_validator ndebug
  | ValidRegex p rx => regex_validator p rx
  | ValidBoth a b => chain (check_of ndebug a) (check_of ndebug b)
  end.

(** valid_extensions_help_page_message, 462-468; extensions_str is [to_string(extensions)], 544 and 666 *)
Definition extensions_help (exts : list string) : string :=
  match exts with [] => "" | _ => "Valid file extensions are: " +s+ bracket exts +s+ "." end.
(** 594-596, 757-765 *)
Definition spaced (s : string) : string := (if is_empty s then "" else " ") +s+ s.

(** get_help_page_message: 136, 260, 592, 753, 853, 948, 1029, 1064, 1131 *)
Fixpoint help_of (v : shipped) : string :=
  match v with
  | ValidAny => ""
  | ValidRange _ _ mn mx => "Value must be in range " +s+ range_str mn mx +s+ "."
  | ValidFloats _ mn mx => "Value must be in range " +s+ float_range_str mn mx +s+ "."
  | ValidValues e l => "Value must be one of " +s+ to_string (ListOf e) (VList l) +s+ "."
  | ValidFloatValues _ l => "Value must be one of " +s+ bracket (map print_g l) +s+ "."
  | ValidInFile exts => "The input file must exist and read permissions must be granted." +s+ spaced (extensions_help exts)
  | ValidOutFile OpenOrCreate exts => "Write permissions must be granted." +s+ spaced (extensions_help exts)
  | ValidOutFile CreateNew exts =>
      "The output file must not exist already and write permissions must be granted." +s+ spaced (extensions_help exts)
  | ValidInDir => "An existing, readable path for the input directory."
  | ValidOutDir => "A valid path for the output directory."
  | ValidRegex p _ => "Value must match the pattern '" +s+ p +s+ "'."
  | ValidBoth a b => help_of a +s+ " " +s+ help_of b
  end.
