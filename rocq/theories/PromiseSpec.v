(** Vocabulary: what the help text of a validator promises (C95). *)
From Verif Require Import Base Fs FloatNum Values ValuesSpec Validators ValidatorsHelp Regex.

(** an element of a list in a text; characters and 8 bit integers as a character.  Paths, enumerators and floating point numbers: C58, C87. *)
Inductive element_text : ety -> val -> string -> Prop :=
| et_int sg bits z s : bits <> 8%N -> numeral true s z -> element_text (TInt sg bits) (VInt z) s
| et_string s : element_text TString (VStr s) s
| et_bool b : element_text TBool (VBool b) (if b then "1" else "0").

Inductive separated : list string -> string -> Prop :=
| sep_none : separated [] ""
| sep_one a : separated [a] a
| sep_more a l s : l <> [] -> separated l s -> separated (a :: l) (a +s+ ", " +s+ s).

Inductive extensions_text : list string -> string -> Prop :=
| ext_any : extensions_text [] ""
| ext_some l s : l <> [] -> separated l s -> extensions_text l (" Valid file extensions are: [" +s+ s +s+ "].").

(** the sentences, include/sharg/validators.hpp and test/unit/parser/validators_test.cpp *)
Inductive promise : shipped -> string -> Prop :=
| pr_any : promise ValidAny ""
| pr_range sg bits mn mx a b : numeral true a mn -> numeral true b mx ->
    promise (ValidRange sg bits mn mx) ("Value must be in range [" +s+ a +s+ "," +s+ b +s+ "].")
| pr_floats k mn mx : promise (ValidFloats k mn mx) ("Value must be in range [" +s+ print_f mn +s+ "," +s+ print_f mx +s+ "].")
| pr_values e vs ts s : Forall2 (element_text e) vs ts -> separated ts s -> promise (ValidValues e vs) ("Value must be one of [" +s+ s +s+ "].")
| pr_float_values k vs s : separated (map print_g vs) s -> promise (ValidFloatValues k vs) ("Value must be one of [" +s+ s +s+ "].")
| pr_in_file exts s : extensions_text exts s ->
    promise (ValidInFile exts) ("The input file must exist and read permissions must be granted." +s+ s)
| pr_out_file exts s : extensions_text exts s -> promise (ValidOutFile OpenOrCreate exts) ("Write permissions must be granted." +s+ s)
| pr_new_file exts s : extensions_text exts s ->
    promise (ValidOutFile CreateNew exts) ("The output file must not exist already and write permissions must be granted." +s+ s)
| pr_in_dir : promise ValidInDir "An existing, readable path for the input directory."
| pr_out_dir : promise ValidOutDir "A valid path for the output directory."
| pr_regex p rx : promise (ValidRegex p rx) ("Value must match the pattern '" +s+ p +s+ "'.")
| pr_both v w s t : promise v s -> promise w t -> promise (ValidBoth v w) (s +s+ " " +s+ t).

(** validators whose values have a text of their own *)
Fixpoint sayable (v : shipped) : Prop :=
  match v with
  | ValidValues e vs => Forall (fun x => exists s, element_text e x s) vs
  | ValidBoth a b => sayable a /\ sayable b
  | _ => True
  end.

(** the type of the values of a validator *)
Definition checks (e : ety) (v : shipped) : Prop :=
  match v with
  | ValidRange sg bits _ _ => e = TInt sg bits
  | ValidValues e' _ => e = e'
  | ValidInFile _ | ValidOutFile _ _ | ValidInDir | ValidOutDir => e = TPath
  | ValidRegex _ _ => e = TString \/ e = TPath
  | _ => True
  end.

(** the texts in the listing can be told apart *)
Definition told_apart (l : list string) : Prop := Forall (fun s => s <> "" /\ ~ In ","%char (chars s)) l.
(** [other]: what std::regex says of patterns outside the grammar of Regex.v *)
Definition clear (other : string -> string -> option bool) (v : shipped) : Prop :=
  match v with
  | ValidAny | ValidRange _ _ _ _ | ValidInDir | ValidOutDir => True
  | ValidValues e vs => exists ts, Forall2 (element_text e) vs ts /\ told_apart ts
  | ValidInFile exts | ValidOutFile _ exts => told_apart exts
  | ValidRegex p rx => rx = std_regex other p
  | _ => False
  end.

(** the validators of a chain, in order *)
Fixpoint atoms (v : shipped) : list shipped := match v with ValidBoth a b => atoms a ++ atoms b | _ => [v] end.
Fixpoint spaced_texts (l : list string) : string :=
  match l with [] => "" | [a] => a | a :: l' => a +s+ " " +s+ spaced_texts l' end.

(** the sentence of the help text and that of the message have the same listing *)
Definition message_fits (v : shipped) (m : string) : Prop :=
  match v with
  | ValidRange _ _ _ _ | ValidFloats _ _ _ =>
      exists y r, m = "Value " +s+ y +s+ " is not in range " +s+ r /\ help_of v = "Value must be in range " +s+ r
  | ValidValues _ _ | ValidFloatValues _ _ =>
      exists y r, m = "Value " +s+ y +s+ " is not one of " +s+ r /\ help_of v = "Value must be one of " +s+ r
  | ValidRegex _ _ => m = "regex_error" \/
      exists y r, m = "Value " +s+ y +s+ " did not match the pattern " +s+ r +s+ "." /\ help_of v = "Value must match the pattern '" +s+ r +s+ "'."
  | _ => True
  end.

(** one check after the other, each finding the files as the one before left them, until one fails *)
Inductive one_by_one (nd : bool) (x : val) : list shipped -> fs -> fs -> vout -> Prop :=
| ob_end f : one_by_one nd x [] f f VOk
| ob_pass v l f f1 f2 o : check_of nd v f x = (f1, VOk) -> one_by_one nd x l f1 f2 o -> one_by_one nd x (v :: l) f f2 o
| ob_fail v l f f1 o : check_of nd v f x = (f1, o) -> o <> VOk -> one_by_one nd x (v :: l) f f1 o.
