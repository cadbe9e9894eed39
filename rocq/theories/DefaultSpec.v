(** Which defaults can be given as they are shown (C58). *)
From Verif Require Import Base Values ValuesSpec.

(** the values of the types of elements except floating point numbers (C87) and user-defined types *)
Inductive has_type : ety -> val -> Prop :=
| ht_int sg bits z : in_type sg bits z -> has_type (TInt sg bits) (VInt z)
| ht_char z : in_type true 8 z -> has_type TChar (VInt z)
| ht_bool b : has_type TBool (VBool b)
| ht_string s : has_type TString (VStr s)
| ht_path s : has_type TPath (VPath s)
| ht_enum name names z : NoDup (map fst names) -> In z (map snd names) -> has_type (TEnum name names) (VEnum z).

(** the types whose values are read as they are shown *)
Definition read_as_shown (e : ety) : Prop := match e with TInt _ _ | TBool | TEnum _ _ => True | _ => False end.
