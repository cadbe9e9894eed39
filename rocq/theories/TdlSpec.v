(** What tool descriptions should contain; only the data types of the TDL library are used. *)
From Verif Require Import Base Fs Values Validators FormatParse Parser HelpExport HelpSpec.

(** parameters of the innermost of a chain of (sub-)commands *)
Inductive innermost : list tdl_node -> list string -> list tdl_node -> Prop :=
| inner_here l : innermost l [] l
| inner_in n d t l names l' : innermost l names l' -> innermost [TdlNode n d t (TvChildren l)] (n :: names) l'.

(** options and flags that are not hidden have an entry; tool descriptions have no other help page elements *)
Definition on_tdl (o : op) : bool :=
  match o with OpDecl (DOption _ _ c) | OpDecl (DFlag _ c) => negb (c_hidden c) | _ => false end.
Definition tdl_entry (o : op) (n : tdl_node) : Prop :=
  match o with
  | OpDecl (DOption _ _ c) => nd_name n = c_long c /\ String.prefix (c_desc c) (nd_description n) = true
                              /\ (In "advanced" (nd_tags n) <-> c_advanced c = true) /\ (In "required" (nd_tags n) <-> c_required c = true)
  | OpDecl (DFlag _ c) => nd_name n = c_long c /\ nd_description n = c_desc c
  | OpDecl (DPositional _ t c) => String.prefix (c_desc c) (nd_description n) = true /\ (In "required" (nd_tags n) <-> is_container t = false)
  | _ => False
  end.

(** the value of an entry is that of the variable; paths are in quotes; containers, enumerations and user types have no
    value *)
Definition tdl_default (vs : store) (o : op) (n : tdl_node) : Prop :=
  match o with
  | OpDecl (DOption x (Scalar TBool) _) | OpDecl (DFlag x _) => forall b, vs x = VBool b -> nd_value n = TvBool b
  | OpDecl (DOption x (Scalar (TInt _ _)) _) | OpDecl (DOption x (Scalar TChar) _) => forall z, vs x = VInt z -> nd_value n = TvInt z
  | OpDecl (DOption x (Scalar TString) _) => forall s, vs x = VStr s -> nd_value n = TvString s
  | OpDecl (DOption x (Scalar (TFloat _ _ _ _)) _) => forall y, vs x = VFloat y -> nd_value n = TvDouble y
  | OpDecl (DOption x (Scalar TPath) _) => forall p, vs x = VPath p -> exists b, nd_value n = TvString (String """" (b +s+ """")) /\ read_quoted (b +s+ """") "" = Some p
  | OpDecl (DOption x (Scalar (TEnum _ _)) _) | OpDecl (DOption x (Scalar (TStream _ _ _)) _) | OpDecl (DOption x (ListOf _) _) => nd_value n = TvBool false
  | OpDecl (DPositional _ t _) => nd_value n = if is_container t then TvStringList else TvString ""
  | _ => True
  end.
