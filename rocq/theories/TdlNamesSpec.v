(** The names parameters should have in a tool description (C60). *)
From Verif Require Import Base StrLib Fs Values Validators FormatParse Parser.

(** the [i]-th positional option, counted from 0; options and flags are called by their long identifier, unless hidden *)
Definition position_name (i : nat) : string := "positional_" +s+ nat_to_string i.
Definition described_name (o : op) : list string :=
  match o with OpDecl (DOption _ _ c) | OpDecl (DFlag _ c) => if c_hidden c then [] else [c_long c] | _ => [] end.
