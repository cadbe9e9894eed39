(** References to characters in an HTML text. *)
From Verif Require Import Base HelpSpec.

(** the predefined entities, behind the ampersand *)
Definition entities : list (string * chr) := [("quot;", """"%char); ("apos;", "'"%char); ("amp;", "&"%char); ("lt;", "<"%char); ("gt;", ">"%char)].

(** somewhere in the text there is a reference *)
Definition has_reference (s : string) : Prop := exists a n c b, In (n, c) entities /\ s = a +s+ "&" +s+ n +s+ b.
