(** Filled paragraphs (C40). *)
From Verif Require Import Base HelpBase HelpText HelpSpec.

(** no line break where the next word would still fit into [n] columns *)
Definition filled (n : nat) (ls : list string) : Prop :=
  forall before a b after w rest, ls = before ++ a :: b :: after -> words b = w :: rest -> n < String.length a + 1 + String.length w.

(** a line that has words begins with the first one, after exactly [tab] blanks *)
Definition aligned (tab : nat) (l : string) : Prop :=
  words l = [] \/ exists w rest more, words l = w :: rest /\ l = spaces tab +s+ w +s+ more.
