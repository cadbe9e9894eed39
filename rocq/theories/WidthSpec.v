(** The pieces of a text with markup, and what they take on the screen (C41). *)
From Verif Require Import Base.

Inductive piece :=
| Letter (c : chr)        (* any character but the backslash *)
| Dash                    (* \- *)
| Font (c : chr)          (* \fB, \fI, \fP *)
| Unfont (c : chr)        (* \f and another character *)
| Kept (c : chr).         (* backslash and a character other than - and f *)

Definition font (c : chr) : bool := Ascii.eqb c "B" || Ascii.eqb c "I" || Ascii.eqb c "P".
Definition right (p : piece) : bool :=
  match p with
  | Letter c => negb (Ascii.eqb c "\")
  | Dash => true
  | Font c => font c
  | Unfont c => negb (font c)
  | Kept c => negb (Ascii.eqb c "-") && negb (Ascii.eqb c "f")
  end.
Definition spelled (p : piece) : string :=
  match p with Letter c => str1 c | Dash => "\-" | Font c | Unfont c => "\f" +s+ str1 c | Kept c => "\" +s+ str1 c end.
(** without a terminal *)
Definition visible (p : piece) : string :=
  match p with Letter c => str1 c | Dash => "-" | Font _ => "" | Unfont c => "\f" +s+ str1 c | Kept c => "\" +s+ str1 c end.
Definition all_spelled (l : list piece) : string := sconcat (map spelled l).
Definition all_visible (l : list piece) : string := sconcat (map visible l).

(** Every backslash that is kept is counted as nothing, except in front of the last character, unless that is a
    backslash itself. *)
Fixpoint uncounted (l : list piece) : nat :=
  match l with
  | [] => 0
  | [Kept c] => if Ascii.eqb c "\" then 1 else 0
  | Kept _ :: l' => 1 + uncounted l'
  | _ :: l' => uncounted l'
  end.
(** \f\ makes what follows be read differently for counting *)
Definition no_slash_font (l : list piece) : Prop := ~ In (Unfont "\") l.
