(** Exact form of C41. *)
From Verif Require Import Base StrLib HelpText WidthSpec WidthProofs.

(** A text can be shown if and only if it is made of complete pieces, in one way only; *)
Theorem C41_pieces : forall ndebug s, (exists out, to_text ndebug false s = Ret out) <-> exists l, forallb right l = true /\ s = all_spelled l.
Proof.
  intros nd s. split.
  - intros [out E]. exact (pieces_of nd (String.length s) s out (le_n _) E).
  - intros (l & R & ->). exists (all_visible l). now apply text_of.
Qed.
Print Assumptions C41_pieces.
Theorem C41_one_way : forall l l', forallb right l = true -> forallb right l' = true -> all_spelled l = all_spelled l' -> l = l'.
Proof. exact spelled_unique. Qed.
Print Assumptions C41_one_way.

(** the width assumed and what it lacks make what is shown. *)
Theorem C41_exact : forall ndebug l, forallb right l = true ->
  to_text ndebug false (all_spelled l) = Ret (all_visible l)
  /\ (no_slash_font l -> text_width (all_spelled l) + uncounted l = String.length (all_visible l)).
Proof. intros nd l R. split; [now apply text_of|now apply width_of]. Qed.
Print Assumptions C41_exact.

Example C41_exact_case : let l := [Font "B"; Letter "a"; Kept "n"; Unfont "x"; Dash; Kept "\"; Font "P"; Kept "t"] in
  forallb right l = true /\ no_slash_font l /\ all_spelled l = "\fBa\n\fx\-\\\fP\t" /\ all_visible l = "a\n\fx-\\\t" /\ uncounted l = 2 /\ text_width (all_spelled l) = 9.
Proof. cbv zeta. split; [reflexivity|]. split; [intros H; cbn in H; intuition discriminate|]. repeat split; reflexivity. Qed.

(** behind \f\ nothing of the kind holds: the same piece counts differently *)
Theorem C41_slash_font_refuted : exists l, forallb right l = true /\ text_width (all_spelled l) > String.length (all_visible l).
Proof. exists [Unfont "\"; Font "B"]. split; [reflexivity|]. vm_compute. lia. Qed.
Print Assumptions C41_slash_font_refuted.
