(** C40: paragraphs are filled and aligned; when they are printed at all. *)
From Verif Require Import Base StrLib HelpBase HelpText HelpSpec HelpSamples WrapSpec WrapFilled.

(** no line break where the next word would still fit *)
Theorem C40_filled : forall nd L text tab st, documented text = true ->
  exists out, print_text nd false L text tab st = ({| t_out := t_out st +s+ out; t_par := t_par st |}, Ret tt) /\
    filled (screen_width L) (lines (spaces tab +s+ out)).
Proof. exact print_text_filled. Qed.
Print Assumptions C40_filled.

(** the lines begin below one another, if the first word fits and no word consists of markup only *)
Theorem C40_aligned : forall nd L text tab st w rest, documented text = true -> words (until_nul text) = w :: rest -> tab + String.length (strip w) <= screen_width L ->
  Forall (fun w => strip w <> "") (w :: rest) ->
  exists out, print_text nd false L text tab st = ({| t_out := t_out st +s+ out; t_par := t_par st |}, Ret tt) /\ Forall (aligned tab) (lines (spaces tab +s+ out)).
Proof. exact print_text_aligned. Qed.
Print Assumptions C40_aligned.

(** a word that ends within markup: the text is not printed (undefined behaviour, or a failing assertion in debug builds); together with
    C40_wrapping_partial: exactly then *)
Theorem C40_dangling : forall nd tty L text tab st, forallb closed (words (until_nul text)) = false ->
  snd (print_text nd tty L text tab st) = if nd then UB else AssertFail.
Proof. exact print_text_fails. Qed.
Print Assumptions C40_dangling.

(** on a terminal: all of this holds of what is seen, that is without the sequences that switch fonts *)
Theorem C40_seen : forall nd L text tab st, documented text = true -> scontains "027" text = false ->
  exists out, print_text nd true L text tab st = ({| t_out := t_out st +s+ out; t_par := t_par st |}, Ret tt) /\
    words (drop_sgr out) = words (strip (until_nul text)) /\
    Forall (fun l => String.length l <= screen_width L \/ List.length (words l) <= 1) (lines (spaces tab +s+ drop_sgr out)) /\ filled (screen_width L) (lines (spaces tab +s+ drop_sgr out)) /\
    (forall w rest, words (until_nul text) = w :: rest -> tab + String.length (strip w) <= screen_width L -> Forall (fun w => strip w <> "") (w :: rest) ->
       Forall (aligned tab) (lines (spaces tab +s+ drop_sgr out))).
Proof. exact print_text_shown. Qed.
Print Assumptions C40_seen.

Definition narrow : layout := layout_of 40.
Definition some_text : string := "one \fBtwo\fP three four five six seven eight nine ten eleven".
Definition empty_state : tstate := {| t_out := ""; t_par := false |}.
Example C40_filled_case : documented some_text = true /\ screen_width narrow = 38 /\
  t_out (fst (print_text true false narrow some_text 4 empty_state)) = "one two three four five six seven" +s+ nl +s+ "    eight nine ten eleven" +s+ nl.
Proof. repeat split; vm_compute; reflexivity. Qed.
Example C40_seen_case : documented some_text = true /\ scontains "027" some_text = false /\
  t_out (fst (print_text true true narrow some_text 4 empty_state)) =
  "one " +s+ String "027" "[1mtwo" +s+ String "027" "[0m three four five six seven" +s+ nl +s+ "    eight nine ten eleven" +s+ nl.
Proof. repeat split; vm_compute; reflexivity. Qed.
Example C40_aligned_case : words (until_nul some_text) = "one" :: tl (words (until_nul some_text)) /\ 4 + String.length (strip "one") <= screen_width narrow /\
  Forall (fun w => strip w <> "") (words (until_nul some_text)).
Proof. split; [vm_compute; reflexivity|]. split; [vm_compute; repeat constructor|]. vm_compute. repeat (constructor; [discriminate|]). constructor. Qed.
Example C40_dangling_case : forallb closed (words (until_nul "Use C:\ as root.")) = false.
Proof. reflexivity. Qed.

(** Without the hypothesis about the first word the lines do not begin below one another: the word after one that is too long is printed after
    the indentation and a blank *)
Definition long_word : string := "https://www.example.org/a/very/long/address".
Theorem C40_column_refuted : exists text out, documented text = true /\ Forall (fun w => strip w <> "") (words (until_nul text)) /\
  fst (print_text true false narrow text 4 empty_state) = {| t_out := out; t_par := false |} /\ ~ Forall (aligned 4) (lines (spaces 4 +s+ out)).
Proof.
  exists (long_word +s+ " is where"), (long_word +s+ nl +s+ "     is where" +s+ nl). split; [vm_compute; reflexivity|].
  split; [vm_compute; repeat (constructor; [discriminate|]); constructor|]. split; [vm_compute; reflexivity|].
  intros H. assert (A : aligned 4 "     is where").
  { rewrite Forall_forall in H. apply H. vm_compute. auto. }
  destruct A as [A|(w & rest & more & A & B)]; [vm_compute in A; discriminate A|]. vm_compute in A. injection A as <- _. vm_compute in B. discriminate B.
Qed.
Print Assumptions C40_column_refuted.
(** and a single word that is too long is followed by a line of blanks *)
Example C40_blank_line : t_out (fst (print_text true false narrow long_word 4 empty_state)) = long_word +s+ nl +s+ "    " +s+ nl.
Proof. vm_compute. reflexivity. Qed.
