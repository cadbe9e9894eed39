(** Terms and descriptions (C42). *)
From Verif Require Import Base StrLib HelpBase HelpText HelpSpec Samples HelpSamples TermProofs.

(** ** C42 for every term without dangling markup, line breaks and escape characters: where the description begins on the screen,
    and that the claim is true exactly for terms without markup and for terms of which at least five characters are seen *)
Theorem C42_exact : forall nd tty width k d out par, closed k = true -> one_line k = true -> scontains "027" k = false ->
  forallb closed (words (until_nul d)) = true ->
  exists term gap rest,
    print_list_item nd tty (layout_of width) k d {| t_out := out; t_par := par |} =
      ({| t_out := out +s+ (if par then nl else "") +s+ spaces 4 +s+ term +s+ gap +s+ rest; t_par := false |}, Ret tt)
    /\ drop_sgr term = strip k /\ words gap = []
    /\ (one_line gap = true <-> String.length k <= 4)
    /\ (column (spaces 4 +s+ strip k +s+ gap) = 10 <-> 5 <= String.length k \/ strip k = k)
    /\ ((one_line gap = true <-> String.length (strip k) <= 4) /\ column (spaces 4 +s+ strip k +s+ gap) = 10 <->
        strip k = k \/ 5 <= String.length (strip k)).
Proof. exact term_lemma. Qed.
Print Assumptions C42_exact.

(** seen as "-a", "abcd", "key12" *)
Example C42_exact_case : map (fun k => (closed k && one_line k && negb (scontains "027" k), strip k,
    lines (t_out (fst (print_list_item true false (layout_of 80) k "desc" {| t_out := ""; t_par := false |})))))
  ["\-a"; "\fIabcd\fP"; "abcd"; "\fBkey12\fP"] =
  [(true, "-a", ["    -a   desc"; ""]); (true, "abcd", ["    abcd"; "          desc"; ""]); (true, "abcd", ["    abcd  desc"; ""]);
   (true, "key12", ["    key12"; "          desc"; ""])].
Proof. vm_compute. reflexivity. Qed.
