(** The texts of the version check. *)
From Verif Require Import Base VersionCheck HelpSpec.

Definition has_part (p s : string) : Prop := exists a b, s = a +s+ p +s+ b.

(** one of the lines of the question offers the answer [c], with the words [t] *)
Definition offers (c : chr) (t : string) : Prop := In ("    [" +s+ str1 c +s+ "] " +s+ t) (lines question).

(** by its words an answer lets the check be done now; the question is put again *)
Definition checks_now (t : string) : Prop := exists b, t = "Always perform version checks" +s+ b \/ t = "Yes, perform a version check now" +s+ b.
Definition asks_again (t : string) : Prop := exists a, t = a +s+ " ask again tomorrow.".
