(** Specification for whole programs with other arguments (C09, C55). *)
From Verif Require Import Base ParserSpec.

(** the pieces of the command line that are not for the application's own options *)
Definition foreign (k : piece) : bool := match k with KValue _ _ | KAlone _ | KWord _ => false | _ => true end.
