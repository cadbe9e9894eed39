(** Order and texts of versions (C107). *)
From Verif Require Import Base LibVersion.

(** numbers are not negative; candidate 0: no release candidate *)
Definition valid (r : release) : Prop := (0 <= r_major r /\ 0 <= r_minor r /\ 0 <= r_patch r /\ 0 <= r_candidate r)%Z.
(** semantic versioning, candidates aside *)
Definition older (a b : release) : Prop :=
  (r_major a < r_major b \/ r_major a = r_major b /\ (r_minor a < r_minor b \/ r_minor a = r_minor b /\ r_patch a < r_patch b))%Z.
Definition two_digits (r : release) : Prop := (r_minor r < 100 /\ r_patch r < 100)%Z.
