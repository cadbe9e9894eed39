(** C107: the version of the library. *)
From Verif Require Import Base StrLib HelpBase VersionCheck LibVersion LibVersionSpec LibVersionProofs.
From Coq Require Import Lia.

(** versions compare as their numbers do, if minor version and patch have at most two digits *)
Theorem C107_order : forall a b, valid a -> valid b -> two_digits a -> two_digits b -> (version_number a < version_number b)%Z <-> older a b.
Proof. exact number_order. Qed.
Print Assumptions C107_order.

(** the text says which release it is *)
Theorem C107_text : forall a b, valid a -> valid b -> version_cstring a = version_cstring b -> a = b.
Proof. exact text_inj. Qed.
Print Assumptions C107_text.

(** the version check reads the text of a release that is no candidate as its numbers *)
Theorem C107_read : forall r, valid r -> r_candidate r = 0%Z -> (r_major r < 2 ^ 31)%Z -> (r_minor r < 2 ^ 31)%Z -> (r_patch r < 2 ^ 31)%Z ->
  get_numbers (version_cstring r) = (r_major r, r_minor r, r_patch r).
Proof. exact text_read. Qed.
Print Assumptions C107_read.
(** and the text of a candidate as no version *)
Theorem C107_candidate : forall r, valid r -> (0 < r_candidate r)%Z -> get_numbers (version_cstring r) = (0, 0, 0)%Z.
Proof. exact candidate_read. Qed.
Print Assumptions C107_candidate.

(** 1.9.12 and 1.10.3; the release after the pinned candidate.  The pages show, and the version check compares, the version of version.hpp *)
Definition last_nine : release := {| r_major := 1; r_minor := 9; r_patch := 12; r_candidate := 0 |}.
Definition ten : release := {| r_major := 1; r_minor := 10; r_patch := 3; r_candidate := 2 |}.
Example C107_order_case : valid last_nine /\ valid ten /\ two_digits last_nine /\ two_digits ten /\ older last_nine ten /\
  version_number last_nine = 10912%Z /\ version_number ten = 11003%Z.
Proof. unfold valid, two_digits, older, last_nine, ten. cbn. repeat split; lia || reflexivity. Qed.
Example C107_text_case : version_cstring last_nine = "1.9.12" /\ version_cstring ten = "1.10.3-rc.2" /\ get_numbers "1.9.12" = (1, 9, 12)%Z /\ get_numbers "1.10.3-rc.2" = (0, 0, 0)%Z.
Proof. vm_compute. auto. Qed.
Example C107_pinned : version_cstring pinned = HelpBase.sharg_version /\ (r_major pinned, r_minor pinned, r_patch pinned) = VersionCheck.sharg_version.
Proof. vm_compute. auto. Qed.

(** The property "a version is older exactly if its number is smaller" is false for numbers of three digits *)
Theorem C107_order_refuted : exists a b, valid a /\ valid b /\ older a b /\ (version_number b < version_number a)%Z.
Proof.
  exists {| r_major := 1; r_minor := 0; r_patch := 101; r_candidate := 0 |}, {| r_major := 1; r_minor := 1; r_patch := 0; r_candidate := 0 |}.
  vm_compute. intuition discriminate.
Qed.
Print Assumptions C107_order_refuted.
(** and the number does not tell a candidate from the release *)
Theorem C107_number_refuted : exists a b, valid a /\ valid b /\ a <> b /\ version_number a = version_number b.
Proof.
  exists pinned, {| r_major := 1; r_minor := 1; r_patch := 2; r_candidate := 0 |}. vm_compute. intuition discriminate.
Qed.
Print Assumptions C107_number_refuted.
