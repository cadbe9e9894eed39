(** What a validator compares if it is given a value that is a range in the eyes of C++ but not for the user: the elements
    of a path, the characters of a text.  Independent of the code. *)
From Verif Require Import Base Fs Values ValuesSpec Validators ValidatorsSpec.

(** a name without slashes; one slash or more *)
Definition name (n : string) : Prop := n <> "" /\ ~ In slash (chars n).
Definition slashes (s : string) : Prop := s <> "" /\ (forall c, In c (chars s) -> c = slash).

(** the elements of a path that begins with a name *)
Inductive names : string -> list string -> Prop :=
| names_last n : name n -> names n [n]
| names_open n s : name n -> slashes s -> names (n +s+ s) [n; ""]
| names_more n s p l : name n -> slashes s -> names p l -> names (n +s+ s +s+ p) (n :: l).

(** the elements of any path; "/" is the root directory *)
Inductive path_parts : string -> list string -> Prop :=
| parts_none : path_parts "" []
| parts_root s : slashes s -> path_parts s ["/"]
| parts_relative p l : names p l -> path_parts p l
| parts_absolute s p l : slashes s -> names p l -> path_parts (s +s+ p) ("/" :: l).

(** paths that differ in the number of slashes between names only *)
Definition same_path (p q : string) : Prop := exists l, path_parts p l /\ path_parts q l.

(** the number a character is (char is signed) *)
Definition character_number (c : chr) (z : Z) : Prop := residue true 8 (Z.of_N (code c)) z.
