(** Vocabulary for moved parsers: where the parser lives and what was added at which address. *)
From Verif Require Import Base Fs Values Validators FormatParse Parser ParserSpec.

(** the address of the parser after a log, having lived at [i] before *)
Fixpoint abode (i : nat) (log : list (call * res bool)) : nat :=
  match log with
  | [] => i
  | (CMove j _, _) :: log' => abode j log'
  | _ :: log' => abode i log'
  end.

(** what was added, with the address at which the parser lived at that time *)
Fixpoint lodgers (i : nat) (log : list (call * res bool)) : list (nat * op) :=
  match log with
  | [] => []
  | (c, r) :: log' => map (pair i) (if returned r then call_op c else []) ++ lodgers (abode i [(c, r)]) log'
  end.

(** the parser left address [a], the object there was destroyed, and no parser was moved there again *)
Definition ruined (i : nat) (log : list (call * res bool)) (a : nat) : Prop :=
  exists l1 j r l2, log = l1 ++ (CMove j false, r) :: l2 /\ abode i l1 = a /\ j <> a /\
                    forall k alive r', In (CMove k alive, r') l2 -> k <> a.

(** something was added at an address that is ruined *)
Definition haunted (i : nat) (log : list (call * res bool)) : Prop :=
  exists a o, In (a, o) (lodgers i log) /\ a <> abode i log /\ ruined i log a.

(** what was added at the address where the parser lives now *)
Definition at_home (i : nat) (log : list (call * res bool)) : list op :=
  map snd (filter (fun e => Nat.eqb (fst e) (abode i log)) (lodgers i log)).
