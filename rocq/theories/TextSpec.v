(** Characters, numbers and pieces of texts (C100), in terms of the tables one finds in books; nothing here comes from the
    model. *)
From Coq Require Import String Ascii List ZArith.
Import ListNotations.
Open Scope string_scope.
Open Scope list_scope.

Definition letters_of (s : string) : list ascii := list_ascii_of_string s.

Definition the_digits : string := "0123456789".
Definition small_letters : string := "abcdefghijklmnopqrstuvwxyz".
Definition capital_letters : string := "ABCDEFGHIJKLMNOPQRSTUVWXYZ".
(** tab, line feed, vertical tab, form feed, carriage return, blank *)
Definition blanks : list ascii := map ascii_of_nat [9; 10; 11; 12; 13; 32].

(** ** Numbers *)

(** the digits [ds], each below ten, written one behind the other *)
Fixpoint written (ds : list nat) : string :=
  match ds with [] => "" | d :: ds' => substring d 1 the_digits ++ written ds' end%string.
(** what they denote *)
Definition denoted (ds : list nat) : Z := fold_left (fun a d => (10 * a + Z.of_nat d)%Z) ds 0%Z.
(** no zero in front of other digits *)
Definition proper (ds : list nat) : Prop := ds <> [] /\ Forall (fun d => d < 10) ds /\ forall ds', ds = 0 :: ds' -> ds' = [].
(** [s] is the usual decimal notation of [z] *)
Definition decimal (z : Z) (s : string) : Prop :=
  exists ds, proper ds /\ ((s = written ds /\ z = denoted ds) \/ (s = String "-" (written ds) /\ z = (- denoted ds)%Z /\ (0 < denoted ds)%Z)).

(** ** Calls in a row *)

Section calls.
Context {St A R : Type} (f : A -> St -> St * R) (fine : R).
(** all of them return *)
Inductive all_return : list A -> St -> St -> Prop :=
| return_end s : all_return [] s s
| return_next a l s s1 s' : f a s = (s1, fine) -> all_return l s1 s' -> all_return (a :: l) s s'.
(** one does not: nothing behind it is called *)
Definition one_fails (l : list A) (s s' : St) (r : R) : Prop :=
  exists before a behind s1, l = before ++ a :: behind /\ all_return before s s1 /\ f a s1 = (s', r) /\ r <> fine.
End calls.
