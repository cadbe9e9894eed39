(** What a list holds after texts were given for it. *)
From Verif Require Import Base Values Validators FormatParse Invocation ValuesSpec DiagnosisSpec.

(** the values of the texts, in order; with NDEBUG the numbers outside of the range of the type are lost *)
Inductive taken (ndebug : bool) (e : ety) : list string -> list val -> Prop :=
| taken_nil : taken ndebug e [] []
| taken_value t v ts vs : means e (default_val e) t v -> taken ndebug e ts vs -> taken ndebug e (t :: ts) (v :: vs)
| taken_lost t ts vs : ndebug = true -> too_large e t -> taken ndebug e ts vs -> taken ndebug e (t :: ts) vs.

(** of the values given by two names those given by the long name stay *)
Definition kept (its : list item) (c : config) : list (option string) :=
  match long_values its c with [] => short_values its c | l => l end.

Definition is_positional (d : decl) : bool := match d with DPositional _ _ _ => true | _ => false end.
