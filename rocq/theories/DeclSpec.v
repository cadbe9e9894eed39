(** Vocabulary for statements about the declaration phase: which declarations are accepted, what is said about the
    others, and which names are gone afterwards. *)
From Verif Require Import Base Fs Values Validators FormatParse Invocation ScanSpec Parser ParserSpec.

(** ** Names *)

Definition name_chars : list ascii := chars "abcdefghijklmnopqrstuvwxyzABCDEFGHIJKLMNOPQRSTUVWXYZ0123456789_@".

Definition short_ok (c : ascii) : Prop := In c name_chars.
Definition long_ok (l : string) : Prop :=
  (2 <= String.length l)%nat /\ begins "-" l = false /\ forall c, In c (chars l) -> c = "-"%char \/ In c name_chars.

(** the options and flags a program declares *)
Definition named (c : call) : option config :=
  match c with CAddOption _ _ c | CAddFlag _ c => Some c | _ => None end.

(** [h]: the calls made so far, the last one first.  A name cannot be used (again) once it was checked, whether
    or not the declaration was accepted then.  The long name is checked after the short one was found in order. *)
Fixpoint taken (h : list call) (n : string) : Prop :=
  match h with
  | [] => In n reserved
  | c :: h' =>
      taken h' n \/
      (~ In CParse h' /\
       exists k, named c = Some k /\
         ((c_short k <> "000"%char /\ short_ok (c_short k) /\ n = str1 (c_short k)) \/
          ((c_short k = "000"%char \/ (short_ok (c_short k) /\ ~ taken h' (str1 (c_short k)))) /\ long_ok (c_long k) /\ n = c_long k)))
  end.

(** ** Objections *)

(** the first of a list of objections that applies *)
Fixpoint first_of (l : list (Prop * string)) (m : option string) : Prop :=
  match l with
  | [] => m = None
  | (P, t) :: l' => (P /\ m = Some t) \/ (~ P /\ first_of l' m)
  end.

Definition too_late (h : list call) (fn : string) : Prop * string :=
  (In CParse h, fn +s+ " may only be used before calling parse().").

Definition name_objections (h : list call) (k : config) : list (Prop * string) :=
  [(c_short k = "000"%char /\ c_long k = "", "Short and long identifiers may not both be empty.");
   (c_short k <> "000"%char /\ ~ short_ok (c_short k), "Short identifiers may only contain alphanumeric characters, '_', or '@'.");
   (c_short k <> "000"%char /\ taken h (str1 (c_short k)), "Short identifier '" +s+ str1 (c_short k) +s+ "' was already used before.");
   (String.length (c_long k) = 1%nat, "Long identifiers must be either empty or longer than one character.");
   (begins "-" (c_long k) = true, "Long identifiers may not use '-' as first character.");
   (exists c, In c (chars (c_long k)) /\ c <> "-"%char /\ ~ In c name_chars,
      "Long identifiers may only contain alphanumeric characters, '_', '-', or '@'.");
   (taken h (c_long k), "Long identifier '" +s+ c_long k +s+ "' was already used before.")].

(** [subs]: the subcommands so far; [ds]: the declarations accepted so far; [vs]: the variables *)
Definition objections (h : list call) (subs : list string) (ds : list decl) (vs : store) (c : call) : list (Prop * string) :=
  match c with
  | CAddOption x t k =>
      too_late h "add_option" :: name_objections h k ++
      [(c_required k = true /\ c_default_message k <> "", "A required option cannot have a default message.")]
  | CAddFlag x k =>
      too_late h "add_flag" :: name_objections h k ++
      [(c_default_message k <> "", "A flag may not have a default message because the default is always `false`.");
       (vs x = VBool true, "A flag's default value must be false.")]
  | CAddPositional x t k =>
      [too_late h "add_positional_option";
       (c_short k <> "000"%char \/ c_long k <> "",
          "Positional options are identified by their position on the command line. Short or long ids are not permitted!");
       (c_advanced k = true \/ c_hidden k = true,
          "Positional options are always required and therefore cannot be advanced nor hidden!");
       (subs <> [], "You may only specify flags and options for the top-level parser.");
       (exists t', In t' (pos_types ds) /\ is_container t' = true,
          "You added a positional option with a list value before so you cannot add any other positional options.");
       (c_default_message k <> "", "A positional option may not have a default message because it is always required.")]
  | CAddSection _ _ => [too_late h "add_section"]
  | CAddSubsection _ _ => [too_late h "add_subsection"]
  | CAddLine _ _ _ => [too_late h "add_line"]
  | CAddListItem _ _ _ => [too_late h "add_list_item"]
  | _ => []
  end.

Definition verdict (m : option string) : res bool :=
  match m with None => Ret true | Some t => Throw (Exn KDesign t) end.

(** ** Texts known as options *)

(** an option whose names were in order is known on the command line, even if it was rejected afterwards *)
Fixpoint announced (h : list call) (t : string) : Prop :=
  match h with
  | [] => False
  | c :: h' =>
      announced h' t \/
      (~ In CParse h' /\
       exists x ty k, c = CAddOption x ty k /\ first_of (name_objections h' k) None /\ exists i, In i (config_idents k) /\ t = dashed i)
  end.

(** the calls of a program, the last one first *)
Definition history (log : list (call * res bool)) : list call := rev (map fst log).
(** [opts]: the texts known as options after the program [log] *)
Definition announces (log : list (call * res bool)) (opts : list string) : Prop := forall s, In s opts <-> announced (history log) s.

(** ** Declarations in order *)

Definition call_of (d : decl) : call :=
  match d with DOption x t c => CAddOption x t c | DFlag x c => CAddFlag x c | DPositional x t c => CAddPositional x t c end.

(** nothing but its names can be wrong with a declaration *)
Definition plain_decl (vs : store) (d : decl) : Prop :=
  match d with
  | DOption _ _ k => (c_short k <> "000"%char \/ c_long k <> "") /\ (c_required k = true -> c_default_message k = "")
  | DFlag x k => (c_short k <> "000"%char \/ c_long k <> "") /\ c_default_message k = "" /\ vs x <> VBool true
  | DPositional _ _ k => c_short k = "000"%char /\ c_long k = "" /\ c_advanced k = false /\ c_hidden k = false /\ c_default_message k = ""
  end.
