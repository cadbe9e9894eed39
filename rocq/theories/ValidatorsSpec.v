(** Specification vocabulary for the shipped validators, independent of their code. *)
From Verif Require Import Base Fs Values ValuesSpec Validators.

(** the elements a validator has to look at *)
Definition elements (x : val) : list val := match x with VList l => l | _ => [x] end.

(** [v] is a value of type [e] (types with exact equality only) *)
Definition has_type (e : ety) (v : val) : Prop :=
  match e, v with
  | TInt sg bits, VInt z => in_type sg bits z
  | TChar, VInt z => in_type true 8 z
  | TBool, VBool _ => True
  | TString, VStr _ => True
  | TEnum _ _, VEnum _ => True
  | _, _ => False
  end.

(** ** Chains *)

(** validators joined by '|', with the parentheses the programmer wrote *)
Inductive vtree := Leaf (v : validator) | Join (l r : vtree).

Fixpoint leaves (t : vtree) : list validator :=
  match t with Leaf v => [v] | Join l r => leaves l ++ leaves r end.

(** what the code runs *)
Fixpoint joined (t : vtree) : validator :=
  match t with Leaf v => v | Join l r => chain (joined l) (joined r) end.

(** run one after the other until the first failure *)
Inductive runs (x : val) : fs -> list validator -> fs -> vout -> Prop :=
| runs_end f : runs x f [] f VOk
| runs_next f v vs f1 f2 r : v f x = (f1, VOk) -> runs x f1 vs f2 r -> runs x f (v :: vs) f2 r
| runs_stop f v vs f1 r : v f x = (f1, r) -> r <> VOk -> runs x f (v :: vs) f1 r.

(** ** File names *)

Definition uppers : list chr := chars "ABCDEFGHIJKLMNOPQRSTUVWXYZ".
Definition lowers : list chr := chars "abcdefghijklmnopqrstuvwxyz".
Definition same_letter (c d : chr) : Prop :=
  c = d \/ In (c, d) (combine uppers lowers) \/ In (d, c) (combine uppers lowers).
(** equal up to case *)
Definition same_text (a b : string) : Prop := Forall2 same_letter (chars a) (chars b).

Definition seven_bit (s : string) : Prop := forall c, In c (chars s) -> (code c < 128)%N.

(** [a] is the last component of path [p] *)
Definition last_component (p a : string) : Prop :=
  scontains slash a = false /\ (p = a \/ exists d, p = d +s+ "/" +s+ a).

(** the documented meaning: the text behind some dot, which is not the first character, is one of
    the extensions *)
Definition ext_listed (exts : list string) (name : string) : Prop :=
  exists a b ext, name = a +s+ "." +s+ b /\ a <> "" /\ In ext exts /\ same_text b ext.

(** what the code checks instead: the name has an extension at all and ends with a listed text
    (which does not reach back to a leading dot) *)
Definition ext_suffix (exts : list string) (name : string) : Prop :=
  (exists a b, name = a +s+ "." +s+ b /\ a <> "") /\
  exists a b ext, name = a +s+ b /\ In ext exts /\ same_text b ext /\
                  (a = "" -> snth 0 name <> Some "."%char).

(** ** File systems *)

Definition same_fs (f g : fs) : Prop := forall k, f k = g k.

(** entries exist only inside directories *)
Definition tree (f : fs) : Prop := forall k x, f (k ++ [x]) <> None -> exists m, f k = Some (NDir m).

(** [k'] is [k] or lies below it *)
Definition at_or_below (k k' : key) : Prop := exists l, k' = k ++ l.

(** a new entry can be put at path [p]: the directory it lies in exists and is writable *)
Definition can_create (f : fs) (p : string) : Prop :=
  exists d x m, comps p = d ++ [x] /\ f d = Some (NDir m) /\ f_writable m = true.

(** the file name check of a file validator, for names the code handles without undefined behaviour *)
Definition plain_name (exts : list string) (p name : string) : Prop :=
  last_component p name /\ name <> ".." /\ seven_bit name /\ Forall seven_bit exts.
Definition name_ok (exts : list string) (name : string) : Prop := exts = [] \/ ext_suffix exts name.

(** the paths a value stands for *)
Definition paths_of (x : val) (ps : list string) : Prop := elements x = map VPath ps \/ elements x = map VStr ps.

(** [residue sg bits z y]: [y] is the number of the type that differs from [z] by a multiple of 2^bits *)
Definition residue (sg : bool) (bits : N) (z y : Z) : Prop := in_type sg bits y /\ exists k, (z = y + k * 2 ^ Z.of_N bits)%Z.

(** what is at [p] may be opened for writing (a missing entry can be made if [can_create]) *)
Definition writable_entry (f : fs) (p : string) : Prop :=
  match lookup f p with
  | None => True
  | Some (NFile _ m) | Some (NOther m) => f_writable m = true
  | Some (NDir _) => False
  end.

(** what is left at [p] after it was opened for writing and removed, as far as possible *)
Definition left_after (f : fs) (p : string) (n : option node) : Prop :=
  (can_create f p -> n = None) /\
  (~ can_create f p -> n = match f (comps p) with
                           | Some (NFile c m) => Some (NFile (if f_writable m then "" else c) m)
                           | x => x
                           end).
