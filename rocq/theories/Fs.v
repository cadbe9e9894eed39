(** Abstract file system, as far as the validators and the version check use it, and
    include/sharg/detail/safe_filesystem_entry.hpp.

    Simplifications (recorded in DESIGN.md): no symbolic links, no ".." components, no search
    permission on directories (so [exists]/[is_directory] never throw), permissions are the
    effective ones of the running process.  Concurrent modification is modelled for the version check
    only (VersionSteps.v). *)
From Verif Require Import Base.

(** path components; the root (or the working directory) is the empty list *)
Definition key := list string.

Record fmeta := { f_readable : bool; f_writable : bool }.

Inductive node :=
| NFile (content : string) (m : fmeta)
| NDir (m : fmeta)
| NOther (m : fmeta).           (* fifo, device, socket *)

Definition fs := key -> option node.

Fixpoint list_eqb (a b : list string) : bool :=
  match a, b with
  | [], [] => true
  | x :: a', y :: b' => String.eqb x y && list_eqb a' b'
  | _, _ => false
  end.

Fixpoint list_prefixb (a b : list string) : bool :=
  match a, b with
  | [], _ => true
  | x :: a', y :: b' => String.eqb x y && list_prefixb a' b'
  | _ :: _, [] => false
  end.

(** ** Paths *)

Definition slash : chr := "/".

(** split at '/', dropping empty components and "." *)
Fixpoint split_slash (s acc : string) : list string :=
  match s with
  | EmptyString => [acc]
  | String c s' => if Ascii.eqb c slash then acc :: split_slash s' EmptyString
                   else split_slash s' (acc +s+ str1 c)
  end.

Definition comps (s : string) : key :=
  filter (fun x => negb (is_empty x) && negb (String.eqb x ".")) (split_slash s EmptyString).

(** [std::filesystem::path::operator/=] for a relative right operand *)
Fixpoint last_chr (s : string) : option chr :=
  match s with
  | EmptyString => None
  | String c EmptyString => Some c
  | String _ s' => last_chr s'
  end.

Definition path_join (p q : string) : string :=
  match last_chr p with
  | None => q
  | Some c => if Ascii.eqb c slash then p +s+ q else p +s+ "/" +s+ q
  end.

(** [path::filename()] on POSIX: everything after the last '/' *)
Fixpoint filename_aux (s acc : string) : string :=
  match s with
  | EmptyString => acc
  | String c s' => if Ascii.eqb c slash then filename_aux s' EmptyString
                   else filename_aux s' (acc +s+ str1 c)
  end.
Definition filename (p : string) : string := filename_aux p EmptyString.

(** index of the last '.' *)
Fixpoint rfind_dot (s : string) : option nat :=
  match s with
  | EmptyString => None
  | String c s' => match rfind_dot s' with
                   | Some n => Some (S n)
                   | None => if Ascii.eqb c "." then Some O else None
                   end
  end.

(** [path::has_extension()]: the file name is neither "." nor "..", and its last '.' is not
    its first character *)
Definition has_extension (p : string) : bool :=
  let f := filename p in
  if (String.eqb f "." || String.eqb f "..")%bool then false
  else match rfind_dot f with Some (S _) => true | _ => false end.

(** ** Queries *)

Definition lookup (f : fs) (p : string) : option node :=
  if is_empty p then None else f (comps p).

Definition exists_ (f : fs) (p : string) : bool :=
  match lookup f p with Some _ => true | None => false end.
Definition is_directory (f : fs) (p : string) : bool :=
  match lookup f p with Some (NDir _) => true | _ => false end.
Definition is_regular_file (f : fs) (p : string) : bool :=
  match lookup f p with Some (NFile _ _) => true | _ => false end.

(** directory containing a key *)
Definition parent_key (k : key) : key := removelast k.

(** can entries be created in / removed from the directory holding [k]? *)
Definition parent_writable (f : fs) (k : key) : bool :=
  match k with
  | [] => false
  | _ => match f (parent_key k) with
         | Some (NDir m) => f_writable m
         | _ => false
         end
  end.

(** ** Modifications *)

Definition upd (f : fs) (k : key) (n : option node) : fs :=
  fun k' => if list_eqb k k' then n else f k'.

Definition rw : fmeta := {| f_readable := true; f_writable := true |}.

(** [std::ifstream{p}] opened successfully *)
Definition open_read (f : fs) (p : string) : bool :=
  match lookup f p with
  | Some (NFile _ m) => f_readable m
  | Some (NDir m) => f_readable m          (* opening succeeds, reading would not *)
  | Some (NOther m) => f_readable m
  | None => false
  end.

(** [std::ofstream{p}] (truncating): resulting file system and whether it is open and good *)
Definition open_write (f : fs) (p : string) : fs * bool :=
  if is_empty p then (f, false) else
  let k := comps p in
  match f k with
  | Some (NFile _ m) => if f_writable m then (upd f k (Some (NFile EmptyString m)), true) else (f, false)
  | Some (NDir _) => (f, false)
  | Some (NOther m) => (f, f_writable m)
  | None => if parent_writable f k then (upd f k (Some (NFile EmptyString rw)), true) else (f, false)
  end.

(** [std::filesystem::create_directory(p, ec)]: new state and whether [ec] is set *)
Definition create_directory (f : fs) (p : string) : fs * bool :=
  if is_empty p then (f, true) else
  let k := comps p in
  match f k with
  | Some (NDir _) => (f, false)
  | Some _ => (f, true)
  | None => if parent_writable f k then (upd f k (Some (NDir rw)), false) else (f, true)
  end.

(** [std::filesystem::remove(p)] on something that is not a non-empty directory:
    new state and whether an error is reported.  Removing a missing entry is no error. *)
Definition remove (f : fs) (p : string) : fs * bool :=
  match lookup f p with
  | None => (f, false)
  | Some _ => if parent_writable f (comps p) then (upd f (comps p) None, false) else (f, true)
  end.

(** [std::filesystem::remove_all(p, ec)]: new state and whether [ec] is set.
    Simplification: a directory is removed with everything below it or not at all. *)
Definition remove_all (f : fs) (p : string) : fs * bool :=
  match lookup f p with
  | None => (f, false)
  | Some _ => if parent_writable f (comps p)
              then (fun k => if list_prefixb (comps p) k then None else f k, false)
              else (f, true)
  end.

(** safe_filesystem_entry.hpp 53-59: the destructor calls [remove_all] and asserts that no
    error occurred.  Result: new state and whether the assertion holds. *)
Definition guard_destroy (f : fs) (p : string) : fs * bool :=
  let '(f', err) := remove_all f p in (f', negb err).
