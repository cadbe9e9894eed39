(** The helpers of the unit tests that touch the file system: test/include/sharg/test/tmp_filename.hpp and
    test/include/sharg/test/file_access.hpp, on the file system of Posix.v.

    Simplifications: those of Posix.v; mkdtemp is glibc's (the last six characters of the template are replaced; names that are taken are
    tried again), the names it tries are given; a moved-from std::filesystem::path is empty, as in libstdc++. *)
From Verif Require Import Base StrLib Fs Posix.

Section Cwd.
Variable cwd : key.
Variable strict : bool.

(** ** file_access.hpp *)

(** file_access.hpp 21-26 (read_access): open(file, std::ios::in); directories can be opened for reading *)
Definition read_access (f : rfs) (p : string) : bool :=
  match status cwd f p with
  | StNode (RFile _ m) | StNode (RDir m) | StNode (ROther m) => x_read m
  | _ => false
  end.

(** file_access.hpp 29-51 (write_access): std::ios::out without std::ios::app empties the file.  [None]: a std::filesystem::filesystem_error *)
Definition write_access (f : rfs) (p : string) : rfs * option bool :=
  match status cwd f p with
  | StError => (f, None)
  | StNode (RDir _) =>
      let test_file := path_join p "sharg_test_write_access" in
      let '(f1, result) := ropen_write cwd f test_file in
      if result then let '(f2, err) := rremove cwd f1 test_file in (f2, if err then None else Some true)
      else (f1, Some false)
  | _ => let '(f1, result) := ropen_write cwd f p in (f1, Some result)
  end.

(** ** tmp_filename.hpp *)

(** mkdir(2), which mkdtemp of tmp_filename.hpp 100 uses *)
Inductive made := Made (f : rfs) | Taken | Failed.
Definition mkdir (f : rfs) (p : string) : made :=
  if is_empty p then Failed else
  match walk f false max_links (if absolute p then [] else cwd) (trimmed (parts p)) with
  | Nothing k _ => if rparent_writable f k then Made (rupd f k (Some (RDir rall))) else Failed
  | Here _ => Taken
  | _ => Failed
  end.

(** mkdtemp(3), called in tmp_filename.hpp 100; [tries]: what it puts in place of the last six characters, one attempt after the other *)
Fixpoint mkdtemp (f : rfs) (template : string) (tries : list string) : rfs * option string :=
  match tries with
  | [] => (f, None)
  | s :: tries' =>
      let p := stake (String.length template - 6) template +s+ s in
      match mkdir f p with
      | Made f' => (f', Some p)
      | Taken => mkdtemp f template tries'
      | Failed => (f, None)
      end
  end.

(** the members, tmp_filename.hpp 132-136 *)
Record tmpfile := { tf_path : string; tf_dir : string }.
Definition moved_from : tmpfile := {| tf_path := ""; tf_dir := "" |}.

(** operator/ of paths, tmp_filename.hpp 95 and 103: an absolute path on the right replaces the left one *)
Definition path_append (p q : string) : string := if absolute q then q else path_join p q.

(** the constructor, tmp_filename.hpp 88-109; [tmp]: what temp_directory_path looks at, which throws if it is no directory.  The text of its exceptions is
    left out, except for those written here *)
Definition tmp_new (tmp : string) (tries : list string) (f : rfs) (name : option string) : rfs * (option string + tmpfile) :=
  match name with
  | None => (f, inl (Some "Empty file name!"))
  | Some n =>
      match status cwd f tmp with
      | StNode (RDir _) =>
          match mkdtemp f (path_append tmp "seqan_test_XXXXXXXX") tries with
          | (f', Some d) => (f', inr {| tf_path := path_append d n; tf_dir := d |})
          | (f', None) => (f', inl (Some "Could not create temporary directory with mkdtemp!"))
          end
      | _ => (f, inl None)
      end
  end.

(** the destructor, tmp_filename.hpp 117-121; the error code is ignored.  For directories in which every directory can be read, changed and
    searched; for others see [s_drop_stuck] of TestFilesSpec.v *)
Definition tmp_drop (f : rfs) (t : tmpfile) : rfs := fst (rremove_all cwd strict f (tf_dir t)).

(** the objects of a test (tmp_filename.hpp 68-137): a number for each variable *)
Definition objects := nat -> option tmpfile.
Definition set_object (o : objects) (i : nat) (t : option tmpfile) : objects := fun j => if Nat.eqb i j then t else o j.

(** the defaulted move constructor and move assignment, tmp_filename.hpp 76 and 78; assigning to itself does nothing *)
Definition tmp_move (o : objects) (i j : nat) (t : tmpfile) : objects := set_object (set_object o j (Some t)) i (Some moved_from).
Definition tmp_assign (o : objects) (i j : nat) (t : tmpfile) : objects := if Nat.eqb i j then o else tmp_move o i j t.

End Cwd.
