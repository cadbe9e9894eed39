(** Vocabulary for the helpers of the unit tests (C102, C103). *)
From Verif Require Import Base Fs Validators ValidatorsSpec Posix PosixSpec TestFiles.

(** the place a path names, whether there is an entry or not *)
Definition names_place (cwd : key) (f : rfs) (p : string) (k : key) : Prop :=
  resolve cwd f false p = Here k \/ resolve cwd f false p = Nothing k false.

(** may the entry be read? *)
Definition readable (n : rnode) : bool := match n with RFile _ m | RDir m | ROther m => x_read m | RLink _ => false end.

(** the name of the directory the C library chose *)
Definition test_name (s : string) : string := "seqan_test_XX" +s+ s.

(** all directories at the path and below can be read, changed and searched: remove_all can remove everything *)
Definition open_below (cwd : key) (f : rfs) (p : string) : Prop :=
  forall k k' m, names_place cwd f p k -> at_or_below k k' -> f k' = Some (RDir m) -> x_read m = true /\ x_write m = true /\ x_search m = true.

(** A test that uses objects of type tmp_filename: it makes, moves, assigns and destroys them, and changes what it likes in the directories of
    the objects it has.  [lost]: directories of objects that were assigned to, and those the destructor could not remove because of a
    directory inside without permissions: some of the entries are gone then ([s_drop_stuck]). *)
Inductive session (cwd : key) (strict : bool) (tmp : string) (f0 : rfs) : rfs -> objects -> list string -> Prop :=
| s_start : session cwd strict tmp f0 f0 (fun _ => None) []
| s_new f o lost i tries name f' t : session cwd strict tmp f0 f o lost -> o i = None -> Forall no_slash tries ->
    tmp_new cwd tmp tries f name = (f', inr t) -> session cwd strict tmp f0 f' (set_object o i (Some t)) lost
| s_throw f o lost tries name f' e : session cwd strict tmp f0 f o lost -> Forall no_slash tries ->
    tmp_new cwd tmp tries f name = (f', inl e) -> session cwd strict tmp f0 f' o lost
| s_work f o lost f' : session cwd strict tmp f0 f o lost -> sane f' ->
    (forall k', f' k' <> f k' -> exists i t k, o i = Some t /\ names_place cwd f (tf_dir t) k /\ at_or_below k k') ->
    session cwd strict tmp f0 f' o lost
| s_move f o lost i j t : session cwd strict tmp f0 f o lost -> o i = Some t -> o j = None ->
    session cwd strict tmp f0 f (tmp_move o i j t) lost
| s_assign f o lost i j t u : session cwd strict tmp f0 f o lost -> o i = Some t -> o j = Some u -> i <> j ->
    session cwd strict tmp f0 f (tmp_assign o i j t) (tf_dir u :: lost)
| s_assign_self f o lost i t : session cwd strict tmp f0 f o lost -> o i = Some t -> session cwd strict tmp f0 f (tmp_assign o i i t) lost
| s_drop f o lost i t : session cwd strict tmp f0 f o lost -> o i = Some t -> open_below cwd f (tf_dir t) ->
    session cwd strict tmp f0 (tmp_drop cwd strict f t) (set_object o i None) lost
| s_drop_stuck f o lost i t f' : session cwd strict tmp f0 f o lost -> o i = Some t -> ~ open_below cwd f (tf_dir t) -> sane f' ->
    (forall k', f' k' <> f k' -> f' k' = None /\ exists k, names_place cwd f (tf_dir t) k /\ at_or_below k k') ->
    session cwd strict tmp f0 f' (set_object o i None) (tf_dir t :: lost).
