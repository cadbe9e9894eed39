(** Properties of the helpers of the unit tests: read_access, write_access (C102) and tmp_filename (C103). *)
From Verif Require Import Base StrLib Fs Validators ValidatorsSpec Posix PosixSpec PosixProofs PosixWrite PosixFiles PropPosix TestFiles TestFilesSpec TestFilesProofs.

(** ** C102 *)

(** read_access: there is an entry at the end of the links, and it may be read *)
Theorem C102_read : forall cwd f p, read_access cwd f p = true <-> exists k nd, resolve cwd f true p = Here k /\ f k = Some nd /\ readable nd = true.
Proof. exact read_lemma. Qed.
Print Assumptions C102_read.

Example C102_read_case : read_access home world "to_file" = true /\ read_access home world "to_dir" = true /\ read_access home world "to_nothing" = false /\
  read_access home world "loop" = false /\ read_access home world "locked/x" = false.
Proof. repeat split. Qed.

(** write_access of what is no directory: the answer is whether it can be opened for writing, and it is opened: a file becomes empty, a missing
    file is made *)
Theorem C102_write_file : forall cwd f p, (forall m, status cwd f p <> StNode (RDir m)) -> status cwd f p <> StError ->
  exists f', write_access cwd f p = (f', Some (match opens cwd f p with Some _ => true | None => false end)) /\
  match opens cwd f p with Some (k, nd) => put k (Some nd) f f' | None => same f f' end.
Proof. exact write_file_lemma. Qed.
Print Assumptions C102_write_file.

Example C102_write_file_case : status home world "to_file" = StNode (RFile "precious" rall) /\ snd (write_access home world "to_file") = Some true /\
  opens home world "to_file" = Some (["data"; "b.txt"], RFile "" rall) /\ snd (write_access home world "ro.txt") = Some false /\
  snd (write_access home world "to_nothing") = Some true /\ snd (write_access home world "loop") = None.
Proof. repeat split. Qed.

(** write_access of a directory without an entry of the name it uses: nothing changes, and the answer is whether entries can be made in it *)
Theorem C102_write_directory : forall cwd f p T m, sane f -> resolve cwd f true p = Here T -> f T = Some (RDir m) -> f (T ++ ["sharg_test_write_access"]) = None ->
  exists f', write_access cwd f p = (f', Some (x_search m && x_write m)) /\ same f f'.
Proof. exact write_directory_lemma. Qed.
Print Assumptions C102_write_directory.

Example C102_write_directory_case : resolve home world true "to_dir/" = Here ["data"] /\ world ["data"] = Some (RDir rall) /\
  world ["data"; "sharg_test_write_access"] = None /\ snd (write_access home world "to_dir/") = Some true /\
  snd (write_access home world "locked") = Some false /\ snd (write_access home world "fixed") = Some false.
Proof. repeat split. Qed.

(** The property "asking whether one can write changes no entry" is false: the content of the file is lost *)
Theorem C102_unchanged_refuted : exists cwd f p k, sane f /\ snd (write_access cwd f p) = Some true /\ f k = Some (RFile "precious" rall) /\
  fst (write_access cwd f p) k = Some (RFile "" rall).
Proof. exists home, world, "to_file", ["data"; "b.txt"]. split; [exact world_sane|]. repeat split; vm_compute; reflexivity. Qed.
Print Assumptions C102_unchanged_refuted.

(** a missing file is there afterwards, and an entry of the directory that has the name write_access uses is gone *)
Definition with_entry : rfs := has [([], RDir rall); (["data"], RDir rall); (["data"; "sharg_test_write_access"], RFile "mine" rall)].
Example C102_made : world ["home"; "new"] = None /\ fst (write_access home world "new") ["home"; "new"] = Some (RFile "" rall).
Proof. split; vm_compute; reflexivity. Qed.
Example C102_gone : write_access [] with_entry "data" = (fst (write_access [] with_entry "data"), Some true) /\
  fst (write_access [] with_entry "data") ["data"; "sharg_test_write_access"] = None.
Proof. split; vm_compute; reflexivity. Qed.

(** ** C103 *)

(** The constructor: it either throws and changes nothing, for one of the four reasons listed, or makes one empty directory whose name was not
    taken *)
Theorem C103_constructor : forall cwd tmp tries f name f' r, Forall no_slash tries -> tmp_new cwd tmp tries f name = (f', r) ->
  match r with
  | inl e => f' = f /\ (name = None /\ e = Some "Empty file name!" \/ e = None /\ (forall T, resolve cwd f true tmp = Here T -> ~ is_dir f T) \/
      e = Some "Could not create temporary directory with mkdtemp!" /\ exists T m, resolve cwd f true tmp = Here T /\ f T = Some (RDir m) /\
        (x_search m = false \/ x_write m = false \/ forall s, In s tries -> f (T ++ [test_name s]) <> None))
  | inr t => exists n T m s, name = Some n /\ resolve cwd f true tmp = Here T /\ f T = Some (RDir m) /\ x_search m = true /\ x_write m = true /\ In s tries /\
      f (T ++ [test_name s]) = None /\ f' = rupd f (T ++ [test_name s]) (Some (RDir rall)) /\
      tf_dir t = path_join tmp (test_name s) /\ tf_path t = path_append (tf_dir t) n
  end.
Proof. exact new_lemma. Qed.
Print Assumptions C103_constructor.

(** it does not give up while one of the names the C library tries is free *)
Theorem C103_succeeds : forall cwd tmp tries f n T m s, Forall no_slash tries -> resolve cwd f true tmp = Here T -> f T = Some (RDir m) ->
  x_search m = true -> x_write m = true -> In s tries -> f (T ++ [test_name s]) = None -> exists t, snd (tmp_new cwd tmp tries f (Some n)) = inr t.
Proof. exact new_succeeds. Qed.
Print Assumptions C103_succeeds.

Definition taken : rfs := has [([], RDir rall); (["tmp"], RDir rall); (["tmp"; "seqan_test_XXabcdef"], RFile "other" rall)].
Example C103_constructor_case :
  snd (tmp_new [] "/tmp" ["abcdef"; "ghijkl"] taken (Some "a.txt")) =
    inr {| tf_path := "/tmp/seqan_test_XXghijkl/a.txt"; tf_dir := "/tmp/seqan_test_XXghijkl" |} /\
  fst (tmp_new [] "/tmp" ["abcdef"; "ghijkl"] taken (Some "a.txt")) ["tmp"; "seqan_test_XXghijkl"] = Some (RDir rall) /\
  snd (tmp_new [] "/tmp" ["abcdef"] taken (Some "a.txt")) = inl (Some "Could not create temporary directory with mkdtemp!") /\
  snd (tmp_new [] "/tmp" ["ghijkl"] taken None) = inl (Some "Empty file name!") /\ snd (tmp_new [] "/nothing" ["ghijkl"] taken (Some "a.txt")) = inl None.
Proof. repeat split; vm_compute; reflexivity. Qed.

(** The path of the object, for a name that is one component: a place in the new directory, where there is nothing yet *)
Theorem C103_path : forall cwd tmp tries f n f' t, Forall no_slash tries -> no_slash n -> n <> "" -> n <> "." -> n <> ".." -> sane f ->
  tmp_new cwd tmp tries f (Some n) = (f', inr t) ->
  exists k, f k = None /\ put k (Some (RDir rall)) f f' /\ resolve cwd f' false (tf_dir t) = Here k /\
    (forall b, resolve cwd f' b (tf_path t) = Nothing (k ++ [n]) false).
Proof. exact file_lemma. Qed.
Print Assumptions C103_path.

Ltac plain := intros a b E; repeat (destruct a as [|? a]; cbn in E; [discriminate E|injection E as _ E]); destruct a; discriminate E.
Lemma plain_tries : Forall no_slash ["abcdef"; "ghijkl"].
Proof. apply Forall_cons; [plain|]. apply Forall_cons; [plain|apply Forall_nil]. Qed.
Example C103_path_case : let f' := fst (tmp_new home "to_dir" ["abcdef"; "ghijkl"] world (Some "a.txt")) in
  snd (tmp_new home "to_dir" ["abcdef"; "ghijkl"] world (Some "a.txt")) = inr {| tf_path := "to_dir/seqan_test_XXabcdef/a.txt"; tf_dir := "to_dir/seqan_test_XXabcdef" |} /\
  Forall no_slash ["abcdef"; "ghijkl"] /\ sane world /\
  resolve home f' true "to_dir/seqan_test_XXabcdef/a.txt" = Nothing ["data"; "seqan_test_XXabcdef"; "a.txt"] false.
Proof. split; [vm_compute; reflexivity|]. split; [exact plain_tries|]. split; [exact world_sane|]. vm_compute. reflexivity. Qed.

(** The property "the path of an object lies in its directory" is false: an absolute name replaces the directory, and the destructor leaves the
    file where it is *)
Theorem C103_inside_refuted : exists cwd tmp tries f n f' t k, sane f /\ Forall no_slash tries /\ tmp_new cwd tmp tries f (Some n) = (f', inr t) /\
  resolve cwd f' true (tf_dir t) = Here k /\ resolve cwd f' true (tf_path t) = Here ["home"; "a.txt"] /\ ~ at_or_below k ["home"; "a.txt"].
Proof.
  exists home, "/data", ["abcdef"; "ghijkl"], world, "/home/a.txt", (fst (tmp_new home "/data" ["abcdef"; "ghijkl"] world (Some "/home/a.txt"))),
    {| tf_path := "/home/a.txt"; tf_dir := "/data/seqan_test_XXabcdef" |}, ["data"; "seqan_test_XXabcdef"].
  split; [exact world_sane|]. split; [exact plain_tries|]. split; [vm_compute; reflexivity|]. split; [vm_compute; reflexivity|].
  split; [vm_compute; reflexivity|]. intros [l E]. discriminate E.
Qed.
Print Assumptions C103_inside_refuted.

(** What a test does to the file system, whatever it makes, moves, assigns, destroys and writes in the directories of its objects: an entry that was there before is never touched. *)
Theorem C103_untouched : forall cwd strict tmp f0, sane f0 -> forall f o lost k', session cwd strict tmp f0 f o lost -> f0 k' <> None -> f k' = f0 k'.
Proof. exact session_kept. Qed.
Print Assumptions C103_untouched.

(** All that is new lies in the directory of an object there is, or in one that an assignment forgot *)
Theorem C103_elsewhere : forall cwd strict tmp f0, sane f0 -> forall f o lost k', session cwd strict tmp f0 f o lost ->
  (forall d k, In d lost \/ (exists i t, o i = Some t /\ tf_dir t = d) -> names_place cwd f d k -> ~ at_or_below k k') -> f k' = f0 k'.
Proof. exact session_lemma. Qed.
Print Assumptions C103_elsewhere.

(** When all objects are destroyed, none was assigned to and no destructor met a directory it may not change, the file system is the one the test started with *)
Theorem C103_lifetime : forall cwd strict tmp f0, sane f0 -> forall f o, session cwd strict tmp f0 f o [] -> (forall i, o i = None) -> same f0 f.
Proof. exact session_end. Qed.
Print Assumptions C103_lifetime.

(** This is false if objects are assigned to: the move assignment is the default one, and does not remove the directory of the object that is
    assigned to *)
Definition first_new := tmp_new [] "/tmp" ["abcdef"; "ghijkl"] taken (Some "a.txt").
Definition first_file : tmpfile := {| tf_path := "/tmp/seqan_test_XXghijkl/a.txt"; tf_dir := "/tmp/seqan_test_XXghijkl" |}.
Definition second_new := tmp_new [] "/tmp" ["mnopqr"] (fst first_new) (Some "b.txt").
Definition second_file : tmpfile := {| tf_path := "/tmp/seqan_test_XXmnopqr/b.txt"; tf_dir := "/tmp/seqan_test_XXmnopqr" |}.
Definition two_objects : objects := set_object (set_object (fun _ => None) 0 (Some first_file)) 1 (Some second_file).
Definition assigned : objects := tmp_assign two_objects 1 0 second_file.
Definition dropped : rfs := tmp_drop [] true (tmp_drop [] true (fst second_new) moved_from) second_file.

Lemma taken_sane : sane taken.
Proof.
  split; [eexists; reflexivity|]. intros k c n H. apply has_in in H. cbn [In] in H.
  repeat (destruct H as [H|H]; [injection H as E _; symmetry in E;
    first [now apply app_eq_nil in E as [_ [=]]|
           match type of E with _ ++ _ = ?l => let h := eval cbv in (removelast l) in let t := eval cbv in (last l EmptyString) in
             change l with (h ++ [t]) in E end; apply app_inj_tail in E as [-> _]; eexists; reflexivity]|]).
  contradiction H.
Qed.
Lemma plain_third : Forall no_slash ["mnopqr"].
Proof. apply Forall_cons; [plain|apply Forall_nil]. Qed.

Lemma two_session : session [] true "/tmp" taken (fst second_new) two_objects [].
Proof.
  apply (s_new [] true "/tmp" taken (fst first_new) (set_object (fun _ => None) 0 (Some first_file)) [] 1 ["mnopqr"] (Some "b.txt")); [|reflexivity|exact plain_third|vm_compute; reflexivity].
  apply (s_new [] true "/tmp" taken taken (fun _ => None) [] 0 ["abcdef"; "ghijkl"] (Some "a.txt")); [apply s_start|reflexivity|exact plain_tries|vm_compute; reflexivity].
Qed.

(** directories without entries are open *)
Lemma open_empty f d k : (forall k', names_place [] f d k' -> k' = k) -> f k = Some (RDir rall) -> (forall x l, f (k ++ x :: l) = None) -> open_below [] f d.
Proof. intros U D N k1 k' m P [l ->] E. rewrite (U k1 P) in E. destruct l as [|x l]; [|rewrite N in E; discriminate E]. rewrite app_nil_r, D in E. injection E as <-. auto. Qed.

Lemma second_open : open_below [] (fst second_new) (tf_dir second_file).
Proof.
  apply (open_empty _ _ ["tmp"; "seqan_test_XXmnopqr"]).
  - intros k [H|H]; vm_compute in H; congruence.
  - vm_compute. reflexivity.
  - intros x l. vm_compute. reflexivity.
Qed.
Lemma first_open : open_below [] (tmp_drop [] true (fst second_new) second_file) (tf_dir first_file).
Proof.
  apply (open_empty _ _ ["tmp"; "seqan_test_XXghijkl"]).
  - intros k [H|H]; vm_compute in H; congruence.
  - vm_compute. reflexivity.
  - intros x l. vm_compute. reflexivity.
Qed.
Lemma nowhere_open f : open_below [] f "".
Proof. intros k k' m H. exfalso. exact (empty_place [] f k H). Qed.

Example C103_lifetime_case : session [] true "/tmp" taken (tmp_drop [] true (tmp_drop [] true (fst second_new) second_file) first_file)
    (set_object (set_object two_objects 1 None) 0 None) [] /\
  (forall i, set_object (set_object two_objects 1 None) 0 None i = None) /\ (fst second_new) ["tmp"; "seqan_test_XXmnopqr"] = Some (RDir rall).
Proof.
  split; [|split; [intros [|[|i]]; reflexivity|vm_compute; reflexivity]].
  apply s_drop; [|reflexivity|exact first_open]. apply s_drop; [|reflexivity|exact second_open]. exact two_session.
Qed.

Theorem C103_assign_refuted : exists cwd strict tmp f0 f o lost, sane f0 /\ session cwd strict tmp f0 f o lost /\ (forall i, o i = None) /\ ~ same f0 f.
Proof.
  exists [], true, "/tmp", taken, dropped, (set_object (set_object assigned 1 None) 0 None), ["/tmp/seqan_test_XXghijkl"].
  split; [exact taken_sane|]. split; [|split].
  - apply s_drop; [|reflexivity|exact second_open]. apply s_drop; [|reflexivity|apply nowhere_open].
    apply (s_assign [] true "/tmp" taken (fst second_new) two_objects [] 1 0 second_file first_file two_session); [reflexivity|reflexivity|discriminate].
  - intros [|[|i]]; reflexivity.
  - intros H. specialize (H ["tmp"; "seqan_test_XXghijkl"]). vm_compute in H. discriminate H.
Qed.
Print Assumptions C103_assign_refuted.

(** nor is all removed if the test leaves a directory without permissions behind: the destructor ignores the error *)
Definition no_mode : rmeta := {| x_read := false; x_write := false; x_search := false |}.
Definition boxed : rfs := rupd (fst first_new) ["tmp"; "seqan_test_XXghijkl"; "box"] (Some (RDir no_mode)).
Example C103_stuck_case : session [] true "/tmp" taken boxed (set_object (set_object (fun _ => None) 0 (Some first_file)) 0 None) ["/tmp/seqan_test_XXghijkl"] /\
  boxed ["tmp"; "seqan_test_XXghijkl"] = Some (RDir rall) /\ taken ["tmp"; "seqan_test_XXghijkl"] = None.
Proof.
  assert (S1 : session [] true "/tmp" taken (fst first_new) (set_object (fun _ => None) 0 (Some first_file)) [])
    by (apply (s_new [] true "/tmp" taken taken (fun _ => None) [] 0 ["abcdef"; "ghijkl"] (Some "a.txt")); [apply s_start|reflexivity|exact plain_tries|vm_compute; reflexivity]).
  assert (Sb : sane boxed).
  { apply put_sane; [|vm_compute; reflexivity|eexists; vm_compute; reflexivity]. exact (iv_sane _ _ _ _ _ _ (session_inv _ _ _ _ taken_sane _ _ _ S1)). }
  split; [|split; vm_compute; reflexivity].
  apply (s_drop_stuck [] true "/tmp" taken boxed _ [] 0 first_file boxed); [|reflexivity| |exact Sb|intros k' H; now destruct H].
  - apply (s_work [] true "/tmp" taken (fst first_new) _ [] boxed S1 Sb). intros k' H. exists 0, first_file, ["tmp"; "seqan_test_XXghijkl"].
    split; [reflexivity|]. split; [left; vm_compute; reflexivity|]. destruct (list_eq_dec string_dec k' ["tmp"; "seqan_test_XXghijkl"; "box"]) as [->|N]; [now exists ["box"]|].
    exfalso. apply H. now apply rupd_other.
  - intros O. destruct (O ["tmp"; "seqan_test_XXghijkl"] ["tmp"; "seqan_test_XXghijkl"; "box"] no_mode) as [E _]; [left; vm_compute; reflexivity|now exists ["box"]|vm_compute; reflexivity|discriminate E].
Qed.
