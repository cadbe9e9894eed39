(** Expectations of test/unit/test/tmp_filename_test.cpp and test/unit/test/file_access_test.cpp, evaluated in the model (tests, not proofs).
    The user of the model is not root: where the tests compare with is_root(), the value expected is false. *)
From Verif Require Import Base StrLib Fs Posix TestFiles.

Definition tmp_only : rfs := rupd (rupd (fun _ => None) [] (Some (RDir rall))) ["tmp"] (Some (RDir rall)).
Definition new_in (f : rfs) (tries : list string) (n : string) := tmp_new [] "/tmp" tries f (Some n).
Definition path_of (r : rfs * (option string + tmpfile)) : option string := match snd r with inr t => Some (tf_path t) | inl _ => None end.
Definition there (f : rfs) (p : string) : bool := match status [] f p with StNode _ => true | _ => false end.

(** tmp_filename_test.cpp 13-23: two objects of the same name, the second one first tries the name of the first *)
Example tmp_filename_aggr : let a := new_in tmp_only ["abcdef"] "aggr_test" in let b := new_in (fst a) ["abcdef"; "ghijkl"] "aggr_test" in
  (path_of a, path_of b, there (fst b) "/tmp/seqan_test_XXabcdef", there (fst b) "/tmp/seqan_test_XXghijkl") =
  (Some "/tmp/seqan_test_XXabcdef/aggr_test", Some "/tmp/seqan_test_XXghijkl/aggr_test", true, true).
Proof. vm_compute. reflexivity. Qed.

(** 26-30 *)
Example tmp_filename_nullptr : snd (tmp_new [] "/tmp" ["abcdef"] tmp_only None) = inl (Some "Empty file name!").
Proof. vm_compute. reflexivity. Qed.

(** 33-50: the objects t1 (0) and t2 (1); t2 is moved to t3 (2), t1 to t4 (3) *)
Example tmp_filename_mv : let a := new_in tmp_only ["abcdef"] "mv_ctr_test" in let b := new_in (fst a) ["ghijkl"] "mv_ctr_test" in
  match snd a, snd b with
  | inr t1, inr t2 =>
      let o := set_object (set_object (fun _ => None) 0 (Some t1)) 1 (Some t2) in let o3 := tmp_move o 1 2 t2 in let o4 := tmp_move o3 0 3 t1 in
      (option_map tf_path (o3 0), option_map tf_path (o3 2), option_map tf_path (o4 3), o4 0, o4 1) =
      (Some "/tmp/seqan_test_XXabcdef/mv_ctr_test", Some "/tmp/seqan_test_XXghijkl/mv_ctr_test", Some "/tmp/seqan_test_XXabcdef/mv_ctr_test",
       Some moved_from, Some moved_from)
  | _, _ => False
  end.
Proof. vm_compute. reflexivity. Qed.

(** 53-65 *)
Example tmp_filename_dtr : let a := new_in tmp_only ["abcdef"] "delete_test" in
  match snd a with
  | inr t =>
      let f := fst (ropen_write [] (fst a) (tf_path t)) in let g := tmp_drop [] true f t in
      (there f (tf_path t), there f (tf_dir t), there g (tf_path t), there g (tf_dir t), there g "/tmp") = (true, true, false, false, true)
  | inl _ => False
  end.
Proof. vm_compute. reflexivity. Qed.

(** 132-156: the temporary directory is not writable *)
Definition unwritable : rmeta := {| x_read := true; x_write := false; x_search := true |}.
Definition unreadable : rmeta := {| x_read := false; x_write := true; x_search := true |}.
Example tmp_filename_throw : let f := rupd tmp_only ["tmp"; "sharg_tmp_filename_throw"] (Some (RDir unwritable)) in
  (snd (write_access [] f "/tmp/sharg_tmp_filename_throw"), snd (tmp_new [] "/tmp/sharg_tmp_filename_throw" ["abcdef"] f (Some "throw"))) =
  (Some false, inl (Some "Could not create temporary directory with mkdtemp!")).
Proof. vm_compute. reflexivity. Qed.

(** file_access_test.cpp 67-110 *)
Definition entry (n : rnode) : rfs := rupd tmp_only ["tmp"; "entry"] (Some n).
Example file_access : (map (fun m => read_access [] (entry (RFile "" m)) "/tmp/entry") [rall; unreadable],
  map (fun n => snd (write_access [] (entry n) "/tmp/entry")) [RFile "" rall; RFile "" unwritable; RDir rall; RDir unwritable]) =
  ([true; false], [Some true; Some false; Some true; Some false]).
Proof. vm_compute. reflexivity. Qed.
