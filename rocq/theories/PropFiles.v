(** Verdict, message and effect of the validators for files and directories (C96). *)
From Verif Require Import Base StrLib Fs Values ValuesSpec Validators ValidatorsSpec PromiseSpec PromiseProofs FilesSpec FilesProofs Samples.

(** ** C96: what the validators for files and directories say and do, in every case *)

(** a path leads to exactly one entry *)
Theorem C96_paths : forall p, exists! k, leads p k.
Proof. intros p. exists (comps p). split; [exact (leads_total p)|exact (leads_comps p)]. Qed.
Print Assumptions C96_paths.

(** [plain_name]: names for which the code is defined (C35_non_ascii_refuted) *)
Theorem C96_name : forall exts p name, plain_name exts p name -> name_verdict exts p name (validate_filename exts p).
Proof. exact name_verdict_lemma. Qed.
Print Assumptions C96_name.
Theorem C96_input_file : forall exts name f p f' r, plain_name exts p name -> input_file_validator exts f (VPath p) = (f', r) ->
  f' = f /\ input_file_says exts name f p r.
Proof. exact input_file_says_lemma. Qed.
Print Assumptions C96_input_file.
Theorem C96_input_directory : forall f p f' r, input_directory_validator f (VPath p) = (f', r) -> f' = f /\ input_directory_says f p r.
Proof. exact input_directory_says_lemma. Qed.
Print Assumptions C96_input_directory.
Theorem C96_output_file : forall nd mode exts name f p f' r, tree f -> plain_name exts p name -> output_file_validator nd mode exts f (VPath p) = (f', r) ->
  output_file_says nd mode exts name f p f' r.
Proof. exact output_file_says_lemma. Qed.
Print Assumptions C96_output_file.
Theorem C96_output_directory : forall nd f p f' r, tree f -> output_directory_validator nd f (VPath p) = (f', r) -> output_directory_says nd f p f' r.
Proof. exact output_directory_says_lemma. Qed.
Print Assumptions C96_output_directory.

(** lists: one path after the other, each with the disk the one before has left *)
Theorem C96_lists : forall nd mode exts x ps f f' r, paths_of x ps ->
  (input_file_validator exts f x = (f', r) -> in_turn (fun f p f' r => input_file_validator exts f (VPath p) = (f', r)) f ps f' r) /\
  (output_file_validator nd mode exts f x = (f', r) -> in_turn (fun f p f' r => output_file_validator nd mode exts f (VPath p) = (f', r)) f ps f' r) /\
  (input_directory_validator f x = (f', r) -> in_turn (fun f p f' r => input_directory_validator f (VPath p) = (f', r)) f ps f' r) /\
  (output_directory_validator nd f x = (f', r) -> in_turn (fun f p f' r => output_directory_validator nd f (VPath p) = (f', r)) f ps f' r).
Proof. intros nd mode exts x ps f f' r PX. repeat split; apply in_turn_lemma; exact PX. Qed.
Print Assumptions C96_lists.

(** *** Cases *)

Definition ronly : fmeta := {| f_readable := true; f_writable := false |}.
Definition locked : fmeta := {| f_readable := false; f_writable := false |}.
Definition disk : fs := fun k =>
  if list_eqb k [] then Some (NDir rw)
  else if list_eqb k ["data"] then Some (NDir rw)
  else if list_eqb k ["data"; "reads.fa"] then Some (NFile "ACGT" rw)
  else if list_eqb k ["data"; "locked.fa"] then Some (NFile "precious" locked)
  else if list_eqb k ["pipe.fa"] then Some (NOther rw)
  else if list_eqb k ["ro"] then Some (NDir ronly)
  else if list_eqb k ["ro"; "old.fa"] then Some (NFile "old" rw)
  else if list_eqb k ["ro"; "locked.fa"] then Some (NFile "old" locked)
  else None.
Lemma disk_tree : tree disk.
Proof.
  intros k x H. unfold disk in H.
  repeat match type of H with (if list_eqb ?a ?b then _ else _) <> _ => destruct (list_eqb a b) eqn:?E; [apply ValidatorsFs.list_eqb_eq in E|clear E] end; [..|congruence];
  (destruct k as [|a [|b [|c k]]]; cbn in *; try discriminate; injection E as; subst; eexists; vm_compute; reflexivity).
Qed.

Definition shown (r : fs * vout) (k : key) : vout * option node := (snd r, fst r k).
Example C96_case_reading : plain_name ["fa"; "fq"] "/data//./locked.fa" "locked.fa" /\ leads "/data//./locked.fa" ["data"; "locked.fa"]
  /\ map (fun p => snd (input_file_validator ["fa"; "fq"] disk (VPath p))) ["/data//./locked.fa"; "data/reads.fa"; "data/none.fa"; "pipe.fa"; ""]
  = [VThrow "Cannot read the file ""/data//./locked.fa""!"; VOk; VThrow "The file ""data/none.fa"" does not exist!"; VThrow "Expected a regular file ""pipe.fa""!"; VThrow "The file """" does not exist!"]
  /\ map (fun p => snd (input_directory_validator disk (VPath p))) ["data"; "data/reads.fa"; "nowhere"]
  = [VOk; VThrow "The path ""data/reads.fa"" is not a directory!"; VThrow "The directory ""nowhere"" does not exists!"].
Proof.
  split; [|split; [apply leads_iff; vm_compute; reflexivity|split; vm_compute; reflexivity]].
  split; [split; [reflexivity|right; exists "/data//."; reflexivity]|]. split; [discriminate|].
  assert (H7 : forall s, forallb (fun c => N.ltb (code c) 128) (chars s) = true -> seven_bit s).
  { intros s H c Hc. rewrite forallb_forall in H. apply N.ltb_lt, H, Hc. }
  split; [apply H7; vm_compute; reflexivity|]. repeat constructor; apply H7; vm_compute; reflexivity.
Qed.
Example C96_case_writing : tree disk /\
  map (fun p => shown (output_file_validator true OpenOrCreate ["fa"] disk (VPath p)) (comps p))
    ["data/reads.fa"; "data/locked.fa"; "ro/old.fa"; "ro/locked.fa"; "new.fq.gz"; "data"]
  = [(VOk, None); (VThrow "Cannot write ""data/locked.fa""!", None); (VThrow "Unhandled filesystem error!", Some (NFile "" rw));
     (VThrow "Cannot write ""ro/locked.fa""!", Some (NFile "old" locked)); (VThrow "Expected one of the following valid extensions: [fa]! Got fq.gz instead!", None);
     (VThrow """data"" is a directory. Expected a file.", Some (NDir rw))]
  /\ map (fun p => snd (output_file_validator false OpenOrCreate ["fa"] disk (VPath p))) ["ro/old.fa"; "ro/locked.fa"] = [VAssert; VAssert]
  /\ snd (output_file_validator true CreateNew ["fa"] disk (VPath "data/reads.fa")) = VThrow "The file ""data/reads.fa"" already exists!".
Proof. split; [exact disk_tree|]. vm_compute. repeat split. Qed.
Example C96_case_directory : map (fun p => snd (output_directory_validator true disk (VPath p))) ["data/"; "ro"; "ro/"; "new"; "ro/new"; "pipe.fa"; ""]
  = [VOk; VThrow "Cannot write ""ro/dummy.txt""!"; VThrow "Cannot write ""ro/dummy.txt""!"; VOk; VThrow "Cannot create directory: ""ro/new""!";
     VThrow "Cannot create directory: ""pipe.fa""!"; VThrow "Cannot create directory: """"!"].
Proof. vm_compute. reflexivity. Qed.
(** the first of two equal paths is removed by its check; the second is then new *)
Example C96_case_lists : paths_of (VList [VPath "data/reads.fa"; VPath "data/x.gz"; VPath "ro"]) ["data/reads.fa"; "data/x.gz"; "ro"]
  /\ shown (output_file_validator true OpenOrCreate ["fa"] disk (VList [VPath "data/reads.fa"; VPath "data/x.gz"; VPath "ro"])) ["data"; "reads.fa"]
     = (VThrow "Expected one of the following valid extensions: [fa]! Got gz instead!", None).
Proof. split; [now left|vm_compute; reflexivity]. Qed.
