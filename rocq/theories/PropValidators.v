(** Properties of the shipped validators (C32 - C38). *)
From Verif Require Import Base StrLib Fs Values ValuesSpec Validators ValidatorsSpec FormatParse Invocation Samples
  ValidatorsProofs ValidatorsFiles ValidatorsFs ValidatorsExact.

(** ** C32: arithmetic_range_validator *)

(** Full statement: the same for values of any integer type.  What holds: values of the validator's own type. *)
Theorem C32_arithmetic_range_partial : forall sg bits mn mx f x zs,
  (0 < bits)%N -> elements x = map VInt zs -> Forall (in_type sg bits) zs ->
  (Forall (within mn mx) zs /\ arithmetic_range_validator sg bits mn mx f x = (f, VOk)) \/
  (exists l z l', zs = l ++ z :: l' /\ Forall (within mn mx) l /\ ~ within mn mx z /\
     arithmetic_range_validator sg bits mn mx f x =
       (f, VThrow ("Value " +s+ Z_to_string z +s+ " is not in range [" +s+ Z_to_string mn +s+ "," +s+ Z_to_string mx +s+ "]."))).
Proof. exact arithmetic_range_lemma. Qed.
Print Assumptions C32_arithmetic_range_partial.

Example C32_case : elements (VList [VInt 3; VInt (-129); VInt 7]) = map VInt [3; -129; 7]%Z /\
  Forall (in_type true 32) [3; -129; 7]%Z /\
  snd (arithmetic_range_validator true 32 (-128) 127 no_fs (VList [VInt 3; VInt (-129); VInt 7])) =
    VThrow "Value -129 is not in range [-128,127].".
Proof. split; [reflexivity|]. split; [repeat constructor; cbn; lia|vm_compute; reflexivity]. Qed.

(** values of any integer type: compared is the number of the validator's type that differs by a multiple of 2^bits; it
    is also the one shown *)
Theorem C32_exact : forall sg bits mn mx f x zs, (0 < bits)%N -> elements x = map VInt zs ->
  let fits z := forall y, residue sg bits z y -> within mn mx y in
  (Forall fits zs /\ arithmetic_range_validator sg bits mn mx f x = (f, VOk)) \/
  (exists l z l' y, zs = l ++ z :: l' /\ Forall fits l /\ residue sg bits z y /\ ~ within mn mx y /\
     arithmetic_range_validator sg bits mn mx f x =
       (f, VThrow ("Value " +s+ Z_to_string y +s+ " is not in range [" +s+ Z_to_string mn +s+ "," +s+ Z_to_string mx +s+ "]."))).
Proof. exact arithmetic_exact_lemma. Qed.
Print Assumptions C32_exact.

Example C32_exact_ex : residue true 8 300 44 /\ residue true 8 200 (-56) /\
  snd (arithmetic_range_validator true 8 0 100 no_fs (VList [VInt 300; VInt 200])) = VThrow "Value -56 is not in range [0,100].".
Proof. split; [split; [cbn; lia|exists 1%Z; reflexivity]|]. split; [split; [cbn; lia|exists 1%Z; reflexivity]|]. vm_compute. reflexivity. Qed.

(** arithmetic_range_validator{0, 10} (deduced: int) on a 64 bit option: 4294967301 is accepted *)
Theorem C32_wider_type_refuted : exists decls args vs f,
  decls = [DOption 0 (Scalar (TInt true 64)) (validated (arithmetic_range_validator true 32 0 10) (cfg "i" "int"))] /\
  args = ["-i"; "4294967301"] /\
  snd (parse_args true decls args vs f) = Ret tt /\ vars (fst (parse_args true decls args vs f)) 0 = VInt 4294967301.
Proof.
  exists [DOption 0 (Scalar (TInt true 64)) (validated (arithmetic_range_validator true 32 0 10) (cfg "i" "int"))],
    ["-i"; "4294967301"], vars0, no_fs. split; [reflexivity|]. split; [reflexivity|]. split; vm_compute; reflexivity.
Qed.
Print Assumptions C32_wider_type_refuted.

(** ** C33: value_list_validator *)

Theorem C33_value_list : forall e values f x,
  ety_ok e -> Forall (has_type e) values -> Forall (has_type e) (elements x) ->
  (Forall (fun v => In v values) (elements x) /\ value_list_validator e values f x = (f, VOk)) \/
  (exists l v l', elements x = l ++ v :: l' /\ Forall (fun v => In v values) l /\ ~ In v values /\
     value_list_validator e values f x =
       (f, VThrow ("Value " +s+ to_string (Scalar e) v +s+ " is not one of " +s+ to_string (ListOf e) (VList values) +s+ "."))).
Proof. exact value_list_lemma. Qed.
Print Assumptions C33_value_list.

(** path options with a list of strings *)
Theorem C33_value_list_path : forall names f x ps, elements x = map VPath ps ->
  snd (value_list_validator TString (map VStr names) f x) = VOk <-> Forall (fun p => In p names) ps.
Proof. exact value_list_path_lemma. Qed.
Print Assumptions C33_value_list_path.

Example C33_case : let vs := [VStr "ha"; VStr "ba"] in
  Forall (has_type TString) vs /\ Forall (has_type TString) (elements (VList [VStr "ba"; VStr "Ba"])) /\
  snd (value_list_validator TString vs no_fs (VList [VStr "ba"; VStr "Ba"])) = VThrow "Value Ba is not one of [ha, ba]." /\
  snd (value_list_validator TString vs no_fs (VPath "ba")) = VOk.
Proof. split; [repeat constructor|]. split; [repeat constructor|]. vm_compute. auto. Qed.

(** ** C34: chains *)

(** any chain, however parenthesised, runs its validators from left to right up to the first failure *)
Theorem C34_chain_sequential : forall t f x f' r, joined t f x = (f', r) <-> runs x f (leaves t) f' r.
Proof. exact chain_lemma. Qed.
Print Assumptions C34_chain_sequential.

Theorem C34_chain_associative : forall t u f x, leaves t = leaves u -> joined t f x = joined u f x.
Proof. exact chain_assoc_lemma. Qed.
Print Assumptions C34_chain_associative.

(** for validators that only look: conjunction, and the first failing one is reported *)
Theorem C34_chain_conjunction : forall t f x, Forall pure_on_fs (leaves t) ->
  (snd (joined t f x) = VOk <-> Forall (fun v => snd (v f x) = VOk) (leaves t)) /\
  (forall l v l', leaves t = l ++ v :: l' -> Forall (fun v => snd (v f x) = VOk) l -> snd (v f x) <> VOk ->
     joined t f x = v f x).
Proof. exact chain_pure_lemma. Qed.
Print Assumptions C34_chain_conjunction.

Definition a_chain : vtree :=
  Join (Join (Leaf (arithmetic_range_validator true 32 0 9)) (Leaf (arithmetic_range_validator true 32 5 20)))
       (Leaf (value_list_validator int32 [VInt 7; VInt 30])).
Example C34_case : Forall pure_on_fs (leaves a_chain) /\
  map (fun z => snd (joined a_chain no_fs (VInt z))) [7; 6; 30; 3]%Z =
  [VOk; VThrow "Value 6 is not one of [7, 30]."; VThrow "Value 30 is not in range [0,9]."; VThrow "Value 3 is not in range [5,20]."].
Proof.
  split; [|vm_compute; reflexivity].
  repeat constructor; intros f x; unfold arithmetic_range_validator, value_list_validator;
    match goal with |- context [lift_range (pure_validator ?g) _ ?y] => destruct (lift_pure g f y) as (r & E); now rewrite E end.
Qed.

(** ** C35: extensions *)

(** exact behaviour for 7 bit names *)
Theorem C35_extension_exact : forall exts p name,
  last_component p name -> name <> ".." -> exts <> [] -> seven_bit name -> Forall seven_bit exts ->
  (validate_filename exts p = VOk /\ ext_suffix exts name) \/
  ((exists m, validate_filename exts p = VThrow m) /\ ~ ext_suffix exts name).
Proof. exact validate_filename_iff. Qed.
Print Assumptions C35_extension_exact.

(** Full statement: "iff".  What holds: a listed extension is always accepted ... *)
Theorem C35_extension_partial : forall exts p name,
  last_component p name -> name <> ".." -> seven_bit name -> Forall seven_bit exts ->
  ext_listed exts name -> validate_filename exts p = VOk.
Proof. exact ext_listed_accepted. Qed.
Print Assumptions C35_extension_partial.

(** ... and nothing else is, if the extensions are listed with their dot. *)
Theorem C35_dotted_extension : forall exts p name,
  last_component p name -> name <> ".." -> exts <> [] -> seven_bit name -> Forall seven_bit exts ->
  Forall (fun e => exists s, e = String "." s) exts -> snth 0 name <> Some "."%char ->
  validate_filename exts p = VOk <-> ext_listed (map (sdrop 1) exts) name.
Proof. exact ext_dotted_iff. Qed.
Print Assumptions C35_dotted_extension.

(** a listed extension accepts names that merely end with its letters *)
Theorem C35_extension_refuted : exists exts p name,
  last_component p name /\ name = "reads.bsam" /\ exts = ["sam"] /\ validate_filename exts p = VOk /\ ~ ext_listed exts name.
Proof. exact ext_refuted. Qed.
Print Assumptions C35_extension_refuted.

(** a name with a byte above 127 behind the dot: undefined behaviour *)
Theorem C35_non_ascii_refuted : exists p, p = "reads.f" +s+ str1 "195" +s+ str1 "164" /\ validate_filename ["fa"] p = VUB.
Proof. eexists. split; [reflexivity|]. vm_compute. reflexivity. Qed.
Print Assumptions C35_non_ascii_refuted.

Example C35_case : last_component "dir.x/Reads.FA.gz" "Reads.FA.gz" /\ ext_listed ["bam"; "fa.GZ"] "Reads.FA.gz" /\
  seven_bit "Reads.FA.gz" /\ Forall seven_bit ["bam"; "fa.GZ"] /\
  map (validate_filename ["fa"]) ["x.fa"; "x"; ".fa"; "a/x.fq.gz"] =
  [VOk; VThrow "The given filename x has no extension. Expected one of the following valid extensions:[fa]!";
   VThrow "The given filename .fa has no extension. Expected one of the following valid extensions:[fa]!";
   VThrow "Expected one of the following valid extensions: [fa]! Got fq.gz instead!"].
Proof. exact ext_case. Qed.

(** ** C36: input files and directories *)

(** Full statement: also for directories given as input files. *)
Theorem C36_input_file_partial : forall exts f x ps, paths_of x ps ->
  Forall (fun p => ~ is_dir f p /\ exists name, plain_name exts p name) ps ->
  exists r, input_file_validator exts f x = (f, r) /\
    (r = VOk <-> Forall (fun p => readable_file f p /\ forall name, last_component p name -> name_ok exts name) ps).
Proof. exact input_file_validator_lemma. Qed.
Print Assumptions C36_input_file_partial.

(** what is accepted in general: readable directories as well *)
Theorem C36_input_file_exact : forall exts f x ps, paths_of x ps -> Forall (fun p => exists name, plain_name exts p name) ps ->
  exists r, input_file_validator exts f x = (f, r) /\
    (r = VOk <-> Forall (fun p => (readable_file f p \/ readable_dir f p) /\ forall name, last_component p name -> name_ok exts name) ps).
Proof. exact input_file_exact_lemma. Qed.
Print Assumptions C36_input_file_exact.

Theorem C36_input_directory : forall f x ps, paths_of x ps ->
  exists r, input_directory_validator f x = (f, r) /\ (r = VOk <-> Forall (readable_dir f) ps).
Proof. exact input_directory_validator_lemma. Qed.
Print Assumptions C36_input_directory.

(** a small file system: /data (writable) with reads.fa (content) and locked.fa (read only), /data/dummy.txt,
    /ro (not writable) with old.fa *)
Definition ronly : fmeta := {| f_readable := true; f_writable := false |}.
Definition disk : fs := fun k =>
  if list_eqb k [] then Some (NDir rw)
  else if list_eqb k ["data"] then Some (NDir rw)
  else if list_eqb k ["data"; "reads.fa"] then Some (NFile "ACGT" rw)
  else if list_eqb k ["data"; "locked.fa"] then Some (NFile "precious" ronly)
  else if list_eqb k ["data"; "dummy.txt"] then Some (NFile "notes" rw)
  else if list_eqb k ["ro"] then Some (NDir ronly)
  else if list_eqb k ["ro"; "old.fa"] then Some (NFile "old" rw)
  else None.

(** input_file_validator accepts a directory *)
Theorem C36_input_file_refuted : exists f p, f = disk /\ p = "/data" /\ is_dir f p /\
  input_file_validator [] f (VPath p) = (f, VOk).
Proof. exists disk, "/data". split; [reflexivity|]. split; [reflexivity|]. split; [exists rw|]; reflexivity. Qed.
Print Assumptions C36_input_file_refuted.

Example C36_case : paths_of (VList [VPath "/data/reads.fa"]) ["/data/reads.fa"] /\ ~ is_dir disk "/data/reads.fa" /\
  snd (input_file_validator ["fa"] disk (VList [VPath "/data/reads.fa"])) = VOk /\
  snd (input_file_validator ["fa"] disk (VPath "/data/none.fa")) = VThrow "The file ""/data/none.fa"" does not exist!" /\
  snd (input_directory_validator disk (VPath "/data/reads.fa")) = VThrow "The path ""/data/reads.fa"" is not a directory!".
Proof. split; [left; reflexivity|]. split; [intros (m & H); discriminate|]. vm_compute. auto. Qed.

(** ** C37: output files *)

(** create_new never changes the file system (single paths and lists) ... *)
Theorem C37_create_new_unchanged : forall ndebug exts x f f' r,
  output_file_validator ndebug CreateNew exts f x = (f', r) -> same_fs f f'.
Proof. exact create_new_list. Qed.
Print Assumptions C37_create_new_unchanged.

(** ... and accepts exactly new files in writable directories with an acceptable name *)
Theorem C37_create_new_accepts : forall ndebug exts p name f, plain_name exts p name ->
  snd (output_file_validator ndebug CreateNew exts f (VPath p)) = VOk <->
  lookup f p = None /\ p <> "" /\ can_create f p /\ name_ok exts name.
Proof. exact create_new_accepts. Qed.
Print Assumptions C37_create_new_accepts.

(** Full statement: in both modes every existing file keeps its content.  What holds in either mode: if nothing exists at
    the path the file system is unchanged, ... *)
Theorem C37_new_file_partial : forall ndebug mode exts f p f' r,
  output_file_validator ndebug mode exts f (VPath p) = (f', r) -> lookup f p = None ->
  same_fs f f' /\ (r = VOk <-> p <> "" /\ can_create f p /\ validate_filename exts p = VOk).
Proof. exact open_or_create_new_lemma. Qed.
Print Assumptions C37_new_file_partial.

(** ... and entries other than the path itself (and what is below it) never change. *)
Theorem C37_others_untouched : forall ndebug mode exts f p f' r,
  output_file_validator ndebug mode exts f (VPath p) = (f', r) ->
  forall k, ~ at_or_below (comps p) k -> f' k = f k.
Proof. exact output_file_local. Qed.
Print Assumptions C37_others_untouched.

(** open_or_create deletes every existing writable file in a writable directory - even if it then rejects the name *)
Theorem C37_existing_file_deleted : forall ndebug exts f p c m,
  lookup f p = Some (NFile c m) -> f_writable m = true -> can_create f p ->
  fst (output_file_validator ndebug OpenOrCreate exts f (VPath p)) (comps p) = None /\
  snd (output_file_validator ndebug OpenOrCreate exts f (VPath p)) = validate_filename exts p.
Proof. exact open_or_create_deletes. Qed.
Print Assumptions C37_existing_file_deleted.

(** everything open_or_create does to a path: directories are left alone and rejected; anything else is gone afterwards if
    the directory it lies in is writable, accepted or not, and emptied if only the file is writable *)
Theorem C37_open_or_create_exact : forall ndebug exts f p f' r, tree f -> output_file_validator ndebug OpenOrCreate exts f (VPath p) = (f', r) ->
  (p = "" \/ is_dir f p) /\ f' = f /\ (exists m, r = VThrow m) \/
  p <> "" /\ ~ is_dir f p /\ (forall k, k <> comps p -> f' k = f k) /\ left_after f p (f' (comps p)) /\
  (r = VOk <-> writable_entry f p /\ can_create f p /\ validate_filename exts p = VOk) /\
  (r = VAssert <-> ndebug = false /\ lookup f p <> None /\ ~ can_create f p).
Proof. exact open_or_create_exact. Qed.
Print Assumptions C37_open_or_create_exact.

(** end to end: the file is gone after an accepted command line *)
Theorem C37_existing_file_refuted : exists decls args vs,
  decls = [DOption 4 (Scalar TPath) (validated (output_file_validator true OpenOrCreate []) (cfg "o" "out"))] /\
  args = ["-o"; "/data/reads.fa"] /\
  disk ["data"; "reads.fa"] = Some (NFile "ACGT" rw) /\
  snd (parse_args true decls args vs disk) = Ret tt /\
  fsys (fst (parse_args true decls args vs disk)) ["data"; "reads.fa"] = None.
Proof.
  exists [DOption 4 (Scalar TPath) (validated (output_file_validator true OpenOrCreate []) (cfg "o" "out"))],
    ["-o"; "/data/reads.fa"], vars0. split; [reflexivity|]. split; [reflexivity|]. repeat split; vm_compute; reflexivity.
Qed.
Print Assumptions C37_existing_file_refuted.

(** a write protected file is reported as not writable - and deleted; in a write protected directory a file is truncated and
    then rejected (NDEBUG) or the program aborts *)
Theorem C37_rejected_file_refuted : exists f,
  (snd (output_file_validator true OpenOrCreate [] f (VPath "/data/locked.fa")) = VThrow "Cannot write ""/data/locked.fa""!" /\
   f ["data"; "locked.fa"] = Some (NFile "precious" ronly) /\
   fst (output_file_validator true OpenOrCreate [] f (VPath "/data/locked.fa")) ["data"; "locked.fa"] = None) /\
  (snd (output_file_validator true OpenOrCreate [] f (VPath "/ro/old.fa")) = VThrow "Unhandled filesystem error!" /\
   fst (output_file_validator true OpenOrCreate [] f (VPath "/ro/old.fa")) ["ro"; "old.fa"] = Some (NFile "" rw) /\
   snd (output_file_validator false OpenOrCreate [] f (VPath "/ro/old.fa")) = VAssert).
Proof. exists disk. repeat split; vm_compute; reflexivity. Qed.
Print Assumptions C37_rejected_file_refuted.

Example C37_case : lookup disk "/data/new.fa" = None /\ can_create disk "/data/new.fa" /\
  snd (output_file_validator false CreateNew ["fa"] disk (VPath "/data/new.fa")) = VOk /\
  snd (output_file_validator false CreateNew ["fa"] disk (VPath "/data/reads.fa")) = VThrow "The file ""/data/reads.fa"" already exists!".
Proof.
  split; [reflexivity|]. split; [|vm_compute; auto]. exists ["data"], "new.fa", rw. vm_compute. auto.
Qed.

(** ** C38: output directories *)

(** Full statement: without the hypothesis about dummy.txt. *)
Theorem C38_output_directory_partial : forall ndebug f p, tree f ->
  (forall m, lookup f p = Some (NDir m) -> f (comps p ++ ["dummy.txt"]) = None) ->
  exists f' r, output_directory_validator ndebug f (VPath p) = (f', r) /\ same_fs f f' /\ (r = VOk <-> dir_ok f p).
Proof. exact output_directory_lemma. Qed.
Print Assumptions C38_output_directory_partial.

Theorem C38_others_untouched : forall ndebug f p m f' r, lookup f p = Some (NDir m) ->
  output_directory_validator ndebug f (VPath p) = (f', r) ->
  forall k, ~ at_or_below (comps p ++ ["dummy.txt"]) k -> f' k = f k.
Proof. exact output_directory_local. Qed.
Print Assumptions C38_others_untouched.

(** everything it does to an existing directory, whatever is called dummy.txt there *)
Theorem C38_existing_exact : forall ndebug f p m f' r, tree f -> lookup f p = Some (NDir m) -> output_directory_validator ndebug f (VPath p) = (f', r) ->
  let q := path_join p "dummy.txt" in
  comps q = comps p ++ ["dummy.txt"] /\
  (is_dir f q /\ f' = f /\ (exists s, r = VThrow s) \/
   ~ is_dir f q /\ (forall k, k <> comps q -> f' k = f k) /\ left_after f q (f' (comps q)) /\
   (r = VOk <-> writable_entry f q /\ f_writable m = true) /\
   (r = VAssert <-> ndebug = false /\ lookup f q <> None /\ f_writable m = false)).
Proof. exact output_directory_exact. Qed.
Print Assumptions C38_existing_exact.

(** the user's dummy.txt is deleted *)
Theorem C38_output_directory_refuted : exists f p, f = disk /\ p = "/data" /\
  f ["data"; "dummy.txt"] = Some (NFile "notes" rw) /\
  snd (output_directory_validator false f (VPath p)) = VOk /\
  fst (output_directory_validator false f (VPath p)) ["data"; "dummy.txt"] = None.
Proof. exists disk, "/data". repeat split; vm_compute; reflexivity. Qed.
Print Assumptions C38_output_directory_refuted.

Example C38_case : tree disk /\ dir_ok disk "/data/new" /\ lookup disk "/data/new" = None /\
  snd (output_directory_validator false disk (VPath "/data/new")) = VOk /\
  snd (output_directory_validator false disk (VPath "/ro/new")) = VThrow "Cannot create directory: ""/ro/new""!" /\
  snd (output_directory_validator false disk (VPath "/ro")) = VThrow "Cannot write ""/ro/dummy.txt""!".
Proof.
  split.
  { intros k x H. unfold disk in H.
    repeat match goal with H : (if list_eqb ?a ?b then _ else _) <> None |- _ => destruct (list_eqb a b) eqn:?E end;
    try (now destruct H);
    match goal with E : list_eqb (k ++ [x]) ?b = true |- _ => apply list_eqb_eq in E;
      try (destruct k; discriminate);
      first [change b with ([] ++ b) in E; apply app_inj_tail in E as [-> ->]
            |change b with ((removelast b) ++ [List.last b ""]) in E; cbn [removelast List.last] in E; apply app_inj_tail in E as [-> ->]] end;
    eexists; vm_compute; reflexivity. }
  split; [right; split; [reflexivity|]; split; [discriminate|]; exists ["data"], "new", rw; vm_compute; auto|].
  vm_compute. auto.
Qed.
