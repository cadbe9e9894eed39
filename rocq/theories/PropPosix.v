(** Properties of the file validators on POSIX paths: links, "..", trailing slashes, search permission (C83 - C86). *)
From Verif Require Import Base StrLib Fs Values Validators ValidatorsSpec Posix PosixSpec PosixProofs PosixWrite PosixPlain PosixFiles.

(** ** Sample file systems *)

Definition has (l : list (key * rnode)) : rfs := fun k =>
  match find (fun e => list_eqb (fst e) k) l with Some (_, n) => Some n | None => None end.

(** /home (working directory) with a file, links to a file, to nothing, to itself and to a directory; /data *)
Definition world : rfs := has
  [([], RDir rall);
   (["home"], RDir rall);
   (["home"; "a.txt"], RFile "text" rall);
   (["home"; "to_file"], RLink "../data/b.txt");
   (["home"; "to_nothing"], RLink "/data/new.txt");
   (["home"; "loop"], RLink "loop");
   (["home"; "to_dir"], RLink "../data");
   (["home"; "ro.txt"], RFile "fixed" {| x_read := true; x_write := false; x_search := false |});
   (["home"; "out"], RDir rall);
   (["home"; "out"; "dummy.txt"], RLink "/data/b.txt");
   (["home"; "locked"], RDir {| x_read := true; x_write := true; x_search := false |});
   (["home"; "fixed"], RDir {| x_read := true; x_write := false; x_search := true |});
   (["home"; "fixed"; "c.txt"], RFile "text" rall);
   (["data"], RDir rall);
   (["data"; "b.txt"], RFile "precious" rall)].
Definition home : key := ["home"].

Lemma has_in l k n : has l k = Some n -> In (k, n) l.
Proof.
  unfold has. destruct (find (fun e => list_eqb (fst e) k) l) as [[k' n']|] eqn:F; [|discriminate]. intros [= ->]. apply find_some in F as [Hi E]. cbn in E. apply list_eqb_iff in E. now subst.
Qed.

Lemma world_sane : sane world.
Proof.
  split; [eexists; reflexivity|]. intros k c n H. apply has_in in H. cbn [In] in H.
  repeat (destruct H as [H|H]; [injection H as E _; symmetry in E;
    first [now apply app_eq_nil in E as [_ [=]]|
           match type of E with _ ++ _ = ?l => let h := eval cbv in (removelast l) in let t := eval cbv in (last l EmptyString) in
             change l with (h ++ [t]) in E end; apply app_inj_tail in E as [-> _]; eexists; reflexivity]|]).
  contradiction H.
Qed.

Lemma world_home : is_dir world home.
Proof. eexists. reflexivity. Qed.

(** ** C83: pathname resolution *)

Theorem C83_resolution : forall f follow limit cur rest o, o <> Refused ->
  walk f follow limit cur rest = o <-> exists n, n <= limit /\ leads f follow n cur rest o.
Proof.
  intros f follow limit cur rest o N. split.
  - intros <-. destruct (walk_leads f follow limit rest cur) as [H|[H _]]; [exact H|congruence].
  - intros (n & Hn & H). eapply leads_walk; eauto.
Qed.
Print Assumptions C83_resolution.

(** paths as texts, Linux: 40 links *)
Theorem C83_path : forall cwd f follow l o, l <> [] -> l <> [""] -> Forall no_slash l -> o <> Refused ->
  resolve cwd f follow (String.concat "/" l) = o <->
  exists n, n <= 40 /\ leads f follow n (match l with "" :: _ => [] | _ => cwd end) l o.
Proof. exact path_lemma. Qed.
Print Assumptions C83_path.

Example C83_path_case : Forall no_slash [""; "home"; "to_dir"; "b.txt"] /\ String.concat "/" [""; "home"; "to_dir"; "b.txt"] = "/home/to_dir/b.txt" /\ resolve ["data"] world true "/home/to_dir/b.txt" = Here ["data"; "b.txt"].
Proof.
  split; [|split; reflexivity]. repeat constructor; intros a b; do 7 (destruct a as [|? a]; [discriminate|]; try discriminate).
Qed.

Theorem C83_refused : forall f follow limit cur rest,
  walk f follow limit cur rest = Refused <->
  (exists n, n <= limit /\ leads f follow n cur rest Refused) \/ (forall n o, n <= limit -> ~ leads f follow n cur rest o).
Proof.
  intros f follow limit cur rest. split.
  - intros W. destruct (walk_leads f follow limit rest cur) as [H|[_ H]]; [rewrite W in H; auto|auto].
  - intros [(n & Hn & H)|H]; [eapply leads_walk; eauto|]. destruct (walk_leads f follow limit rest cur) as [(n & Hn & L)|[W _]]; [|exact W]. exfalso. eapply H; eauto.
Qed.
Print Assumptions C83_refused.

Theorem C83_deterministic : forall f follow n cur rest o n' o', leads f follow n cur rest o -> leads f follow n' cur rest o' -> o = o'.
Proof. intros. eapply leads_det; eauto. Qed.
Print Assumptions C83_deterministic.

Example C83_resolution_case : walk world true 1 home ["to_dir"; ".."; "home"; "a.txt"] = Here ["home"; "a.txt"] /\
  walk world true 0 home ["to_dir"; ".."] = Refused /\ resolve home world true "loop" = Refused /\
  resolve home world true "to_nothing" = Nothing ["data"; "new.txt"] false /\ resolve home world false "to_nothing" = Here ["home"; "to_nothing"].
Proof. repeat split. Qed.

(** without links and "..": the validators of Validators.v (C34 - C38) *)
Theorem C83_input_file : forall exts f p, tree f -> (exists m, f [] = Some (NDir m)) -> plain_path p ->
  rinput_file [] exts (to_rfs f) p = PV (input_file1 exts f p).
Proof. intros exts f p T R P. apply agree_input_file; [constructor; auto; intros k; reflexivity|exact P]. Qed.
Print Assumptions C83_input_file.

Theorem C83_input_directory : forall f p, tree f -> (exists m, f [] = Some (NDir m)) -> plain_path p ->
  rinput_directory [] (to_rfs f) p = PV (input_directory1 f p).
Proof. intros f p T R P. apply agree_input_directory; [constructor; auto; intros k; reflexivity|exact P]. Qed.
Print Assumptions C83_input_directory.

Theorem C83_output_file : forall strict nd mode exts f p, tree f -> (exists m, f [] = Some (NDir m)) -> plain_path p -> (strict && negb nd = true -> clear_way f p) ->
  exists f' g' r, output_file1 nd mode exts f p = (f', r) /\ routput_file [] strict nd mode exts (to_rfs f) p = (g', PV r) /\ same (to_rfs f') g'.
Proof.
  intros strict nd mode exts f p T R P C. destruct (agree_output_file strict nd mode exts f (to_rfs f) p) as (f' & g' & r & H1 & H2 & H3); auto; [constructor; auto; intros k; reflexivity|].
  exists f', g', r. split; [exact H1|]. split; [exact H2|]. apply H3.
Qed.
Print Assumptions C83_output_file.

Theorem C83_output_directory : forall strict nd f p, tree f -> (exists m, f [] = Some (NDir m)) -> plain_path p -> (strict && negb nd = true -> clear_way f p) ->
  exists f' g' r, output_directory1 nd f p = (f', r) /\ routput_directory [] strict nd (to_rfs f) p = (g', PV r) /\ same (to_rfs f') g'.
Proof.
  intros strict nd f p T R P C. destruct (agree_output_directory strict nd f (to_rfs f) p) as (f' & g' & r & H1 & H2 & H3); auto; [constructor; auto; intros k; reflexivity|].
  exists f', g', r. split; [exact H1|]. split; [exact H2|]. apply H3.
Qed.
Print Assumptions C83_output_directory.

Definition small : fs := fun k =>
  match k with
  | [] | ["tmp"] => Some (NDir {| f_readable := true; f_writable := true |})
  | ["tmp"; "a.txt"] => Some (NFile "text" {| f_readable := true; f_writable := true |})
  | _ => None
  end.

Example C83_plain_case : plain_path "/tmp/./a.txt" /\ input_file1 ["txt"] small "/tmp/./a.txt" = VOk /\
  rinput_file [] ["txt"] (to_rfs small) "/tmp/./a.txt" = PV VOk /\
  snd (routput_file [] true false OpenOrCreate ["txt"] (to_rfs small) "/tmp/./a.txt") = PV VOk /\
  fst (routput_file [] true false OpenOrCreate ["txt"] (to_rfs small) "/tmp/./a.txt") ["tmp"; "a.txt"] = None.
Proof. split; [split; [intros H; vm_compute in H; intuition discriminate|split; vm_compute; discriminate]|]. repeat split. Qed.

(** Not so with a slash at the end: Validators.v drops it *)
Theorem C83_trailing_slash_refuted : exists f p, (exists m, f [] = Some (NDir m)) /\ ~ In ".." (parts p) /\
  input_file1 [] f p = VOk /\ rinput_file [] [] (to_rfs f) p <> PV VOk.
Proof.
  exists small, "/tmp/a.txt/". split; [eexists; reflexivity|]. split; [intros H; vm_compute in H; intuition discriminate|]. split; [reflexivity|]. vm_compute. discriminate.
Qed.
Print Assumptions C83_trailing_slash_refuted.

(** ** C84: what the validators look at and touch *)

Theorem C84_input_file : forall cwd exts f p,
  match status cwd f p with
  | StError => rinput_file cwd exts f p = PV (VThrow "Unhandled filesystem error!")
  | StNone => rinput_file cwd exts f p = PV (VThrow ("The file " +s+ dq p +s+ " does not exist!"))
  | StNode (RFile _ m) => rinput_file cwd exts f p = PV (if x_read m then validate_filename exts p else VThrow ("Cannot read the file " +s+ dq p +s+ "!"))
  | StNode (RDir m) => rinput_file cwd exts f p = PV (if x_read m then validate_filename exts p else VThrow ("Cannot read the directory " +s+ dq p +s+ "!"))
  | StNode _ => rinput_file cwd exts f p = PV (VThrow ("Expected a regular file " +s+ dq p +s+ "!"))
  end.
Proof. exact input_file_lemma. Qed.
Print Assumptions C84_input_file.

Theorem C84_input_directory : forall cwd f p,
  match status cwd f p with
  | StError => rinput_directory cwd f p = PV (VThrow "Unhandled filesystem error!")
  | StNone => rinput_directory cwd f p = PV (VThrow ("The directory " +s+ dq p +s+ " does not exists!"))
  | StNode (RDir m) => rinput_directory cwd f p = PV (if x_read m then VOk else VThrow ("Cannot read the directory " +s+ dq p +s+ "!"))
  | StNode _ => rinput_directory cwd f p = PV (VThrow ("The path " +s+ dq p +s+ " is not a directory!"))
  end.
Proof. exact input_directory_lemma. Qed.
Print Assumptions C84_input_directory.

(** the extension asked for is that of the link's own name *)
Example C84_input_case : rinput_file home ["txt"] world "to_dir/b.txt" = PV VOk /\
  (exists msg, rinput_file home ["txt"] world "to_file" = PV (VThrow msg)) /\ rinput_directory home world "out/../to_dir/" = PV VOk /\
  rinput_directory home world "to_file" = PV (VThrow "The path ""to_file"" is not a directory!").
Proof. repeat split; vm_compute; eauto. Qed.

Theorem C84_output_file : forall cwd strict nd mode exts f p f' r, sane f -> is_dir f cwd -> routput_file cwd strict nd mode exts f p = (f', r) ->
  match status cwd f p with
  | StError => same f f' /\ r = PFs
  | StNode (RDir _) => same f f' /\ r = PV (VThrow (dq p +s+ " is a directory. Expected a file."))
  | StNode _ => (mode = CreateNew /\ same f f' /\ r = PV (VThrow ("The file " +s+ dq p +s+ " already exists!"))) \/
                (mode = OpenOrCreate /\ exists w, probed cwd strict nd f p f' w /\ r = file_result exts p w)
  | StNone => exists w, probed cwd strict nd f p f' w /\ r = file_result exts p w
  end.
Proof. exact output_file_lemma. Qed.
Print Assumptions C84_output_file.

Theorem C84_create_new_accepts : forall cwd strict nd exts f p, sane f -> is_dir f cwd ->
  snd (routput_file cwd strict nd CreateNew exts f p) = PV VOk <->
  validate_filename exts p = VOk /\
  exists k, resolve cwd f true p = Nothing k false /\ rparent_writable f k = true /\ rparent_writable f (named cwd f p k) = true.
Proof. exact create_new_accepts_lemma. Qed.
Print Assumptions C84_create_new_accepts.

(** Full statement: create_new leaves the file system as it was.  What holds: if the path itself is not a link. *)
Theorem C84_create_new_trace_partial : forall cwd strict nd exts f p f' r, sane f -> is_dir f cwd ->
  routput_file cwd strict nd CreateNew exts f p = (f', r) ->
  (forall l t, resolve cwd f false p = Here l -> f l <> Some (RLink t)) -> same f f'.
Proof. exact create_new_trace_lemma. Qed.
Print Assumptions C84_create_new_trace_partial.

Theorem C84_create_new_link : forall cwd strict nd exts f p l t k, sane f -> is_dir f cwd ->
  resolve cwd f false p = Here l -> f l = Some (RLink t) ->
  resolve cwd f true p = Nothing k false -> rparent_writable f k = true -> rparent_writable f l = true ->
  exists f' f1, routput_file cwd strict nd CreateNew exts f p = (f', PV (validate_filename exts p)) /\
    put k (Some (RFile "" rall)) f f1 /\ put l None f1 f'.
Proof. exact create_new_link_lemma. Qed.
Print Assumptions C84_create_new_link.

Theorem C84_create_new_trace_refuted : exists cwd strict nd exts f p f',
  sane f /\ is_dir f cwd /\ routput_file cwd strict nd CreateNew exts f p = (f', PV VOk) /\
  f' ["data"; "new.txt"] = Some (RFile "" rall) /\ f ["data"; "new.txt"] = None /\ f' ["home"; "to_nothing"] = None /\ f ["home"; "to_nothing"] <> None.
Proof.
  exists home, true, true, [], world, "to_nothing", (fst (routput_file home true true CreateNew [] world "to_nothing")).
  split; [exact world_sane|]. split; [exact world_home|]. split; [vm_compute; reflexivity|]. repeat split; vm_compute; congruence.
Qed.
Print Assumptions C84_create_new_trace_refuted.

Theorem C84_frame : forall cwd strict nd mode exts f p f' r k, sane f -> is_dir f cwd ->
  routput_file cwd strict nd mode exts f p = (f', r) -> f' k <> f k ->
  resolve cwd f true p = Here k \/ resolve cwd f true p = Nothing k false \/ resolve cwd f false p = Here k.
Proof. exact output_file_frame_lemma. Qed.
Print Assumptions C84_frame.

(** open_or_create on a link: what it points to is emptied, the link is removed *)
Example C84_open_link : let '(f', r) := routput_file home true true OpenOrCreate [] world "to_file" in
  r = PV VOk /\ f' ["data"; "b.txt"] = Some (RFile "" rall) /\ f' ["home"; "to_file"] = None.
Proof. vm_compute. repeat split. Qed.

(** a file that cannot be written is refused and removed *)
Theorem C84_refused_kept_refuted : exists cwd strict nd exts f p f' msg ct m,
  sane f /\ is_dir f cwd /\ routput_file cwd strict nd OpenOrCreate exts f p = (f', PV (VThrow msg)) /\
  f ["home"; "ro.txt"] = Some (RFile ct m) /\ f' ["home"; "ro.txt"] = None.
Proof.
  exists home, true, true, [], world, "ro.txt", (fst (routput_file home true true OpenOrCreate [] world "ro.txt")). eexists _, _, _.
  split; [exact world_sane|]. split; [exact world_home|]. split; [vm_compute; reflexivity|]. split; vm_compute; reflexivity.
Qed.
Print Assumptions C84_refused_kept_refuted.

(** a directory that is there is tested with the file dummy.txt in it *)
Theorem C84_existing_directory : forall cwd strict nd f p m, status cwd f p = StNode (RDir m) ->
  routput_directory cwd strict nd f p =
  (let '(f', w) := rvalidate_writeability cwd strict nd f (path_join p "dummy.txt") in (f', PV (of_wout w))).
Proof. exact output_directory_existing. Qed.
Print Assumptions C84_existing_directory.

Theorem C84_dummy : forall cwd strict nd f p f' w, sane f -> is_dir f cwd ->
  (status cwd f p = StNone \/ exists n, status cwd f p = StNode n /\ forall m, n <> RDir m) ->
  rvalidate_writeability cwd strict nd f p = (f', w) -> probed cwd strict nd f p f' w.
Proof. exact probe_lemma. Qed.
Print Assumptions C84_dummy.

(** a directory that is not there is made and removed *)
Theorem C84_missing_directory : forall cwd strict nd f p f' r, sane f -> is_dir f cwd -> status cwd f p = StNone ->
  routput_directory cwd strict nd f p = (f', r) ->
  same f f' /\
  (r = PV VOk <-> p <> "" /\ exists k s, entry_place cwd f p = Nothing k s /\ rparent_writable f k = true) /\
  (r <> PV VOk -> r = PV (VThrow ("Cannot create directory: " +s+ dq p +s+ "!"))).
Proof. exact output_directory_missing. Qed.
Print Assumptions C84_missing_directory.

Example C84_directory_case : snd (routput_directory home true false world "out/../to_dir/new//") = PV VOk /\
  entry_place home world "out/../to_dir/new//" = Nothing ["data"; "new"] false /\
  snd (routput_directory home true false world "to_nothing") = PV (VThrow "Cannot create directory: ""to_nothing""!") /\
  snd (routput_directory home true false world "a.txt/new") = PV (VThrow "Cannot create directory: ""a.txt/new""!").
Proof. repeat split. Qed.

(** a file outside of the directory is emptied *)
Theorem C84_outside_refuted : exists cwd strict nd f p f',
  sane f /\ is_dir f cwd /\ routput_directory cwd strict nd f p = (f', PV VOk) /\ resolve cwd f true p = Here ["home"; "out"] /\
  f ["data"; "b.txt"] = Some (RFile "precious" rall) /\ f' ["data"; "b.txt"] = Some (RFile "" rall).
Proof.
  exists home, true, true, world, "out", (fst (routput_directory home true true world "out")).
  split; [exact world_sane|]. split; [exact world_home|]. split; [vm_compute; reflexivity|]. repeat split.
Qed.
Print Assumptions C84_outside_refuted.

(** ** C85: which errors leave the validators *)

Theorem C85_input : forall cwd exts f p, rinput_file cwd exts f p <> PFs /\ rinput_directory cwd f p <> PFs.
Proof. intros. split; [apply input_file_escape|apply input_directory_escape]. Qed.
Print Assumptions C85_input.

(** Full statement: the output validators throw nothing but validation errors.  What holds: *)
Theorem C85_output_file_partial : forall cwd strict nd mode exts f p f' r, routput_file cwd strict nd mode exts f p = (f', r) ->
  (r = PFs <-> resolve cwd f true p = Refused) /\ (r = PFs -> f' = f).
Proof. exact output_file_escape. Qed.
Print Assumptions C85_output_file_partial.

Theorem C85_output_directory_partial : forall cwd strict nd f p f' r, routput_directory cwd strict nd f p = (f', r) ->
  (r = PFs <-> resolve cwd f true p = Refused) /\ (r = PFs -> f' = f).
Proof. exact output_directory_escape. Qed.
Print Assumptions C85_output_directory_partial.

(** a link to itself; a directory that may not be searched *)
Theorem C85_output_refuted : exists cwd strict nd f p q, sane f /\ is_dir f cwd /\
  snd (routput_file cwd strict nd CreateNew [] f p) = PFs /\ snd (routput_directory cwd strict nd f q) = PFs /\
  rinput_file cwd [] f p = PV (VThrow "Unhandled filesystem error!").
Proof.
  exists home, true, true, world, "loop", "locked/x". split; [exact world_sane|]. split; [exact world_home|]. repeat split.
Qed.
Print Assumptions C85_output_refuted.

(** ** C86: the assertion of the guard, builds without NDEBUG *)

Theorem C86_assert : forall cwd strict nd mode exts f p, sane f -> is_dir f cwd ->
  snd (routput_file cwd strict nd mode exts f p) = PV VAssert <->
  nd = false /\ stuck cwd strict f p /\
  (status cwd f p = StNone \/ mode = OpenOrCreate /\ exists n, status cwd f p = StNode n /\ forall m, n <> RDir m).
Proof. exact output_file_assert. Qed.
Print Assumptions C86_assert.

(** a path through a file, a file with a slash behind it: the process ends instead of reporting that it cannot write *)
Example C86_path_through_file : exists cwd f p q, sane f /\ is_dir f cwd /\
  snd (routput_file cwd true false CreateNew [] f p) = PV VAssert /\ snd (routput_file cwd true false CreateNew [] f q) = PV VAssert /\
  (exists msg, snd (routput_file cwd true true CreateNew [] f p) = PV (VThrow msg)) /\
  (exists msg, snd (routput_file cwd false false CreateNew [] f p) = PV (VThrow msg)).
Proof.
  exists home, world, "a.txt/x", "a.txt/". split; [exact world_sane|]. split; [exact world_home|]. repeat split; vm_compute; eauto.
Qed.

(** a file in a directory that may not be changed: it is emptied, cannot be removed, and the process ends *)
Example C86_case : stuck home false world "fixed/c.txt" /\ snd (routput_file home false false OpenOrCreate [] world "fixed/c.txt") = PV VAssert /\
  fst (routput_file home false false OpenOrCreate [] world "fixed/c.txt") ["home"; "fixed"; "c.txt"] = Some (RFile "" rall).
Proof. repeat split. Qed.
