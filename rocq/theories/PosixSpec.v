(** Vocabulary for the file validators on POSIX paths. *)
From Verif Require Import Base Fs Values Validators Posix.

(** ** The rules of pathname resolution; [n] counts the links followed *)
Inductive leads (f : rfs) (follow : bool) : nat -> key -> list string -> place -> Prop :=
| l_end cur : leads f follow 0 cur [] (Here cur)
| l_notdir cur c rest : (forall m, f cur <> Some (RDir m)) -> leads f follow 0 cur (c :: rest) NotDir
| l_slash n cur m rest o : f cur = Some (RDir m) -> leads f follow n cur rest o -> leads f follow n cur ("" :: rest) o
| l_closed cur m c rest : f cur = Some (RDir m) -> c <> "" -> x_search m = false -> leads f follow 0 cur (c :: rest) Refused
| l_dot n cur m rest o : f cur = Some (RDir m) -> x_search m = true -> leads f follow n cur rest o -> leads f follow n cur ("." :: rest) o
| l_up n cur m rest o : f cur = Some (RDir m) -> x_search m = true -> leads f follow n (removelast cur) rest o ->
    leads f follow n cur (".." :: rest) o
| l_missing cur m c : f cur = Some (RDir m) -> x_search m = true -> c <> "" -> c <> "." -> c <> ".." -> f (cur ++ [c]) = None ->
    leads f follow 0 cur [c] (Nothing (cur ++ [c]) false)
| l_missing_slash cur m c rest : f cur = Some (RDir m) -> x_search m = true -> c <> "" -> c <> "." -> c <> ".." -> f (cur ++ [c]) = None ->
    rest <> [] -> (forall x, In x rest -> x = "") -> leads f follow 0 cur (c :: rest) (Nothing (cur ++ [c]) true)
| l_missing_way cur m c rest x : f cur = Some (RDir m) -> x_search m = true -> c <> "" -> c <> "." -> c <> ".." -> f (cur ++ [c]) = None ->
    In x rest -> x <> "" -> leads f follow 0 cur (c :: rest) NoWay
| l_down n cur m c rest o nd : f cur = Some (RDir m) -> x_search m = true -> c <> "" -> c <> "." -> c <> ".." -> f (cur ++ [c]) = Some nd ->
    (forall t, nd <> RLink t) -> leads f follow n (cur ++ [c]) rest o -> leads f follow n cur (c :: rest) o
| l_link_itself cur m c t : f cur = Some (RDir m) -> x_search m = true -> c <> "" -> c <> "." -> c <> ".." -> f (cur ++ [c]) = Some (RLink t) ->
    follow = false -> leads f follow 0 cur [c] (Here (cur ++ [c]))
| l_link_broken cur m c rest : f cur = Some (RDir m) -> x_search m = true -> c <> "" -> c <> "." -> c <> ".." -> f (cur ++ [c]) = Some (RLink "") ->
    (follow = true \/ rest <> []) -> leads f follow 0 cur (c :: rest) NoWay
| l_link n cur m c rest t o : f cur = Some (RDir m) -> x_search m = true -> c <> "" -> c <> "." -> c <> ".." -> f (cur ++ [c]) = Some (RLink t) ->
    t <> "" -> (follow = true \/ rest <> []) -> leads f follow n (if absolute t then [] else cur) (parts t ++ rest) o ->
    leads f follow (S n) cur (c :: rest) o.

(** an entry lies in a directory, and the root is one *)
Definition sane (f : rfs) : Prop :=
  (exists m, f [] = Some (RDir m)) /\ forall k c n, f (k ++ [c]) = Some n -> exists m, f k = Some (RDir m).

Definition is_dir (f : rfs) (k : key) : Prop := exists m, f k = Some (RDir m).

(** ** What opening a file for writing does *)

(** the entry that is written to, or made, if [p] can be opened for writing *)
Definition opens (cwd : key) (f : rfs) (p : string) : option (key * rnode) :=
  match resolve cwd f true p with
  | Here k => match f k with
              | Some (RFile _ m) => if x_write m then Some (k, RFile "" m) else None
              | Some (ROther m) => if x_write m then Some (k, ROther m) else None
              | _ => None
              end
  | Nothing k false => if rparent_writable f k then Some (k, RFile "" rall) else None
  | _ => None
  end.

(** the same file system, but for entry [k] *)
Definition put (k : key) (n : option rnode) (f g : rfs) : Prop := g k = n /\ forall k', k' <> k -> g k' = f k'.

Definition same (f g : rfs) : Prop := forall k, g k = f k.

(** the entry [p] itself, be it a link; [k] if it has just been made *)
Definition named (cwd : key) (f : rfs) (p : string) (k : key) : key :=
  match resolve cwd f false p with Here l => l | _ => k end.

Definition not_writable (p : string) : wout := WThrow ("Cannot write " +s+ dq p +s+ "!").

(** ** Testing whether [p] can be written, for [p] not a directory: the file found or made is emptied, and the entry is
    removed.  If the file cannot be opened, the entry is removed nevertheless. *)
Definition probed (cwd : key) (strict nd : bool) (f : rfs) (p : string) (f' : rfs) (r : wout) : Prop :=
  match opens cwd f p with
  | Some (k, n) =>
      if rparent_writable f (named cwd f p k)
      then (exists f1, put k (Some n) f f1 /\ put (named cwd f p k) None f1 f') /\ r = WOk
      else put k (Some n) f f' /\ r = (if nd then WFsError else WAssert)
  | None =>
      match resolve cwd f false p with
      | Here l => if rparent_writable f l then put l None f f' /\ r = not_writable p
                  else same f f' /\ r = (if nd then not_writable p else WAssert)
      | NotDir => same f f' /\ r = (if strict && negb nd then WAssert else not_writable p)
      | _ => same f f' /\ r = not_writable p
      end
  end.

(** ** File systems without links, as in Fs.v *)

Definition to_meta (m : fmeta) : rmeta := {| x_read := f_readable m; x_write := f_writable m; x_search := true |}.
Definition to_node (n : node) : rnode :=
  match n with NFile c m => RFile c (to_meta m) | NDir m => RDir (to_meta m) | NOther m => ROther (to_meta m) end.
Definition to_rfs (f : fs) : rfs := fun k => match f k with Some n => Some (to_node n) | None => None end.

(** paths whose components can be read off: no "..", and a name at the end *)
Definition plain_path (p : string) : Prop := ~ In ".." (parts p) /\ last (parts p) "" <> "" /\ last (parts p) "" <> ".".

(** on the way to [p] there are only directories, as far as there is anything *)
Definition clear_way (f : fs) (p : string) : Prop :=
  forall q l, comps p = q ++ l -> l <> [] -> f q <> None -> exists m, f q = Some (NDir m).

(** the entry [p] itself, slashes at its end not counted *)
Definition entry_place (cwd : key) (f : rfs) (p : string) : place :=
  walk f false max_links (if absolute p then [] else cwd) (trimmed (parts p)).

(** what the output file validator makes of the test *)
Definition file_result (exts : list string) (p : string) (w : wout) : pout :=
  match w with WOk => PV (validate_filename exts p) | _ => PV (of_wout w) end.

(** when the guard of the test file cannot clean up *)
Definition stuck (cwd : key) (strict : bool) (f : rfs) (p : string) : Prop :=
  match opens cwd f p with
  | Some (k, _) => rparent_writable f (named cwd f p k) = false
  | None => (exists l, resolve cwd f false p = Here l /\ rparent_writable f l = false) \/ (strict = true /\ resolve cwd f false p = NotDir)
  end.

Definition no_slash (x : string) : Prop := forall a b, x <> a +s+ String slash b.
