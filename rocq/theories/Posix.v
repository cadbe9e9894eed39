(** The file validators on a file system with symbolic links, "..", trailing slashes and search permissions.

    Fs.v and Validators.v leave these out.  Here the four file validators of include/sharg/validators.hpp and the guard
    of include/sharg/detail/safe_filesystem_entry.hpp are written down again, on top of POSIX pathname resolution and of
    the functions of <filesystem> and <fstream> that they call, as libstdc++ implements them.

    Simplifications: an entry has one name (no hard links); permissions are the effective ones of the running process;
    nobody else changes the file system meanwhile; a new file or directory gets all permissions (no umask); a directory is
    removed with everything below it or not at all; opening a device or pipe does not block. *)
From Verif Require Import Base Fs Values Validators.

Record rmeta := { x_read : bool; x_write : bool; x_search : bool }.

Inductive rnode :=
| RFile (content : string) (m : rmeta)
| RDir (m : rmeta)
| ROther (m : rmeta)
| RLink (target : string).

(** keys are the components below the root; none of them is "", "." or ".." in a sensible file system *)
Definition rfs := key -> option rnode.

Definition rall : rmeta := {| x_read := true; x_write := true; x_search := true |}.
Definition rupd (f : rfs) (k : key) (n : option rnode) : rfs := fun k' => if list_eqb k k' then n else f k'.

(** ** Pathname resolution (POSIX.1-2017, 4.13; path_resolution(7)) *)

Inductive place :=
| Here (k : key)                  (* an entry *)
| Nothing (k : key) (slash : bool)(* no such entry, but its directory exists; was there a slash behind the name? *)
| NoWay                           (* ENOENT on the way *)
| NotDir                          (* ENOTDIR *)
| Refused.                        (* EACCES on the way, or ELOOP *)

(** the components, with "" for every slash too many *)
Definition parts (p : string) : list string := split_slash p EmptyString.
Definition absolute (p : string) : bool := match p with String c _ => Ascii.eqb c slash | EmptyString => false end.

Definition no_more (rest : list string) : bool := forallb is_empty rest.

(** [walk f follow links cur rest]: from the entry [cur] on with the components [rest].  A link as last component is
    followed if [follow] is set.  [links] is the number of links the kernel is still willing to follow. *)
Fixpoint walk (f : rfs) (follow : bool) (links : nat) : key -> list string -> place :=
  fix go (cur : key) (rest : list string) : place :=
    match rest with
    | [] => Here cur
    | c :: rest' =>
        match f cur with
        | Some (RDir m) =>
            if is_empty c then go cur rest'
            else if negb (x_search m) then Refused
            else if String.eqb c "." then go cur rest'
            else if String.eqb c ".." then go (removelast cur) rest'
            else match f (cur ++ [c]) with
                 | None => if no_more rest' then Nothing (cur ++ [c]) (negb (Nat.eqb (List.length rest') 0)) else NoWay
                 | Some (RLink t) =>
                     if negb follow && Nat.eqb (List.length rest') 0 then Here (cur ++ [c])
                     else if is_empty t then NoWay
                     else match links with
                          | O => Refused
                          | S links' => walk f follow links' (if absolute t then [] else cur) (parts t ++ rest')
                          end
                 | Some _ => go (cur ++ [c]) rest'
                 end
        | _ => NotDir
        end
    end.

(** Linux follows at most 40 links *)
Definition max_links : nat := 40.

Section Cwd.
(** the working directory, and whether [remove_all] reports ENOTDIR as an error (libstdc++ since GCC 12) or takes it for
    a missing entry (before) *)
Variable cwd : key.
Variable strict : bool.

Definition resolve (f : rfs) (follow : bool) (p : string) : place :=
  if is_empty p then NoWay else walk f follow max_links (if absolute p then [] else cwd) (parts p).

(** ** <filesystem> and <fstream> *)

(** [std::filesystem::status(p)], throwing version *)
Inductive stat := StNode (n : rnode) | StNone | StError.
Definition status (f : rfs) (p : string) : stat :=
  match resolve f true p with
  | Here k => match f k with Some n => StNode n | None => StNone end
  | Nothing _ _ | NoWay | NotDir => StNone
  | Refused => StError
  end.

(** may entries be made in, or taken out of, the directory holding [k]?  That it may be searched has been found on the way. *)
Definition rparent_writable (f : rfs) (k : key) : bool :=
  match k with
  | [] => false
  | _ => match f (removelast k) with Some (RDir m) => x_write m | _ => false end
  end.

(** [std::ofstream{p}]: open(p, O_WRONLY | O_CREAT | O_TRUNC); links are followed, also to make the file they point to *)
Definition ropen_write (f : rfs) (p : string) : rfs * bool :=
  match resolve f true p with
  | Here k => match f k with
              | Some (RFile _ m) => if x_write m then (rupd f k (Some (RFile EmptyString m)), true) else (f, false)
              | Some (ROther m) => (f, x_write m)
              | _ => (f, false)
              end
  | Nothing k false => if rparent_writable f k then (rupd f k (Some (RFile EmptyString rall)), true) else (f, false)
  | _ => (f, false)
  end.

(** [std::filesystem::remove(p)]: unlink(p), the link itself if [p] is one; new state and whether an error is reported *)
Definition rremove (f : rfs) (p : string) : rfs * bool :=
  match resolve f false p with
  | Here k => if rparent_writable f k then (rupd f k None, false) else (f, true)
  | Nothing _ _ | NoWay => (f, false)
  | NotDir | Refused => (f, true)
  end.

(** [std::filesystem::remove_all(p, ec)] *)
Definition rremove_all (f : rfs) (p : string) : rfs * bool :=
  match resolve f false p with
  | Here k => if rparent_writable f k
              then (match f k with
                    | Some (RDir _) => fun k' => if list_prefixb k k' then None else f k'
                    | _ => rupd f k None
                    end, false)
              else (f, true)
  | Nothing _ _ | NoWay => (f, false)
  | NotDir => (f, strict)
  | Refused => (f, true)
  end.

(** [std::filesystem::create_directory(p, ec)]: mkdir(p), for which slashes at the end do not count and which does not
    follow a link; if there is something already, is it a directory? *)
Fixpoint drop_empty (l : list string) : list string :=
  match l with c :: l' => if is_empty c then drop_empty l' else l | [] => [] end.
Definition trimmed (l : list string) : list string := rev (drop_empty (rev l)).

Definition rcreate_directory (f : rfs) (p : string) : rfs * bool :=
  if is_empty p then (f, true) else
  match walk f false max_links (if absolute p then [] else cwd) (trimmed (parts p)) with
  | Nothing k _ => if rparent_writable f k then (rupd f k (Some (RDir rall)), false) else (f, true)
  | Here _ => (f, match status f p with StNode (RDir _) => false | _ => true end)
  | _ => (f, true)
  end.

(** ** The validators *)

(** [PFs]: a std::filesystem::filesystem_error leaves the validator *)
Inductive pout := PV (v : vout) | PFs.

(** validators.hpp 411-431 *)
Inductive rout := ROk | RThrow (msg : string) | RFs.
Definition rvalidate_readability (f : rfs) (p : string) : rout :=
  match status f p with
  | StError => RFs
  | StNode (RDir m) => if x_read m then ROk else RThrow ("Cannot read the directory " +s+ dq p +s+ "!")
  | StNode (RFile _ m) => if x_read m then ROk else RThrow ("Cannot read the file " +s+ dq p +s+ "!")
  | _ => RThrow ("Expected a regular file " +s+ dq p +s+ "!")
  end.

(** the end of the scope of a safe_filesystem_entry for [p], left with result [r]: safe_filesystem_entry.hpp 53-59 *)
Definition runwind (ndebug : bool) (f : rfs) (p : string) (r : wout) : rfs * wout :=
  match r with
  | WAssert => (f, WAssert)
  | _ => let '(f', err) := rremove_all f p in (f', if err && negb ndebug then WAssert else r)
  end.

(** 439-459 *)
Definition rvalidate_writeability (ndebug : bool) (f : rfs) (p : string) : rfs * wout :=
  match status f p with
  | StError => (f, WFsError)
  | StNode (RDir _) => (f, WThrow (dq p +s+ " is a directory. Cannot validate writeability."))
  | _ =>
      let '(f1, good) := ropen_write f p in
      if negb good then runwind ndebug f1 p (WThrow ("Cannot write " +s+ dq p +s+ "!"))
      else let '(f2, err) := rremove f1 p in runwind ndebug f2 p (if err then WFsError else WOk)
  end.

Definition unhandled : vout := VThrow "Unhandled filesystem error!".

(** input_file_validator, 563-586: everything inside the try block *)
Definition rinput_file (exts : list string) (f : rfs) (p : string) : pout :=
  match status f p with
  | StError => PV unhandled
  | StNone => PV (VThrow ("The file " +s+ dq p +s+ " does not exist!"))
  | StNode _ => match rvalidate_readability f p with
                | ROk => PV (validate_filename exts p)
                | RThrow m => PV (VThrow m)
                | RFs => PV unhandled
                end
  end.

(** output_file_validator, 721-746: the first is_directory() is outside of the try block *)
Definition routput_file (ndebug : bool) (mode : open_mode) (exts : list string) (f : rfs) (p : string) : rfs * pout :=
  match status f p with
  | StError => (f, PFs)
  | StNode (RDir _) => (f, PV (VThrow (dq p +s+ " is a directory. Expected a file.")))
  | s =>
      if (match mode, s with CreateNew, StNode _ => true | _, _ => false end)
      then (f, PV (VThrow ("The file " +s+ dq p +s+ " already exists!")))
      else match rvalidate_writeability ndebug f p with
           | (f', WOk) => (f', PV (validate_filename exts p))
           | (f', r) => (f', PV (of_wout r))
           end
  end.

(** input_directory_validator, 823-846: inside the try block *)
Definition rinput_directory (f : rfs) (p : string) : pout :=
  match status f p with
  | StError => PV unhandled
  | StNone => PV (VThrow ("The directory " +s+ dq p +s+ " does not exists!"))
  | StNode (RDir _) => match rvalidate_readability f p with
                       | ROk => PV VOk
                       | RThrow m => PV (VThrow m)
                       | RFs => PV unhandled
                       end
  | StNode _ => PV (VThrow ("The path " +s+ dq p +s+ " is not a directory!"))
  end.

(** output_directory_validator, 908-941: the first exists() is outside of the try block *)
Definition routput_directory (ndebug : bool) (f : rfs) (p : string) : rfs * pout :=
  match status f p with
  | StError => (f, PFs)
  | s =>
      let '(f1, ec) := rcreate_directory f p in
      if ec then (f1, PV (VThrow ("Cannot create directory: " +s+ dq p +s+ "!")))
      else match s with
           | StNone =>
               match rvalidate_writeability ndebug f1 (path_join p "dummy.txt") with
               | (f2, WOk) =>
                   let '(f3, err) := rremove_all f2 p in
                   let '(f4, r) := runwind ndebug f3 p (if err then WFsError else WOk) in (f4, PV (of_wout r))
               | (f2, r) => let '(f3, r') := runwind ndebug f2 p r in (f3, PV (of_wout r'))
               end
           | _ => let '(f2, r) := rvalidate_writeability ndebug f1 (path_join p "dummy.txt") in (f2, PV (of_wout r))
           end
  end.
End Cwd.
