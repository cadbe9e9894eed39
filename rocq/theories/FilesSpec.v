(** Vocabulary: verdict, message and effect of the validators for files and directories (C96). *)
From Verif Require Import Base Fs Values Validators ValidatorsSpec PromiseSpec.

(** ** Paths *)

Definition slashless (s : string) : Prop := ~ In "/"%char (chars s).
(** the entry a path leads to, from the root or from the working directory: empty names and "." lead nowhere else *)
Inductive leads : string -> key -> Prop :=
| leads_stay n : n = "" \/ n = "." -> leads n []
| leads_name n : n <> "" -> n <> "." -> slashless n -> leads n [n]
| leads_on n p k k' : slashless n -> leads n k -> leads p k' -> leads (n +s+ "/" +s+ p) (k ++ k').
(** what is there; nothing is at the empty path *)
Definition there (f : fs) (p : string) (n : option node) : Prop :=
  if is_empty p then n = None else exists k, leads p k /\ f k = n.
(** a new entry can be made: its directory is there and writable *)
Definition room (f : fs) (p : string) : Prop :=
  exists d x m, leads p (d ++ [x]) /\ f d = Some (NDir m) /\ f_writable m = true.
(** the file is gone, everything else is as before *)
Definition without (f : fs) (p : string) (f' : fs) : Prop :=
  exists k, leads p k /\ (forall k', at_or_below k k' -> f' k' = None) /\ forall k', ~ at_or_below k k' -> f' k' = f k'.
(** the file has lost its content *)
Definition emptied (f : fs) (p : string) (f' : fs) : Prop :=
  exists k c m, leads p k /\ f k = Some (NFile c m) /\ f' k = Some (NFile "" m) /\ forall k', k' <> k -> f' k' = f k'.

Definition in_double_quotes (p : string) : string := """" +s+ p +s+ """".
(** the dot of ".name" counts for nothing *)
Definition without_dot (name rest : string) : Prop := name = "." +s+ rest \/ (name = rest /\ forall s, name <> "." +s+ s).

(** ** Names *)

Inductive name_verdict (exts : list string) (p name : string) : vout -> Prop :=
| nv_any : exts = [] -> name_verdict exts p name VOk
| nv_good : exts <> [] -> ext_suffix exts name -> name_verdict exts p name VOk
| nv_none s : exts <> [] -> ~ (exists a b, name = a +s+ "." +s+ b /\ a <> "") -> separated exts s ->
    name_verdict exts p name (VThrow ("The given filename " +s+ p +s+ " has no extension. Expected one of the following valid extensions:[" +s+ s +s+ "]!"))
| nv_bad s a b : exts <> [] -> ~ ext_suffix exts name -> without_dot name (a +s+ "." +s+ b) -> ~ In "."%char (chars a) -> separated exts s ->
    name_verdict exts p name (VThrow ("Expected one of the following valid extensions: [" +s+ s +s+ "]! Got " +s+ b +s+ " instead!")).

(** ** Reading *)

Definition reads (f : fs) (p : string) (n : node) (r : vout) : Prop :=
  match n with
  | NDir m => r = if f_readable m then VOk else VThrow ("Cannot read the directory " +s+ in_double_quotes p +s+ "!")
  | NOther _ => r = VThrow ("Expected a regular file " +s+ in_double_quotes p +s+ "!")
  | NFile _ m => r = if f_readable m then VOk else VThrow ("Cannot read the file " +s+ in_double_quotes p +s+ "!")
  end.
Definition input_file_says (exts : list string) (name : string) (f : fs) (p : string) (r : vout) : Prop :=
  (there f p None /\ r = VThrow ("The file " +s+ in_double_quotes p +s+ " does not exist!")) \/
  exists n q, there f p (Some n) /\ reads f p n q /\ match q with VOk => name_verdict exts p name r | _ => r = q end.
Definition input_directory_says (f : fs) (p : string) (r : vout) : Prop :=
  (there f p None /\ r = VThrow ("The directory " +s+ in_double_quotes p +s+ " does not exists!")) \/
  exists n, there f p (Some n) /\
    match n with NDir _ => reads f p n r | _ => r = VThrow ("The path " +s+ in_double_quotes p +s+ " is not a directory!") end.

(** ** Writing *)

(** Trying to write at [p]; [None]: it is possible.  An entry that was there is removed. *)
Definition tries (nd : bool) (f : fs) (p : string) (f' : fs) (r : option vout) : Prop :=
  let cannot := VThrow ("Cannot write " +s+ in_double_quotes p +s+ "!") in
  exists n, there f p n /\
  match n with
  | Some (NDir _) => same_fs f f' /\ r = Some (VThrow (in_double_quotes p +s+ " is a directory. Cannot validate writeability."))
  | None => same_fs f f' /\ ((room f p /\ r = None) \/ (~ room f p /\ r = Some cannot))
  | Some (NFile _ m) | Some (NOther m) =>
      (room f p /\ without f p f' /\ r = if f_writable m then None else Some cannot) \/
      (~ room f p /\ f_writable m = false /\ same_fs f f' /\ r = Some (if nd then cannot else VAssert)) \/
      (~ room f p /\ f_writable m = true /\ match n with Some (NFile _ _) => emptied f p f' | _ => same_fs f f' end
         /\ r = Some (if nd then VThrow "Unhandled filesystem error!" else VAssert))
  end.
Definition output_file_says (nd : bool) (mode : open_mode) (exts : list string) (name : string) (f : fs) (p : string) (f' : fs) (r : vout) : Prop :=
  (exists m, there f p (Some (NDir m)) /\ same_fs f f' /\ r = VThrow (in_double_quotes p +s+ " is a directory. Expected a file.")) \/
  ((forall m, ~ there f p (Some (NDir m))) /\ mode = CreateNew /\ ~ there f p None /\ same_fs f f'
     /\ r = VThrow ("The file " +s+ in_double_quotes p +s+ " already exists!")) \/
  ((forall m, ~ there f p (Some (NDir m))) /\ (mode = CreateNew -> there f p None) /\
     exists q, tries nd f p f' q /\ match q with None => name_verdict exts p name r | Some e => r = e end).
Definition output_directory_says (nd : bool) (f : fs) (p : string) (f' : fs) (r : vout) : Prop :=
  (exists m q t, there f p (Some (NDir m)) /\ ((exists s, p = s +s+ "/" /\ t = p +s+ "dummy.txt") \/ ((forall s, p <> s +s+ "/") /\ t = p +s+ "/dummy.txt"))
     /\ tries nd f t f' q /\ r = match q with None => VOk | Some e => e end) \/
  (there f p None /\ room f p /\ same_fs f f' /\ r = VOk) \/
  ((forall m, ~ there f p (Some (NDir m))) /\ ~ (there f p None /\ room f p) /\ same_fs f f'
     /\ r = VThrow ("Cannot create directory: " +s+ in_double_quotes p +s+ "!")).

(** ** Lists: one path after the other, up to the first that is refused *)

Inductive in_turn (says : fs -> string -> fs -> vout -> Prop) : fs -> list string -> fs -> vout -> Prop :=
| turn_done f : in_turn says f [] f VOk
| turn_next f p f1 l f' r : says f p f1 VOk -> in_turn says f1 l f' r -> in_turn says f (p :: l) f' r
| turn_stop f p l f' r : says f p f' r -> r <> VOk -> in_turn says f (p :: l) f' r.
