(** The command line scanner: include/sharg/detail/format_parse.hpp, function by function.

    Representation of the argument vector.  The code keeps one vector [arguments] whose length
    never changes (consumed elements are replaced by the empty string) and the iterator
    [end_of_options_it].  Here the range [begin, end_of_options_it) is [pre] and the range
    [end_of_options_it, end) is [post] (empty, or starting with "--").  An iterator into a range is
    represented by splitting the range at that position.

    Simplification: [positional_option_count] is a natural number ([unsigned] in the code). *)
From Verif Require Import Base Fs Values Validators.

(** Bound variables live at addresses; two options may be bound to the same variable. *)
Definition addr := nat.
Definition store := addr -> val.
Definition set_var (st : store) (x : addr) (v : val) : store :=
  fun y => if Nat.eqb x y then v else st y.

(** include/sharg/config.hpp 42-140; [c_vhelp] is the validator's get_help_page_message() *)
Record config := {
  c_short : chr;               (* '\0' if not given *)
  c_long : string;
  c_desc : string;
  c_default_message : string;
  c_advanced : bool;
  c_hidden : bool;
  c_required : bool;
  c_validator : validator;
  c_vhelp : string }.

(** Declarations, in the order of the add_* calls. *)
Inductive decl :=
| DOption (x : addr) (t : vty) (c : config)
| DFlag (x : addr) (c : config)
| DPositional (x : addr) (t : vty) (c : config).

Record pst := {
  pre : list string;
  post : list string;
  vars : store;
  count : nat;                 (* positional_option_count, line 811 *)
  fsys : fs }.

Definition set_pre (l : list string) (s : pst) : pst :=
  {| pre := l; post := post s; vars := vars s; count := count s; fsys := fsys s |}.
Definition set_args (l m : list string) (s : pst) : pst :=
  {| pre := l; post := m; vars := vars s; count := count s; fsys := fsys s |}.
Definition set_vars (v : store) (s : pst) : pst :=
  {| pre := pre s; post := post s; vars := v; count := count s; fsys := fsys s |}.
Definition set_count (n : nat) (s : pst) : pst :=
  {| pre := pre s; post := post s; vars := vars s; count := n; fsys := fsys s |}.
Definition set_fsys (f : fs) (s : pst) : pst :=
  {| pre := pre s; post := post s; vars := vars s; count := count s; fsys := f |}.

(** ** Identifiers (142-240) *)

Inductive ident := IdShort (c : chr) | IdLong (s : string).

(** is_empty_id, 142-149 *)
Definition is_empty_id (i : ident) : bool :=
  match i with IdShort c => Ascii.eqb c nul | IdLong s => is_empty s end.

(** prepend_dash, 213-225 *)
Definition prepend_dash (i : ident) : string :=
  match i with
  | IdShort c => String "-" (str1 c)
  | IdLong s => "--" +s+ s
  end.

(** the predicate of find_option_id, 180-197 *)
Definition arg_matches (i : ident) (arg : string) : bool :=
  let full := prepend_dash i in
  let same_prefix := String.eqb (stake (String.length full) arg) full in
  match i with
  | IdShort _ => same_prefix
  | IdLong _ => same_prefix &&
                ((String.length arg =? String.length full)%nat ||
                 match snth (String.length full) arg with Some c => Ascii.eqb c "=" | None => false end)
  end.

(** [std::find_if] on a range: the elements before, the element, the elements after *)
Fixpoint split_first (p : string -> bool) (l : list string) : option (list string * string * list string) :=
  match l with
  | [] => None
  | a :: l' => if p a then Some ([], a, l')
               else match split_first p l' with
                    | Some (b, e, r) => Some (a :: b, e, r)
                    | None => None
                    end
  end.

(** find_option_id, 173-198 *)
Definition find_option_id (i : ident) (l : list string) : option (list string * string * list string) :=
  if is_empty_id i then None else split_first (arg_matches i) l.

(** combine_option_names, 232-240 *)
Definition combine_option_names (c : chr) (s : string) : string :=
  if Ascii.eqb c nul then prepend_dash (IdLong s)
  else if is_empty s then prepend_dash (IdShort c)
  else prepend_dash (IdShort c) +s+ "/" +s+ prepend_dash (IdLong s).

(** ** Flags (245-279, 716-721) *)

(** flag_is_set(std::string), 245-253: searches [begin, end_of_options_it) *)
Definition flag_is_set_long (s : string) : M pst bool :=
  fun st => match split_first (String.eqb (prepend_dash (IdLong s))) (pre st) with
            | Some (b, _, r) => (set_pre (b ++ EmptyString :: r) st, Ret true)
            | None => (st, Ret false)
            end.

(** 263: "is option && not dash && no long option" *)
Definition is_cluster (a : string) : bool :=
  match a with
  | String c (String d _) => Ascii.eqb c "-" && negb (Ascii.eqb d "-")
  | _ => false
  end.

(** loop body of 261-277; [None]: no argument contains the flag *)
Fixpoint flag_scan (c : chr) (l : list string) : option (list string) :=
  match l with
  | [] => None
  | a :: l' =>
      match (if is_cluster a then sfind c a else None) with
      | Some pos => let a' := erase_at pos a in
                    Some ((if String.eqb a' "-" then EmptyString else a') :: l')
      | None => option_map (cons a) (flag_scan c l')
      end
  end.

(** flag_is_set(char), 258-279: searches all of [arguments], also behind end_of_options_it *)
Definition flag_is_set_short (c : chr) : M pst bool :=
  fun st => match flag_scan c (pre st) with
            | Some l => (set_pre l st, Ret true)
            | None => match flag_scan c (post st) with
                      | Some l => (set_args (pre st) l st, Ret true)
                      | None => (st, Ret false)
                      end
            end.

Definition as_bool (v : val) : bool := match v with VBool b => b | _ => false end.

(** get_flag, 716-721: [value = flag_is_set(short_id) || flag_is_set(long_id) || value] *)
Definition get_flag (x : addr) (c : config) : M pst unit :=
  do s <- flag_is_set_short (c_short c);
  do l <- (if s then ret true else flag_is_set_long (c_long c));
  modify (fun st => set_vars (set_var (vars st) x (VBool (s || l || as_bool (vars st x)))) st).

Section build_mode.
Variable ndebug : bool.       (* NDEBUG defined *)

(** ** Options *)

(** parse_option_value followed by throw_on_input_error *)
Definition store_value (x : addr) (t : vty) (name input : string) : M pst unit :=
  fun st => match parse_option_value t (vars st x) input with
            | PThrow e => (st, Throw e)
            | POk v r => (set_vars (set_var (vars st) x v) st,
                          throw_on_input_error ndebug t r name input)
            end.

(** identify_and_retrieve_option_value, 492-532, for an iterator at [arg] in
    [before ++ arg :: after].  Returns the range split at the iterator afterwards. *)
Definition retrieve (i : ident) (x : addr) (t : vty) (before : list string) (arg : string)
           (after : list string) : M pst (list string * list string) :=
  let n := String.length (prepend_dash i) in
  let missing := throw KTooFew ("Missing value for option " +s+ prepend_dash i) in
  if (n <? String.length arg)%nat then
    if match snth n arg with Some c => Ascii.eqb c "=" | None => false end then
      if (String.length arg =? n + 1)%nat then missing
      else store_value x t (prepend_dash i) (sdrop (n + 1) arg) ;;
           ret (before, EmptyString :: after)
    else store_value x t (prepend_dash i) (sdrop n arg) ;;
         ret (before, EmptyString :: after)
  else
    match after with
    | [] => missing
    | v :: after' => store_value x t (prepend_dash i) v ;;
                     ret (before ++ [EmptyString], EmptyString :: after')
    end.

(** get_option_by_id for non-containers, 552-564 *)
Definition get_by_id_scalar (i : ident) (x : addr) (t : vty) : M pst bool :=
  fun st =>
    match find_option_id i (pre st) with
    | None => (st, Ret false)
    | Some (b, a, r) =>
        (do p <- retrieve i x t b a r;
         modify (set_pre (fst p ++ snd p)) ;;
         match find_option_id i (snd p) with
         | Some _ => throw KMultiple ("Option " +s+ prepend_dash i
                                      +s+ " is no list/container but declared multiple times.")
         | None => ret true
         end) st
    end.

(** the while loop of 586-590; [done]: the range before the iterator, [rest]: from the iterator on *)
Fixpoint get_all (fuel : nat) (i : ident) (x : addr) (t : vty) (done rest : list string) : M pst unit :=
  match find_option_id i rest with
  | None => modify (set_pre (done ++ rest))
  | Some (b, a, r) =>
      match fuel with
      | O => fun st => (st, OutOfFuel)
      | S fuel' => do p <- retrieve i x t (done ++ b) a r;
                   get_all fuel' i x t (fst p) (snd p)
      end
  end.

(** get_option_by_id for containers, 578-593 *)
Definition get_by_id_list (i : ident) (x : addr) (t : vty) : M pst bool :=
  fun st =>
    match find_option_id i (pre st) with
    | None => (st, Ret false)
    | Some _ =>
        (modify (fun s => set_vars (set_var (vars s) x (VList [])) s) ;;     (* value.clear() *)
         get_all (S (List.length (pre st))) i x t [] (pre st) ;;
         ret true) st
    end.

Definition get_by_id (i : ident) (x : addr) (t : vty) : M pst bool :=
  if is_container t then get_by_id_list i x t else get_by_id_scalar i x t.

(** running config.validator(value) inside try/catch (690-698, 793-801) *)
Definition run_validator (v : validator) (x : addr) (prefix : string) : M pst unit :=
  fun st => let '(f', r) := v (fsys st) (vars st x) in
            (set_fsys f' st,
             match r with
             | VOk => Ret tt
             | VThrow m => Throw (Exn KValidation (prefix +s+ m))
             | VAssert => AssertFail
             | VUB => UB
             end).

(** get_option, 678-707 *)
Definition get_option (x : addr) (t : vty) (c : config) : M pst unit :=
  do short_set <- get_by_id (IdShort (c_short c)) x t;
  do long_set <- get_by_id (IdLong (c_long c)) x t;
  let names := combine_option_names (c_short c) (c_long c) in
  if short_set && long_set && negb (is_container t) then
    throw KMultiple ("Option " +s+ names +s+ " is no list/container but specified multiple times")
  else if short_set || long_set then
    run_validator (c_validator c) x ("Validation failed for option " +s+ names +s+ ": ")
  else if c_required c then
    throw KRequiredMissing ("Option " +s+ names +s+ " is required but not set.")
  else ret tt.

(** ** Unknown and surplus arguments *)

Fixpoint rfind (c : chr) (s : string) : option nat :=
  match s with
  | EmptyString => None
  | String d s' => match rfind c s' with
                   | Some n => Some (S n)
                   | None => if Ascii.eqb c d then Some O else None
                   end
  end.

Fixpoint init_chars (s : string) : string :=
  match s with
  | EmptyString => EmptyString
  | String _ EmptyString => EmptyString
  | String c s' => String c (init_chars s')
  end.

Fixpoint last_char (s : string) : string :=
  match s with
  | EmptyString => EmptyString
  | String c EmptyString => str1 c
  | String _ s' => last_char s'
  end.

(** "-a, -b, " *)
Fixpoint dash_list (s : string) : string :=
  match s with EmptyString => EmptyString | String c s' => "-" +s+ str1 c +s+ ", " +s+ dash_list s' end.

(** format_base.hpp 167-182.  With nothing behind the dash the loop runs past the end. *)
Definition expand_multiple_flags (s : string) : res string :=
  let body := match s with
              | String c s' => if Ascii.eqb c "-" then s' else s
              | EmptyString => s
              end in
  if is_empty body then UB
  else let tmp := dash_list (init_chars body) in
       match rfind "," tmp with
       | None => Throw (Exn KStdOutOfRange "basic_string::erase")
       | Some n => Ret (stake n tmp +s+ "and -" +s+ last_char body)
       end.

Definition unknown_tail (word : string) : string :=
  ". In case this is meant to be a non-option/argument/parameter, please specify the start of "
  +s+ word +s+ " with '--'. See -h/--help for program information.".

Fixpoint check_unknown_in (l : list string) : res unit :=
  match l with
  | [] => Ret tt
  | a :: l' =>
      match a with
      | String c s' =>
          if Ascii.eqb c "-" then
            if String.eqb a "-" then check_unknown_in l'
            else if (match s' with String d _ => negb (Ascii.eqb d "-") | EmptyString => true end)
                    && (2 <? String.length a)%nat
            then lift_res (expand_multiple_flags a)
                   (fun e => Throw (Exn KUnknownOption ("Unknown flags " +s+ e +s+ unknown_tail "arguments")))
            else Throw (Exn KUnknownOption ("Unknown option " +s+ a +s+ unknown_tail "non-options"))
          else check_unknown_in l'
      | EmptyString => check_unknown_in l'
      end
  end.

(** check_for_unknown_ids, 608-635 *)
Definition check_for_unknown_ids : M pst unit := fun st => (st, check_unknown_in (pre st)).

Definition nonempty (s : string) : bool := negb (is_empty s).

(** check_for_left_over_args, 648-658 *)
Definition check_for_left_over_args : M pst unit :=
  fun st => if existsb nonempty (pre st ++ post st)
            then (st, Throw (Exn KTooMany "Too many arguments provided. Please see -h/--help for more information."))
            else (st, Ret tt).

(** ** Positional options.  From here on the whole vector is in [pre] (see [parse_args]). *)

Definition incr_count : M pst unit := modify (fun st => set_count (S (count st)) st).

(** one positional value: 770-774 / 786-790 *)
Definition pos_value (x : addr) (t : vty) (input : string) : M pst unit :=
  fun st => store_value x t ("positional option" +s+ nat_to_string (count st)) input st.

(** the while loop of 768-782 over the range from the iterator on; returns the blanked range *)
Fixpoint pos_all (x : addr) (t : vty) (rest : list string) : M pst (list string) :=
  match rest with
  | [] => ret []
  | a :: r =>
      if is_empty a then do r' <- pos_all x t r; ret (a :: r')
      else pos_value x t a ;; incr_count ;;
           do r' <- pos_all x t r; ret (EmptyString :: r')
  end.

(** get_positional_option, 746-802; [npos] is [positional_option_calls.size()] *)
Definition get_positional_option (npos : nat) (x : addr) (t : vty) (v : validator) : M pst unit :=
  incr_count ;;
  do st <- get;
  match split_first nonempty (pre st) with
  | None => throw KTooFew ("Not enough positional arguments provided (Need at least "
                           +s+ nat_to_string npos +s+ "). See -h/--help for more information.")
  | Some (b, a, r) =>
      (if is_container t then
         (if (count st =? npos)%nat || ndebug then ret tt else fun s => (s, AssertFail)) ;;
         modify (fun s => set_vars (set_var (vars s) x (VList [])) s) ;;         (* value.clear() *)
         do l <- pos_all x t (a :: r);
         modify (set_pre (b ++ l))
       else
         pos_value x t a ;;
         modify (set_pre (b ++ EmptyString :: r))) ;;
      do st' <- get;
      run_validator v x ("Validation failed for positional option " +s+ nat_to_string (count st') +s+ ": ")
  end.

(** ** parse, 106-127 *)

Definition option_call (d : decl) : M pst unit :=
  match d with DOption x t c => get_option x t c | _ => ret tt end.
Definition flag_call (d : decl) : M pst unit :=
  match d with DFlag x c => get_flag x c | _ => ret tt end.
Definition is_positional (d : decl) : bool := match d with DPositional _ _ _ => true | _ => false end.
Definition positional_call (npos : nat) (d : decl) : M pst unit :=
  match d with DPositional x t c => get_positional_option npos x t (c_validator c) | _ => ret tt end.

(** 120-121: blank the "--"; afterwards only [arguments] as a whole is used, so the ranges are joined *)
Definition drop_end_of_options : M pst unit :=
  modify (fun st => set_args (pre st ++ match post st with [] => [] | _ :: p => EmptyString :: p end) [] st).

(** 108: [end_of_options_it = std::find(begin, end, "--")] *)
Fixpoint split_eoo (l : list string) : list string * list string :=
  match l with
  | [] => ([], [])
  | a :: l' => if String.eqb a "--" then ([], l)
               else let '(p, q) := split_eoo l' in (a :: p, q)
  end.

(** The calls of each kind run in declaration order: all options, then all flags, then all
    positional options. *)
Definition parse_calls (decls : list decl) : M pst unit :=
  mapM_ option_call decls ;;
  mapM_ flag_call decls ;;
  check_for_unknown_ids ;;
  drop_end_of_options ;;
  mapM_ (positional_call (List.length (filter is_positional decls))) decls ;;
  check_for_left_over_args.

Definition init_pst (args : list string) (vs : store) (f : fs) : pst :=
  {| pre := fst (split_eoo args); post := snd (split_eoo args); vars := vs; count := 0; fsys := f |}.

Definition parse_args (decls : list decl) (args : list string) (vs : store) (f : fs) : pst * res unit :=
  parse_calls decls (init_pst args vs f).

End build_mode.
