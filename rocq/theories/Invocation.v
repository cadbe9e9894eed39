(** Specification of what a command line means.

    An invocation is described without reference to text scanning: a sequence of items (option
    settings, options whose value is missing, flags, positional words) and the words behind "--".
    [render] writes it down as an argument vector; [eval] says what it should do to the bound
    variables.  Neither mentions the scanner of FormatParse.v. *)
From Verif Require Import Base Fs Values Validators FormatParse.

Inductive spelling := Separate | Joined | Equals.

Inductive item :=
| IOpt (i : ident) (sp : spelling) (v : string)   (* -o v, -ov, -o=v, --opt v, --opt=v *)
| IMissing (i : ident)                            (* -o=, --opt= *)
| IDangling (i : ident)                           (* -o, --opt as last argument before "--" *)
| ICluster (cs : string)                          (* -abc: flags, possibly unknown or repeated ones *)
| ILongFlag (s : string)                          (* --flag: possibly unknown or repeated *)
| IWord (w : string).                             (* positional word *)

Record invocation := { items : list item; tail : option (list string) }.

(** ** Writing an invocation down *)

Definition dashed (i : ident) : string :=
  match i with IdShort c => "-" +s+ str1 c | IdLong s => "--" +s+ s end.

Definition render_item (it : item) : list string :=
  match it with
  | IOpt i Separate v => [dashed i; v]
  | IOpt i Joined v => [dashed i +s+ v]
  | IOpt i Equals v => [dashed i +s+ "=" +s+ v]
  | IMissing i => [dashed i +s+ "="]
  | IDangling i => [dashed i]
  | ICluster cs => ["-" +s+ cs]
  | ILongFlag s => ["--" +s+ s]
  | IWord w => [w]
  end.

Definition render_tail (t : option (list string)) : list string :=
  match t with None => [] | Some ws => "--" :: ws end.

Definition render (inv : invocation) : list string :=
  flat_map render_item (items inv) ++ render_tail (tail inv).

(** ** Well-formed interfaces *)

Definition ident_eqb (i j : ident) : bool :=
  match i, j with
  | IdShort c, IdShort d => Ascii.eqb c d
  | IdLong s, IdLong t => String.eqb s t
  | _, _ => false
  end.

Definition config_idents (c : config) : list ident :=
  (if Ascii.eqb (c_short c) nul then [] else [IdShort (c_short c)]) ++
  (if is_empty (c_long c) then [] else [IdLong (c_long c)]).

Definition option_idents (d : decl) : list ident :=
  match d with DOption _ _ c => config_idents c | _ => [] end.
Definition flag_idents (d : decl) : list ident :=
  match d with DFlag _ c => config_idents c | _ => [] end.
Definition decl_idents (d : decl) : list ident := option_idents d ++ flag_idents d.

(** letters, digits, '@', '_', '-' *)
Definition id_char (c : chr) : bool :=
  is_alnum c || Ascii.eqb c "@" || Ascii.eqb c "_" || Ascii.eqb c "-".

Definition good_ident (i : ident) : bool :=
  match i with
  | IdShort c => id_char c && negb (Ascii.eqb c "-")
  | IdLong s => (2 <=? String.length s)%nat && sall id_char s &&
                match s with String c _ => negb (Ascii.eqb c "-") | EmptyString => false end
  end.

Definition mem_ident (i : ident) (l : list ident) : bool := existsb (ident_eqb i) l.

Fixpoint nodup_idents (l : list ident) : bool :=
  match l with [] => true | i :: l' => negb (mem_ident i l') && nodup_idents l' end.

(** a list positional option is the last positional option *)
Fixpoint list_last (ts : list vty) : bool :=
  match ts with
  | [] => true
  | [_] => true
  | t :: l => negb (is_container t) && list_last l
  end.

Definition pos_types (decls : list decl) : list vty :=
  flat_map (fun d => match d with DPositional _ t _ => [t] | _ => [] end) decls.

Definition wf_decls (decls : list decl) : bool :=
  forallb good_ident (flat_map decl_idents decls) &&
  nodup_idents (flat_map decl_idents decls) &&
  list_last (pos_types decls).

(** ** Well-formed invocations over an interface *)

Definition begins (c : chr) (s : string) : bool :=
  match s with String d _ => Ascii.eqb c d | EmptyString => false end.

(** the text [v] could be read as a mention of option [i] *)
Definition looks_like (i : ident) (v : string) : bool :=
  match i with
  | IdShort c => String.prefix (dashed i) v
  | IdLong s => String.eqb v (dashed i) || String.prefix (dashed i +s+ "=") v
  end.

(** the text [w] could be read as a cluster containing flag [c] *)
Definition looks_like_cluster_of (c : chr) (w : string) : bool :=
  match w with
  | String d (String e w') => Ascii.eqb d "-" && negb (Ascii.eqb e "-") && scontains c (String e w')
  | _ => false
  end.

Definition wf_item (opts : list ident) (it : item) : bool :=
  match it with
  | IOpt i Separate v => mem_ident i opts && negb (String.eqb v "--") && negb (existsb (fun j => looks_like j v) opts)
  | IOpt i Joined v => mem_ident i opts && negb (is_empty v) && negb (begins "=" v) &&
                       match i with IdShort _ => true | IdLong _ => false end
  | IOpt i Equals v => mem_ident i opts && negb (is_empty v)
  | IMissing i => mem_ident i opts
  | IDangling i => mem_ident i opts
  | ICluster cs => negb (is_empty cs) && sall (fun c => negb (Ascii.eqb c "-") && negb (Ascii.eqb c nul)) cs &&
                   negb (existsb (fun j => looks_like j ("-" +s+ cs)) opts)
  | ILongFlag s => negb (is_empty s) && negb (existsb (fun j => looks_like j ("--" +s+ s)) opts)
  | IWord w => negb (is_empty w) && (String.eqb w "-" || negb (begins "-" w))
  end.

(** an option without value and without "=" only occurs at the end *)
Fixpoint dangling_last (its : list item) : bool :=
  match its with
  | [] => true
  | IDangling _ :: _ :: _ => false
  | _ :: l => dangling_last l
  end.

(** flags mentioned by an invocation, with multiplicity *)
Definition item_flags (it : item) : list ident :=
  match it with
  | ICluster cs => map IdShort (chars cs)
  | ILongFlag s => [IdLong s]
  | _ => []
  end.
Definition mentions (its : list item) : list ident := flat_map item_flags its.

Definition count_in (l m : list ident) : nat := List.length (filter (fun i => mem_ident i l) m).

(** words behind "--"; the operating system's argument strings contain no NUL character *)
Definition wf_tail (flags : list ident) (t : option (list string)) : bool :=
  match t with
  | None => true
  | Some ws => forallb (fun w => negb (is_empty w) && negb (scontains nul w) &&
                 forallb (fun i => match i with IdShort c => negb (looks_like_cluster_of c w) | _ => true end) flags) ws
  end.

Definition wf_invocation (decls : list decl) (inv : invocation) : bool :=
  forallb (wf_item (flat_map option_idents decls)) (items inv) &&
  dangling_last (items inv) &&
  wf_tail (flat_map flag_idents decls) (tail inv).

(** ** Meaning of an invocation *)

Record sst := { s_vars : store; s_fs : fs }.

(** outcomes up to the text of messages *)
Inductive okind := ORet | OThrow (k : exn_kind) | OExit | OAssert | OUB | OFuel.
Definition okind_of {A} (r : res A) : okind :=
  match r with
  | Ret _ => ORet | Throw e => OThrow (ekind e) | Exit _ => OExit
  | AssertFail => OAssert | UB => OUB | OutOfFuel => OFuel
  end.

Definition fail {A} (k : exn_kind) : M sst A := throw k "".

Definition s_set (x : addr) (v : val) : M sst unit :=
  modify (fun s => {| s_vars := set_var (s_vars s) x v; s_fs := s_fs s |}).

Section eval.
Variable ndebug : bool.

(** give variable [x] the value denoted by [text]; conversion itself is specified elsewhere *)
Definition s_assign (x : addr) (t : vty) (text : string) : M sst unit :=
  fun s => match parse_option_value t (s_vars s x) text with
           | PThrow e => (s, Throw e)
           | POk v PSuccess => s_set x v s
           | POk v PError => (s_set x v ;; fail KUserInput) s
           | POk v POverflow =>
               (s_set x v ;; (if is_arithmetic t then fail KUserInput
                              else if ndebug then ret tt else fun s => (s, AssertFail))) s
           end.

Definition s_validate (v : validator) (x : addr) : M sst unit :=
  fun s => let '(f', r) := v (s_fs s) (s_vars s x) in
           ({| s_vars := s_vars s; s_fs := f' |},
            match r with
            | VOk => Ret tt
            | VThrow m => Throw (Exn KValidation m)
            | VAssert => AssertFail
            | VUB => UB
            end).

(** values given to identifier [i], in command line order; [None]: the value is missing *)
Definition item_values (i : ident) (it : item) : list (option string) :=
  match it with
  | IOpt j _ v => if ident_eqb i j then [Some v] else []
  | IMissing j | IDangling j => if ident_eqb i j then [None] else []
  | _ => []
  end.
Definition values_of (its : list item) (i : ident) : list (option string) :=
  flat_map (item_values i) its.

Definition s_given (x : addr) (t : vty) (v : option string) : M sst unit :=
  match v with Some text => s_assign x t text | None => fail KTooFew end.

(** the values given through one identifier *)
Definition s_scalar (x : addr) (t : vty) (vs : list (option string)) : M sst unit :=
  match vs with
  | [] => ret tt
  | v :: more => s_given x t v ;; match more with [] => ret tt | _ => fail KMultiple end
  end.
Definition s_list (x : addr) (t : vty) (vs : list (option string)) : M sst unit :=
  match vs with
  | [] => ret tt
  | _ => s_set x (VList []) ;; mapM_ (s_given x t) vs
  end.
Definition s_values (x : addr) (t : vty) (vs : list (option string)) : M sst unit :=
  if is_container t then s_list x t vs else s_scalar x t vs.

Definition short_values (its : list item) (c : config) : list (option string) :=
  if Ascii.eqb (c_short c) nul then [] else values_of its (IdShort (c_short c)).
Definition long_values (its : list item) (c : config) : list (option string) :=
  if is_empty (c_long c) then [] else values_of its (IdLong (c_long c)).

Definition given {A} (l : list A) : bool := match l with [] => false | _ => true end.

Definition s_option (its : list item) (d : decl) : M sst unit :=
  match d with
  | DOption x t c =>
      let sv := short_values its c in
      let lv := long_values its c in
      s_values x t sv ;;
      s_values x t lv ;;
      (if given sv && given lv && negb (is_container t) then fail KMultiple
       else if given sv || given lv then s_validate (c_validator c) x
       else if c_required c then fail KRequiredMissing
       else ret tt)
  | _ => ret tt
  end.

(** the flag's variable was true already *)
Definition was_true (v : val) : bool := match v with VBool true => true | _ => false end.
Definition s_flag (its : list item) (d : decl) : M sst unit :=
  match d with
  | DFlag x c =>
      fun s =>
        s_set x (VBool (existsb (fun i => mem_ident i (config_idents c)) (mentions its) || was_true (s_vars s x))) s
  | _ => ret tt
  end.

(** a flag that does not exist, or the same flag given twice *)
Definition unknown (decls : list decl) (its : list item) : bool :=
  existsb (fun i => negb (mem_ident i (flat_map flag_idents decls))) (mentions its) ||
  existsb (fun d => (2 <=? count_in (flag_idents d) (mentions its))%nat) decls.

(** words for positional options *)
Definition words (inv : invocation) : list string :=
  flat_map (fun it => match it with IWord w => [w] | _ => [] end) (items inv) ++
  match tail inv with None => [] | Some ws => ws end.

(** hand the words to the positional options, in order *)
Fixpoint s_positionals (decls : list decl) (ws : list string) : M sst unit :=
  match decls with
  | [] => match ws with [] => ret tt | _ => fail KTooMany end
  | DPositional x t c :: ds =>
      match ws with
      | [] => fail KTooFew
      | w :: more =>
          if is_container t then
            s_set x (VList []) ;; mapM_ (s_assign x t) ws ;; s_validate (c_validator c) x ;; s_positionals ds []
          else
            s_assign x t w ;; s_validate (c_validator c) x ;; s_positionals ds more
      end
  | _ :: ds => s_positionals ds ws
  end.

Definition eval (decls : list decl) (inv : invocation) : M sst unit :=
  mapM_ (s_option (items inv)) decls ;;
  mapM_ (s_flag (items inv)) decls ;;
  (if unknown decls (items inv) then fail KUnknownOption else ret tt) ;;
  s_positionals decls (words inv).

End eval.

(** Agreement of a run of the parser with the specification: same variables, same file system,
    same outcome up to message texts. *)
Definition agrees (p : pst * res unit) (q : sst * res unit) : Prop :=
  vars (fst p) = s_vars (fst q) /\
  fsys (fst p) = s_fs (fst q) /\
  okind_of (snd p) = okind_of (snd q).

(** ** Derived notions used in the property statements *)

(** same variables, same file system, same outcome (up to message texts) *)
Definition same_run (p q : pst * res unit) : Prop :=
  vars (fst p) = vars (fst q) /\ fsys (fst p) = fsys (fst q) /\ okind_of (snd p) = okind_of (snd q).

(** all values given to an option, through either of its names, in command line order *)
Definition option_values (its : list item) (c : config) : list (option string) :=
  flat_map (fun it => match it with
                      | IOpt i _ v => if mem_ident i (config_idents c) then [Some v] else []
                      | IMissing i | IDangling i => if mem_ident i (config_idents c) then [None] else []
                      | _ => []
                      end) its.

(** no option is given through both of its names *)
Definition one_name (its : list item) (c : config) : bool :=
  negb (given (short_values its c) && given (long_values its c)).
Definition one_names (decls : list decl) (its : list item) : bool :=
  forallb (fun d => match d with DOption _ _ c => one_name its c | _ => true end) decls.

(** the variable a declaration is bound to *)
Definition bound_addr (d : decl) : addr :=
  match d with DOption x _ _ | DFlag x _ | DPositional x _ _ => x end.

(** two items that write down the same setting of an option *)
Inductive respelled (decls : list decl) : item -> item -> Prop :=
| resp_same it : respelled decls it it
| resp_value x t c i j sp sp' v : In (DOption x t c) decls ->
    In i (config_idents c) -> In j (config_idents c) -> respelled decls (IOpt i sp v) (IOpt j sp' v)
| resp_missing x t c i j it it' : In (DOption x t c) decls ->
    In i (config_idents c) -> In j (config_idents c) ->
    it = IMissing i \/ it = IDangling i -> it' = IMissing j \/ it' = IDangling j -> respelled decls it it'.

(** writing every flag of a cluster separately *)
Definition split_cluster (it : item) : list item :=
  match it with ICluster cs => map (fun c => ICluster (str1 c)) (chars cs) | _ => [it] end.

(** ** What an accepted command line leaves in the variables *)

(** the texts are the values, converted one by one *)
Definition all_convert (e : ety) (texts : list string) (vs : list val) : Prop :=
  Forall2 (fun text v => parse_elem e (default_val e) text = POk v PSuccess) texts vs.

(** The elements a list variable holds after the texts were given: every text converted in order,
    except that builds with NDEBUG skip numbers outside the range of the type (the finding C02). *)
Inductive stored (ndebug : bool) (e : ety) : list string -> list val -> Prop :=
| st_nil : stored ndebug e [] []
| st_keep t v ts vs : parse_elem e (default_val e) t = POk v PSuccess -> stored ndebug e ts vs ->
    stored ndebug e (t :: ts) (v :: vs)
| st_skip t v ts vs : ndebug = true -> parse_elem e (default_val e) t = POk v POverflow -> stored ndebug e ts vs ->
    stored ndebug e (t :: ts) vs.

(** no value is outside the range of the element type *)
Definition no_overflow (e : ety) (texts : list string) : Prop :=
  forall text v, In text texts -> parse_elem e (default_val e) text <> POk v POverflow.

(** [ws] are exactly the words for the positional options of [decls], which hold them in [vs1];
    [vs0]: the variables before *)
Fixpoint filled (ndebug : bool) (vs0 vs1 : store) (decls : list decl) (ws : list string) : Prop :=
  match decls with
  | [] => ws = []
  | DPositional x (Scalar e) _ :: ds =>
      exists w ws', ws = w :: ws' /\ parse_elem e (vs0 x) w = POk (vs1 x) PSuccess /\ filled ndebug vs0 vs1 ds ws'
  | DPositional x (ListOf e) _ :: ds =>
      ws <> [] /\ (exists vals, stored ndebug e ws vals /\ vs1 x = VList vals) /\ filled ndebug vs0 vs1 ds []
  | _ :: ds => filled ndebug vs0 vs1 ds ws
  end.

(** the flag of this configuration is given *)
Definition flag_given (its : list item) (c : config) : bool :=
  existsb (fun i => mem_ident i (config_idents c)) (mentions its).

(** a validator that only looks *)
Definition pure_on_fs (v : validator) : Prop := forall f x, fst (v f x) = f.

Definition validators_pure (decls : list decl) : Prop :=
  forall x t c, In (DOption x t c) decls -> pure_on_fs (c_validator c).

(** the command line "--opt=s" or "-o=s" *)
Definition one_arg (i : ident) (s : string) : list string := [dashed i +s+ "=" +s+ s].
Definition one_inv (i : ident) (s : string) : invocation := {| items := [IOpt i Equals s]; tail := None |}.
