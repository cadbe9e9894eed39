(** Vocabulary for statements about arbitrary argument vectors. *)
From Verif Require Import Base Fs Values Validators FormatParse Invocation ValuesSpec.

(** [b]: the arguments before the first "--", [r]: the rest *)
Definition cut (args b r : list string) : Prop :=
  args = b ++ r /\ ~ In "--" b /\ (r = [] \/ exists r', r = "--" :: r').

(** some argument in [b] mentions the option of this configuration *)
Definition option_mentioned (c : config) (b : list string) : Prop :=
  exists a i, In a b /\ In i (config_idents c) /\ looks_like i a = true.

(** the argument before position [l1] is an option identifier, so the next argument may be its value *)
Definition may_be_value (opts : list ident) (l1 : list string) : Prop :=
  exists l i, l1 = l ++ [dashed i] /\ In i opts.

(** the words behind "--" are not touched by the scan for short flags *)
Definition quiet (decls : list decl) (ws : list string) : Prop := wf_tail (flat_map flag_idents decls) (Some ws) = true.

(** outcomes documented for parse(): return or an exception derived from parser_error *)
Definition documented (k : okind) : Prop :=
  match k with ORet => True | OThrow e => is_parser_error e = true | _ => False end.

(** values of this type can always be converted or diagnosed: the enumeration has names, and the
    build is not a debug build or the type is not a list of numbers (findings C05 and C02) *)
Definition storable (ndebug : bool) (t : vty) : Prop :=
  (forall n, elem_ty t <> TEnum n []) /\ (ndebug = true \/ is_container t = false \/ numeric (elem_ty t) = false).

(** a validator that returns or throws a validation_error *)
Definition behaved (v : validator) : Prop := forall f x, snd (v f x) = VOk \/ exists m, snd (v f x) = VThrow m.

(** a validator that accepts everything *)
Definition tolerant (v : validator) : Prop := forall f x, snd (v f x) = VOk.

Definition sound_decl (ndebug : bool) (d : decl) : Prop :=
  match d with DOption _ t c | DPositional _ t c => storable ndebug t /\ behaved (c_validator c) | DFlag _ _ => True end.

(** "-s", "--long" or "-s/--long" *)
Definition shown_names (c : config) : string :=
  match map dashed (config_idents c) with [a] => a | [a; b] => a +s+ "/" +s+ b | _ => "" end.

(** [d], the [n]-th positional option if it is one, is to blame for the message: its validator
    threw [m] when it was run on the value the variable has now *)
Definition blamed (decls : list decl) (vs : store) (f : fs) (msg : string) : Prop :=
  exists l1 d l2, decls = l1 ++ d :: l2 /\
    match d with
    | DOption x t c => exists f0 m, c_validator c f0 (vs x) = (f, VThrow m) /\
        msg = "Validation failed for option " +s+ shown_names c +s+ ": " +s+ m
    | DPositional x t c => exists f0 m n, c_validator c f0 (vs x) = (f, VThrow m) /\
        msg = "Validation failed for positional option " +s+ nat_to_string n +s+ ": " +s+ m /\
        (is_container t = false -> n = S (List.length (pos_types l1)))
    | DFlag _ _ => False
    end.

(** validators that have to run, with the variables they have to check *)
Definition checks (decls : list decl) (inv : invocation) : list (addr * validator) :=
  flat_map (fun d => match d with
                     | DOption x t c => if given (option_values (items inv) c) then [(x, c_validator c)] else []
                     | _ => []
                     end) decls ++
  flat_map (fun d => match d with DPositional x t c => [(x, c_validator c)] | _ => [] end) decls.

(** run validators one after the other until one fails *)
Fixpoint run_checks (vs : store) (l : list (addr * validator)) (f : fs) : fs * vout :=
  match l with
  | [] => (f, VOk)
  | (x, v) :: l' => match v f (vs x) with (f', VOk) => run_checks vs l' f' | r => r end
  end.

(** outcome expected from the number of words alone *)
Definition by_count (ts : list vty) (n : nat) : okind :=
  if (n <? List.length ts)%nat then OThrow KTooFew
  else if existsb is_container ts then ORet
  else if (List.length ts <? n)%nat then OThrow KTooMany else ORet.

(** "-a, -b, -c" *)
Fixpoint dash_join (l : list chr) : string :=
  match l with
  | [] => ""
  | [c] => "-" +s+ str1 c
  | c :: l' => "-" +s+ str1 c +s+ ", " +s+ dash_join l'
  end.

(** What options with identifiers [ids] may do to the arguments: every argument is kept, or it is
    used up because it mentions an option or follows an argument that is an option identifier.
    The string is the argument before the list. *)
Inductive eaten (ids : list ident) : string -> list string -> list string -> Prop :=
| eaten_nil p : eaten ids p [] []
| eaten_cons p a a' l l' :
    a' = a \/ (a' = "" /\ exists i, In i ids /\ (looks_like i a = true \/ p = dashed i)) ->
    eaten ids a l l' -> eaten ids p (a :: l) (a' :: l').

(** What flags with identifiers [ids] may do to one argument: a long flag is used up (only before
    "--", [before = true]), one character of a cluster is used up.  (A flag without short name
    searches for the character NUL, a flag without long name searches for the argument "--".) *)
Inductive flag_step (before : bool) (ids : list ident) : string -> string -> Prop :=
| fs_long s : before = true -> In (IdLong s) ids \/ s = "" -> flag_step before ids ("--" +s+ s) ""
| fs_char c p q : In (IdShort c) ids \/ c = nul -> begins "-" (p +s+ String c q) = true -> starts_with "--" (p +s+ String c q) = false ->
    p +s+ q <> "-" -> flag_step before ids (p +s+ String c q) (p +s+ q)
| fs_last c p q : In (IdShort c) ids \/ c = nul -> begins "-" (p +s+ String c q) = true -> starts_with "--" (p +s+ String c q) = false ->
    p +s+ q = "-" -> flag_step before ids (p +s+ String c q) "".
Inductive worn (before : bool) (ids : list ident) : string -> string -> Prop :=
| worn_refl a : worn before ids a a
| worn_step a b c : flag_step before ids a b -> worn before ids b c -> worn before ids a c.

(** a positional word: not empty, and not beginning with a dash unless it is just a dash *)
Definition plain_word (a : string) : Prop := a <> "" /\ (a = "-" \/ begins "-" a = false).

(** All arguments of [args] are accounted for, [ws] being left over for the positional options. *)
Definition accounted (decls : list decl) (args ws : list string) : Prop :=
  exists b r b1 b2 r1,
    cut args b r /\
    eaten (flat_map option_idents decls) "" b b1 /\
    Forall2 (worn true (flat_map flag_idents decls)) b1 b2 /\
    Forall2 (worn false (flat_map flag_idents decls)) r r1 /\
    (forall a, In a b2 -> a = "" \/ plain_word a) /\
    ws = filter (fun a => negb (String.eqb a "")) (b2 ++ List.tl r1).

(** the argument consists of declared flags (the C11 notion of "composed of declared flags") *)
Definition made_of_flags (flags : list ident) (a : string) : Prop :=
  (exists s, a = "--" +s+ s /\ In (IdLong s) flags) \/
  (exists cs, a = "-" +s+ cs /\ begins "-" cs = false /\ forall c, In c (chars cs) -> In (IdShort c) flags).
