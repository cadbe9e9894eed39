(** When an error message of the scanner is justified, for arbitrary argument vectors.  [b] are the
    arguments before "--". *)
From Verif Require Import Base Fs Values Validators FormatParse Invocation ValuesSpec ScanSpec.
From Coq Require Import Permutation Sorted.

(** ** Options *)

(** the options in [ds] claim the argument [a] that follows the arguments [p]: it mentions one of
    them or follows the name of one *)
Definition claimed (ds : list decl) (p : list string) (a : string) : Prop :=
  exists i, In i (flat_map option_idents ds) /\ (looks_like i a = true \/ exists p', p = p' ++ [dashed i]).

(** every argument that looks like the option is claimed by an option declared earlier *)
Definition never_set (earlier : list decl) (c : config) (b : list string) : Prop :=
  forall p a q i, b = p ++ a :: q -> In i (config_idents c) -> looks_like i a = true -> claimed earlier p a.

(** two different arguments mention [i] and [j] *)
Definition set_twice (i j : ident) (b : list string) : Prop :=
  exists p a q a' r, b = p ++ a :: q ++ a' :: r /\
    ((looks_like i a = true /\ looks_like j a' = true) \/ (looks_like j a = true /\ looks_like i a' = true)).

(** [-i=], or [-i] as the last argument *)
Definition lacks_value (i : ident) (b : list string) : Prop :=
  In (dashed i +s+ "=") b \/ exists p, b = p ++ [dashed i].

(** the arguments give [i] the text [w].  If the next argument mentions an option as well, that
    option may have used it up already. *)
Inductive hands (decls : list decl) (b : list string) (i : ident) : string -> Prop :=
| hands_joined w : w <> "" -> begins "=" w = false -> (exists c, i = IdShort c) -> In (dashed i +s+ w) b -> hands decls b i w
| hands_equals w : w <> "" -> In (dashed i +s+ "=" +s+ w) b -> hands decls b i w
| hands_separate p w q : b = p ++ dashed i :: w :: q -> hands decls b i w
| hands_used p v q j : b = p ++ dashed i :: v :: q -> In j (flat_map option_idents decls) -> looks_like j v = true -> hands decls b i "".

(** ** Conversion *)

(** the text starts with a number outside of the range of the type *)
Definition too_large (e : ety) (w : string) : Prop :=
  match e with
  | TInt sg bits => exists p q z, w = p +s+ q /\ numeral sg p z /\ ~ in_type sg bits z
  | TChar => exists p q z, w = p +s+ q /\ numeral true p z /\ ~ in_type true 8 z
  | TFloat _ _ _ rd => rd w = FcRange
  | _ => False
  end.

Definition range_shown (e : ety) : string :=
  match e with
  | TInt sg bits =>
      let m := (2 ^ (Z.of_N bits - 1))%Z in
      if sg then "[" +s+ Z_to_string (- m) +s+ "," +s+ Z_to_string (m - 1) +s+ "]"
      else "[0," +s+ Z_to_string (2 ^ Z.of_N bits - 1) +s+ "]"
  | TChar => "[-128,127]"
  | TFloat _ mn mx _ => "[" +s+ mn +s+ "," +s+ mx +s+ "]"
  | _ => ""
  end.

(** the text [w] means nothing for a variable of type [t] and the message says so *)
Definition refuses (t : vty) (w name msg : string) : Prop :=
  (exists old, forall v, ~ means (elem_ty t) old w v) /\
  match elem_ty t with
  | TEnum _ names => exists sorted, Permutation names sorted /\ LocallySorted entry_lt sorted /\
      msg = "You have chosen an invalid input value: " +s+ w +s+ ". Please use one of: " +s+ bracket (map fst sorted)
  | e => msg = "Value parse failed for " +s+ name +s+ ": Argument " +s+ w +s+ " could not be parsed as type " +s+ spoken_type e +s+ "." \/
         (is_container t = false /\ too_large e w /\
          msg = "Value parse failed for " +s+ name +s+ ": Numeric argument " +s+ w +s+ " is not in the valid range " +s+ range_shown e +s+ ".")
  end.

(** ** Flags *)

(** flags an argument names when it is not used by an option *)
Definition named (a : string) : list ident :=
  if starts_with "--" a then [IdLong (sdrop 2 a)]
  else if begins "-" a then map IdShort (chars (sdrop 1 a)) else [].
Definition clustered (a : string) : list ident := if starts_with "--" a then [] else named a.

(** no NUL bytes, no dash inside a cluster, and no "--" *)
Definition tidy (a : string) : Prop :=
  a <> "--" /\ scontains nul a = false /\ (begins "-" a = true -> starts_with "--" a = true \/ scontains "-" (sdrop 1 a) = false).

Definition unknown_hint (word : string) : string :=
  ". In case this is meant to be a non-option/argument/parameter, please specify the start of " +s+ word +s+
  " with '--'. See -h/--help for program information.".

(** the message about what is left of an argument *)
Definition unknown_text (a msg : string) : Prop :=
  (exists cs c, cs <> [] /\ a = "-" +s+ of_chars (cs ++ [c]) /\ hd nul cs <> "-"%char /\
     msg = "Unknown flags " +s+ dash_join cs +s+ "and -" +s+ str1 c +s+ unknown_hint "arguments") \/
  (((exists s, a = "--" +s+ s) \/ (exists c, a = "-" +s+ str1 c)) /\ msg = "Unknown option " +s+ a +s+ unknown_hint "non-options").

(** [a], not claimed by any option, names something that is left when every flag has been served
    once: it is not a flag, or a flag mentioned (at least) twice.  The second mention may be in a
    cluster behind "--" (in [r]). *)
Definition unknown_left (decls : list decl) (b r : list string) (msg : string) : Prop :=
  exists b1 a a', eaten (flat_map option_idents decls) "" b b1 /\
    (forall i w, In i (flat_map option_idents decls) -> In w b1 -> looks_like i w = false) /\
    In a b1 /\ worn true (flat_map flag_idents decls) a a' /\ unknown_text a' msg /\
    ((forall w, In w (b1 ++ List.tl r) -> tidy w) -> forall j, In j (named a') ->
       ~ In j (flat_map flag_idents decls) \/
       exists d, In d decls /\ In j (flag_idents d) /\
         2 <= count_in (flag_idents d) (flat_map named b1 ++ flat_map clustered (List.tl r))).

(** ** All kinds of errors *)

Definition justified (decls : list decl) (args : list string) (vs : store) (f : fs) (k : exn_kind) (msg : string) : Prop :=
  exists b r, cut args b r /\
  match k with
  | KRequiredMissing => exists l1 x t c l2, decls = l1 ++ DOption x t c :: l2 /\ c_required c = true /\ never_set l1 c b /\
      msg = "Option " +s+ shown_names c +s+ " is required but not set."
  | KMultiple => exists x t c, In (DOption x t c) decls /\ is_container t = false /\
      ((exists i, In i (config_idents c) /\ set_twice i i b /\
          msg = "Option " +s+ dashed i +s+ " is no list/container but declared multiple times.") \/
       (exists i j, config_idents c = [i; j] /\ set_twice i j b /\
          msg = "Option " +s+ shown_names c +s+ " is no list/container but specified multiple times"))
  | KTooFew =>
      (exists x t c i, In (DOption x t c) decls /\ In i (config_idents c) /\ lacks_value i b /\ msg = "Missing value for option " +s+ dashed i) \/
      (exists ws, accounted decls args ws /\ List.length ws < List.length (pos_types decls) /\
         msg = "Not enough positional arguments provided (Need at least " +s+ nat_to_string (List.length (pos_types decls)) +s+
               "). See -h/--help for more information.")
  | KTooMany => exists ws, accounted decls args ws /\ List.length (pos_types decls) < List.length ws /\
      forallb (fun t => negb (is_container t)) (pos_types decls) = true /\
      msg = "Too many arguments provided. Please see -h/--help for more information."
  | KUnknownOption => unknown_left decls b r msg
  | KUserInput =>
      (exists x t c i w, In (DOption x t c) decls /\ In i (config_idents c) /\ hands decls b i w /\ refuses t w (dashed i) msg) \/
      (exists l1 x t c l2 ws1 w ws2, decls = l1 ++ DPositional x t c :: l2 /\ accounted decls args (ws1 ++ w :: ws2) /\
         (if is_container t then List.length (pos_types l1) <= List.length ws1 else List.length ws1 = List.length (pos_types l1)) /\
         refuses t w ("positional option" +s+ nat_to_string (S (List.length ws1))) msg)
  | KValidation => blamed decls vs f msg
  | _ => False
  end.

(** ** Counting words *)

(** arguments that can only be positional words: not beginning with a dash (or just a dash), and
    not behind the name of an option *)
Fixpoint sure_words (opts : list ident) (p : string) (l : list string) : list string :=
  match l with
  | [] => []
  | a :: l' => (if negb (is_empty a) && (String.eqb a "-" || negb (begins "-" a)) && negb (existsb (fun i => String.eqb p (dashed i)) opts) then [a] else [])
               ++ sure_words opts a l'
  end.
(** behind "--": everything that does not look like a cluster *)
Definition sure_tail (l : list string) : list string :=
  filter (fun a => negb (is_empty a) && (negb (begins "-" a) || String.eqb a "-" || starts_with "--" a)) l.

Definition possible_words (l : list string) : list string :=
  filter (fun a => negb (is_empty a) && (String.eqb a "-" || negb (begins "-" a))) l.
