(** What an arbitrary argument vector means: how a vector is read without an error, and what the
    variables hold afterwards.  Written as relations on texts and values; neither the scanning
    functions of FormatParse.v nor their state are mentioned.

    Options are read first, in the order of their declaration, each of them by its short name and
    then by its long name; then flags, in the order of their declaration; what is left are words.
    Texts that are used up leave an empty argument behind. *)
From Verif Require Import Base Fs Values Validators FormatParse Invocation ValuesSpec ScanSpec DiagnosisSpec.

(** ** Options *)

(** [reads i l ws l']: from left to right the vector [l] gives the identifier [i] the texts [ws];
    [l'] is left *)
Inductive reads (i : ident) : list string -> list string -> list string -> Prop :=
| reads_nil : reads i [] [] []
| reads_other a l ws l' : looks_like i a = false -> reads i l ws l' -> reads i (a :: l) ws (a :: l')
| reads_joined w l ws l' : (exists c, i = IdShort c) -> w <> "" -> begins "=" w = false -> reads i l ws l' ->
    reads i ((dashed i +s+ w) :: l) (w :: ws) ("" :: l')
| reads_equals w l ws l' : w <> "" -> reads i l ws l' -> reads i ((dashed i +s+ "=" +s+ w) :: l) (w :: ws) ("" :: l')
| reads_separate w l ws l' : reads i l ws l' -> reads i (dashed i :: w :: l) (w :: ws) ("" :: "" :: l').

(** the names of an option one after the other *)
Inductive reads_each : list ident -> list string -> list (list string) -> list string -> Prop :=
| reads_none l : reads_each [] l [] l
| reads_name i ids l ws l1 wss l2 : reads i l ws l1 -> reads_each ids l1 wss l2 -> reads_each (i :: ids) l (ws :: wss) l2.

(** the texts are the elements; builds with NDEBUG skip numbers outside the range (the finding C02) *)
Inductive elements (ndebug : bool) (e : ety) : list string -> list val -> Prop :=
| elements_nil : elements ndebug e [] []
| elements_value w v ws vals : means e (default_val e) w v -> elements ndebug e ws vals -> elements ndebug e (w :: ws) (v :: vals)
| elements_skipped w ws vals : ndebug = true -> too_large e w -> elements ndebug e ws vals -> elements ndebug e (w :: ws) vals.

(** every name of a list option that is used replaces the list *)
Inductive list_given (ndebug : bool) (e : ety) : list (list string) -> val -> val -> Prop :=
| list_end v : list_given ndebug e [] v v
| list_unused wss old new : list_given ndebug e wss old new -> list_given ndebug e ([] :: wss) old new
| list_used ws vals wss old new : ws <> [] -> elements ndebug e ws vals -> list_given ndebug e wss (VList vals) new ->
    list_given ndebug e (ws :: wss) old new.

Definition option_value (ndebug : bool) (t : vty) (wss : list (list string)) (old new : val) : Prop :=
  match t with
  | Scalar e => (List.concat wss = [] /\ new = old) \/ (exists w, List.concat wss = [w] /\ means e old w new)
  | ListOf e => list_given ndebug e wss old new
  end.

(** only variable [x] changes *)
Definition becomes (x : addr) (v : val) (vs vs' : store) : Prop := vs' x = v /\ forall y, y <> x -> vs' y = vs y.

Inductive options_read (ndebug : bool) : list decl -> list string -> store -> fs -> list string -> store -> fs -> Prop :=
| options_end l vs vs' f : (forall y, vs' y = vs y) -> options_read ndebug [] l vs f l vs' f
| options_skip d ds l vs f l' vs' f' : (forall x t c, d = DOption x t c -> False) ->
    options_read ndebug ds l vs f l' vs' f' -> options_read ndebug (d :: ds) l vs f l' vs' f'
| options_one x t c ds l vs f wss l1 v vs1 f1 l' vs' f' :
    reads_each (config_idents c) l wss l1 ->
    (c_required c = true -> List.concat wss <> []) ->
    option_value ndebug t wss (vs x) v -> becomes x v vs vs1 ->
    match List.concat wss with [] => f1 = f | _ => c_validator c f v = (f1, VOk) end ->
    options_read ndebug ds l1 vs1 f1 l' vs' f' ->
    options_read ndebug (DOption x t c :: ds) l vs f l' vs' f'.

(** ** Flags *)

(** the first cluster containing [c] loses the first [c] in it *)
Inductive takes_short (c : chr) : list string -> list string -> Prop :=
| takes_here p q l : looks_like_cluster_of c (p +s+ String c q) = true -> ~ In c (chars p) ->
    takes_short c ((p +s+ String c q) :: l) ((if String.eqb (p +s+ q) "-" then "" else p +s+ q) :: l)
| takes_later a l l' : looks_like_cluster_of c a = false -> takes_short c l l' -> takes_short c (a :: l) (a :: l').

Definition no_cluster (c : chr) (l : list string) : Prop := forall a, In a l -> looks_like_cluster_of c a = false.

(** [flag_read c b r b' r' given]: [b] before, [r] from "--" on.  The short name is looked for
    everywhere, the long name before "--".  (A flag without long name takes an argument "--", which
    can be left over from a cluster like -x-.) *)
Inductive flag_read (c : config) : list string -> list string -> list string -> list string -> bool -> Prop :=
| flag_short b r b' : takes_short (c_short c) b b' -> flag_read c b r b' r true
| flag_behind b r r' : no_cluster (c_short c) b -> takes_short (c_short c) r r' -> flag_read c b r b r' true
| flag_long b1 b2 r : no_cluster (c_short c) (b1 ++ ("--" +s+ c_long c) :: b2) -> no_cluster (c_short c) r -> ~ In ("--" +s+ c_long c) b1 ->
    flag_read c (b1 ++ ("--" +s+ c_long c) :: b2) r (b1 ++ "" :: b2) r true
| flag_absent b r : no_cluster (c_short c) b -> no_cluster (c_short c) r -> ~ In ("--" +s+ c_long c) b -> flag_read c b r b r false.

Inductive flags_read : list decl -> list string -> list string -> store -> list string -> list string -> store -> Prop :=
| flags_end b r vs vs' : (forall y, vs' y = vs y) -> flags_read [] b r vs b r vs'
| flags_skip d ds b r vs b' r' vs' : (forall x c, d = DFlag x c -> False) -> flags_read ds b r vs b' r' vs' -> flags_read (d :: ds) b r vs b' r' vs'
| flags_one x c ds b r vs b1 r1 given vs1 b' r' vs' :
    flag_read c b r b1 r1 given -> becomes x (if given then VBool true else VBool (was_true (vs x))) vs vs1 ->
    flags_read ds b1 r1 vs1 b' r' vs' -> flags_read (DFlag x c :: ds) b r vs b' r' vs'.

(** ** Words *)

Inductive words_read (ndebug : bool) : list decl -> list string -> store -> fs -> store -> fs -> Prop :=
| words_end vs vs' f : (forall y, vs' y = vs y) -> words_read ndebug [] [] vs f vs' f
| words_skip d ds ws vs f vs' f' : (forall x t c, d = DPositional x t c -> False) -> words_read ndebug ds ws vs f vs' f' ->
    words_read ndebug (d :: ds) ws vs f vs' f'
| words_one x e c ds w ws vs f v vs1 f1 vs' f' : means e (vs x) w v -> becomes x v vs vs1 -> c_validator c f v = (f1, VOk) ->
    words_read ndebug ds ws vs1 f1 vs' f' -> words_read ndebug (DPositional x (Scalar e) c :: ds) (w :: ws) vs f vs' f'
| words_list x e c ds ws vals vs f vs1 f1 vs' f' : ws <> [] -> elements ndebug e ws vals -> becomes x (VList vals) vs vs1 ->
    c_validator c f (VList vals) = (f1, VOk) -> words_read ndebug ds [] vs1 f1 vs' f' ->
    words_read ndebug (DPositional x (ListOf e) c :: ds) ws vs f vs' f'.

(** ** The whole vector *)

Definition understood (ndebug : bool) (decls : list decl) (args : list string) (vs : store) (f : fs) (vs' : store) (f' : fs) : Prop :=
  exists b r b1 vs1 f1 b2 r2 vs2, cut args b r /\
    options_read ndebug decls b vs f b1 vs1 f1 /\
    flags_read decls b1 r vs1 b2 r2 vs2 /\
    (forall a, In a b2 -> a = "" \/ ScanSpec.plain_word a) /\
    words_read ndebug decls (filter (fun a => negb (is_empty a)) (b2 ++ List.tl r2)) vs2 f1 vs' f'.

(** the names of the values of an enumeration are distinct, for all types used (see ValuesSpec.v) *)
Definition elems_ok (decls : list decl) : Prop :=
  forall t, In t (flat_map (fun d => match d with DOption _ t _ | DPositional _ t _ => [t] | _ => [] end) decls) -> enum_ok (elem_ty t).
