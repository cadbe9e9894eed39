(** What an argument vector that is refused has done: how far it is read, which error it is, and
    what the variables and the file system hold afterwards.  Written as relations on texts and
    values, like ReadingSpec.v for the vectors that are accepted; neither the scanning functions of
    FormatParse.v nor their state are mentioned. *)
From Verif Require Import Base Fs Values Validators FormatParse Invocation ValuesSpec ScanSpec DiagnosisSpec ReadingSpec.

(** ** Texts that are no values *)

(** the text between two quotes and what it stands for *)
Inductive quoted : string -> string -> Prop :=
| quoted_end : quoted "" ""
| quoted_escape c s q : quoted s q -> quoted (String "\" (String c s)) (String c q)
| quoted_char c s q : c <> "\"%char -> c <> """"%char -> quoted s q -> quoted (String c s) (String c q).

(** a number of which something is left over is stored nevertheless *)
Definition half_number (sg : bool) (bits : N) (old : val) (w : string) (new : val) : Prop :=
  (exists p q z, w = p +s+ q /\ q <> "" /\ starts_digit q = false /\ numeral sg p z /\ in_type sg bits z /\ new = VInt z) \/
  (new = old /\ ((exists p q z, w = p +s+ q /\ numeral sg p z /\ ~ in_type sg bits z) \/ (forall p q z, w = p +s+ q -> ~ numeral sg p z))).

(** [ruined e old w new]: [w] is no value of type [e]; a variable that held [old] is left with [new] *)
Definition ruined (e : ety) (old : val) (w : string) (new : val) : Prop :=
  match e with
  | TInt sg bits => half_number sg bits old w new
  | TChar => half_number true 8 old w new
  | TBool => ~ In w ["0"; "1"; "true"; "false"] /\ new = old
  | TString => False
  | TPath => exists b s, w = b +s+ s /\ blanks b /\
      ((s = "" /\ new = old) \/
       (exists u c r, s = u +s+ String c r /\ ValuesSpec.plain_word u /\ is_space c = true /\ new = VPath u) \/
       (exists u q r, s = String """" (u +s+ String """" r) /\ quoted u q /\ new = VPath q) \/
       (exists s', s = String """" s' /\ (forall u q r, s' = u +s+ String """" r -> ~ quoted u q) /\ new = old))
  | TEnum _ names => (forall z, ~ In (w, z) names) /\ new = old
  | TFloat _ _ _ rd => (exists rest, rd w = FcOk new rest /\ rest <> "") \/ (new = old /\ (rd w = FcRange \/ rd w = FcInvalid))
  | TStream _ rd _ => exists fl eof, rd old w = (new, fl, eof) /\ (fl = true \/ eof = false)
  end.

(** elements of a list are read into a new element; numbers outside the range are no errors of the
    parser there (they are skipped, or stop the program, see the finding C02) *)
Definition unreadable (e : ety) (w : string) : Prop := (exists new, ruined e (default_val e) w new) /\ ~ too_large e w.

(** ** Options *)

(** [reads_until i l ws l']: from left to right [l] gives the identifier [i] the texts [ws], up to a
    further use of [i], where [l'] begins *)
Inductive reads_until (i : ident) : list string -> list string -> list string -> Prop :=
| until_here a l : looks_like i a = true -> reads_until i (a :: l) [] (a :: l)
| until_other a l ws l' : looks_like i a = false -> reads_until i l ws l' -> reads_until i (a :: l) ws l'
| until_joined w l ws l' : (exists c, i = IdShort c) -> w <> "" -> begins "=" w = false -> reads_until i l ws l' ->
    reads_until i ((dashed i +s+ w) :: l) (w :: ws) l'
| until_equals w l ws l' : w <> "" -> reads_until i l ws l' -> reads_until i ((dashed i +s+ "=" +s+ w) :: l) (w :: ws) l'
| until_separate w l ws l' : reads_until i l ws l' -> reads_until i (dashed i :: w :: l) (w :: ws) l'.

(** the text that the use of [i] at the beginning has *)
Inductive offers (i : ident) : list string -> string -> Prop :=
| offers_joined w l : (exists c, i = IdShort c) -> w <> "" -> begins "=" w = false -> offers i ((dashed i +s+ w) :: l) w
| offers_equals w l : w <> "" -> offers i ((dashed i +s+ "=" +s+ w) :: l) w
| offers_separate w l : offers i (dashed i :: w :: l) w.

(** it has none *)
Definition valueless (i : ident) (l : list string) : Prop := l = [dashed i] \/ exists r, l = (dashed i +s+ "=") :: r.

(** one name of an option goes wrong *)
Inductive name_fails (ndebug : bool) (i : ident) (l : list string) (old : val) : vty -> exn_kind -> val -> Prop :=
| scalar_missing e l' : reads_until i l [] l' -> valueless i l' -> name_fails ndebug i l old (Scalar e) KTooFew old
| scalar_refused e l' w new : reads_until i l [] l' -> offers i l' w -> ruined e old w new -> name_fails ndebug i l old (Scalar e) KUserInput new
| scalar_twice e l' w new : reads_until i l [w] l' -> means e old w new -> name_fails ndebug i l old (Scalar e) KMultiple new
| list_missing e ws l' vals : reads_until i l ws l' -> valueless i l' -> elements ndebug e ws vals ->
    name_fails ndebug i l old (ListOf e) KTooFew (VList vals)
| list_refused e ws l' w vals : reads_until i l ws l' -> offers i l' w -> elements ndebug e ws vals -> unreadable e w ->
    name_fails ndebug i l old (ListOf e) KUserInput (VList vals).

(** one option goes wrong *)
Inductive option_fails (ndebug : bool) (t : vty) (c : config) (l : list string) (old : val) (f : fs) : exn_kind -> val -> fs -> Prop :=
| fails_name ids1 i ids2 wss l1 mid k new : config_idents c = ids1 ++ i :: ids2 -> reads_each ids1 l wss l1 -> option_value ndebug t wss old mid ->
    name_fails ndebug i l1 mid t k new -> option_fails ndebug t c l old f k new f
| fails_both e w1 w2 l1 mid new : t = Scalar e -> reads_each (config_idents c) l [[w1]; [w2]] l1 -> means e old w1 mid -> means e mid w2 new ->
    option_fails ndebug t c l old f KMultiple new f
| fails_validation wss l1 new f' m : reads_each (config_idents c) l wss l1 -> List.concat wss <> [] -> option_value ndebug t wss old new ->
    c_validator c f new = (f', VThrow m) -> option_fails ndebug t c l old f KValidation new f'
| fails_required wss l1 : reads_each (config_idents c) l wss l1 -> List.concat wss = [] -> c_required c = true ->
    option_fails ndebug t c l old f KRequiredMissing old f.

(** ** Words *)

(** a positional option goes wrong; [ws]: the words that are left for it *)
Inductive word_fails (ndebug : bool) (c : config) (old : val) (f : fs) : vty -> list string -> exn_kind -> val -> fs -> Prop :=
| word_missing t : word_fails ndebug c old f t [] KTooFew old f
| word_refused e w ws new : ruined e old w new -> word_fails ndebug c old f (Scalar e) (w :: ws) KUserInput new f
| word_validation e w ws new f' m : means e old w new -> c_validator c f new = (f', VThrow m) ->
    word_fails ndebug c old f (Scalar e) (w :: ws) KValidation new f'
| words_refused e ws1 w ws2 vals : elements ndebug e ws1 vals -> unreadable e w ->
    word_fails ndebug c old f (ListOf e) (ws1 ++ w :: ws2) KUserInput (VList vals) f
| words_validation e ws vals f' m : ws <> [] -> elements ndebug e ws vals -> c_validator c f (VList vals) = (f', VThrow m) ->
    word_fails ndebug c old f (ListOf e) ws KValidation (VList vals) f'.

Inductive words_fail (ndebug : bool) : list decl -> list string -> store -> fs -> exn_kind -> store -> fs -> Prop :=
| fail_surplus ws vs vs' f : ws <> [] -> (forall y, vs' y = vs y) -> words_fail ndebug [] ws vs f KTooMany vs' f
| fail_here x t c ds ws vs f k v vs' f' : word_fails ndebug c (vs x) f t ws k v f' -> becomes x v vs vs' ->
    words_fail ndebug (DPositional x t c :: ds) ws vs f k vs' f'
| fail_skip d ds ws vs f k vs' f' : (forall x t c, d = DPositional x t c -> False) -> words_fail ndebug ds ws vs f k vs' f' ->
    words_fail ndebug (d :: ds) ws vs f k vs' f'
| fail_one x e c ds w ws vs f v vs1 f1 k vs' f' : means e (vs x) w v -> becomes x v vs vs1 -> c_validator c f v = (f1, VOk) ->
    words_fail ndebug ds ws vs1 f1 k vs' f' -> words_fail ndebug (DPositional x (Scalar e) c :: ds) (w :: ws) vs f k vs' f'
| fail_list x e c ds ws vals vs f vs1 f1 k vs' f' : ws <> [] -> elements ndebug e ws vals -> becomes x (VList vals) vs vs1 ->
    c_validator c f (VList vals) = (f1, VOk) -> words_fail ndebug ds [] vs1 f1 k vs' f' ->
    words_fail ndebug (DPositional x (ListOf e) c :: ds) ws vs f k vs' f'.

(** ** The whole vector *)

Inductive refused (ndebug : bool) (decls : list decl) (args : list string) (vs : store) (f : fs) : exn_kind -> store -> fs -> Prop :=
| refused_option b r ds1 x t c ds2 b1 vs1 f1 k v vs' f' : cut args b r -> decls = ds1 ++ DOption x t c :: ds2 ->
    options_read ndebug ds1 b vs f b1 vs1 f1 -> option_fails ndebug t c b1 (vs1 x) f1 k v f' -> becomes x v vs1 vs' ->
    refused ndebug decls args vs f k vs' f'
| refused_unknown b r b1 vs1 f1 b2 r2 vs2 a : cut args b r -> options_read ndebug decls b vs f b1 vs1 f1 -> flags_read decls b1 r vs1 b2 r2 vs2 ->
    In a b2 -> a <> "" -> ~ ScanSpec.plain_word a -> refused ndebug decls args vs f KUnknownOption vs2 f1
| refused_words b r b1 vs1 f1 b2 r2 vs2 k vs' f' : cut args b r -> options_read ndebug decls b vs f b1 vs1 f1 -> flags_read decls b1 r vs1 b2 r2 vs2 ->
    (forall a, In a b2 -> a = "" \/ ScanSpec.plain_word a) ->
    words_fail ndebug decls (filter (fun a => negb (is_empty a)) (b2 ++ List.tl r2)) vs2 f1 k vs' f' ->
    refused ndebug decls args vs f k vs' f'.

(** ** Variables that nothing writes to at a given stage *)

Definition no_option_var (decls : list decl) (y : addr) : Prop := forall t c, ~ In (DOption y t c) decls.
Definition no_flag_var (decls : list decl) (y : addr) : Prop := forall c, ~ In (DFlag y c) decls.
Definition no_word_var (decls : list decl) (y : addr) : Prop := forall t c, ~ In (DPositional y t c) decls.

(** ** Whole runs of parse() *)
From Verif Require Import Parser ParserSpec ProgramSpec.

(** parse() throws: a bad name; one of the arguments that are looked at first is wrong; the version check or the page
    goes wrong; the arguments meant for the interface are refused *)
Inductive run_refused (ndebug : bool) (bk : backend) (p : parser) (exe : list string) (ops : list op) (ds : list decl)
    (announced args : list string) (vs : store) (f : fs) : exn_kind -> store -> fs -> Prop :=
| run_name vs' : ~ names_ok p -> (forall y, vs' y = vs y) -> run_refused ndebug bk p exe ops ds announced args vs f KDesign vs' f
| run_early ks e vs' : names_ok p -> pieces announced (subcommands p) args ks -> first_error (bk_tdl bk) (subcommands p) ks = Some e ->
    (forall y, vs' y = vs y) -> run_refused ndebug bk p exe ops ds announced args vs f (ekind e) vs' f
| run_version ks f1 e vs' : names_ok p -> pieces announced (subcommands p) args ks -> first_error (bk_tdl bk) (subcommands p) ks = None ->
    bk_version_check bk (info p) (dev_decision p) (last_some piece_check ks) f = (f1, Throw e) -> (forall y, vs' y = vs y) ->
    run_refused ndebug bk p exe ops ds announced args vs f (ekind e) vs' f1
| run_page ks f1 e vs' : consulted bk p announced args ks f f1 -> chosen ks <> FParse ->
    bk_page bk {| pr_format := chosen ks; pr_info := info p; pr_subcommands := subcommands p; pr_dev := dev_decision p;
                  pr_executable := exe; pr_ops := ops; pr_vars := vs |} = Throw e -> (forall y, vs' y = vs y) ->
    run_refused ndebug bk p exe ops ds announced args vs f (ekind e) vs' f1
| run_interface ks f1 k vs' f' : consulted bk p announced args ks f f1 -> chosen ks = FParse ->
    refused ndebug ds (flat_map own_texts ks) vs f1 k vs' f' -> run_refused ndebug bk p exe ops ds announced args vs f k vs' f'.
