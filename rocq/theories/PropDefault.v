(** Exact form of C58. *)
From Verif Require Import Base StrLib Fs Values ValuesSpec Validators FormatParse Parser HelpBase HelpSpec HelpOther DefaultSpec DefaultProofs Samples HelpSamples.

(** Given as it is shown, a default is read as the value again if and only if the type is an integer, a truth value or
    an enumeration: characters are shown as themselves and read as numbers, quotes stay part of a string, and a path
    in quotes is refused. *)
Theorem C58_exact : forall e v c, has_type e v -> c_default_message c = "" -> c_required c = false ->
  exists d, option_info (Scalar e) v c = c_desc c +s+ " Default: " +s+ d +s+ (if is_empty (c_vhelp c) then "" else ". " +s+ c_vhelp c)
    /\ forall old, parse_elem e old d = POk v PSuccess <-> read_as_shown e.
Proof. intros e v c HT HM HR. exists (shown_value (Scalar e) v). split; [now apply info_eq|]. intros old. now apply scalar_exact. Qed.
Print Assumptions C58_exact.

(** No default of a list can be given as it is shown: lists of numbers and truth values are refused, *)
Theorem C58_lists : forall e l c, e = TChar \/ e = TBool \/ (exists sg bits, e = TInt sg bits) -> c_default_message c = "" -> c_required c = false ->
  exists d, option_info (ListOf e) (VList l) c = c_desc c +s+ " Default: " +s+ d +s+ (if is_empty (c_vhelp c) then "" else ". " +s+ c_vhelp c)
    /\ forall old, parse_elem e old d = POk old PError.
Proof.
  intros e l c HE HM HR. exists (shown_value (ListOf e) (VList l)). split; [now apply info_eq|]. intros old. apply list_refused.
  destruct HE as [->|[->|(sg & bits & ->)]]; exact Logic.I.
Qed.
Print Assumptions C58_lists.
(** and one of strings becomes a single element that is not the list. *)
Theorem C58_string_lists : forall l c, c_default_message c = "" -> c_required c = false ->
  exists d, option_info (ListOf TString) (VList (map VStr l)) c = c_desc c +s+ " Default: " +s+ d +s+ (if is_empty (c_vhelp c) then "" else ". " +s+ c_vhelp c)
    /\ forall old, parse_elem TString old d = POk (VStr d) PSuccess /\ l <> [d].
Proof.
  intros l c HM HR. exists (shown_value (ListOf TString) (VList (map VStr l))). split; [now apply info_eq|]. intros old.
  split; [reflexivity|]. destruct (list_of_strings l old) as (d & E & N). injection E as E. intros X. apply N. rewrite <- E. exact X.
Qed.
Print Assumptions C58_string_lists.

(** A message given by the developer is shown in place of the value; in quotes for strings and paths only. *)
Theorem C58_message : forall t v c, c_default_message c <> "" ->
  exists d, option_info t v c = c_desc c +s+ " Default: " +s+ d +s+ (if is_empty (c_vhelp c) then "" else ". " +s+ c_vhelp c)
    /\ (t = Scalar TString \/ t = Scalar TPath -> (exists body, d = """" +s+ body +s+ """" /\ read_quoted (body +s+ """") "" = Some (c_default_message c)))
    /\ (t <> Scalar TString -> t <> Scalar TPath -> d = c_default_message c).
Proof.
  intros t v c HM. exists (match t with Scalar TString | Scalar TPath => quoted (c_default_message c) | _ => c_default_message c end).
  split; [|split].
  - unfold option_info, default_of_message, validator_info. destruct (c_default_message c) as [|x m] eqn:M; [contradiction|]. cbn [is_empty]. now rewrite !app_assoc_s.
  - intros [-> | ->]; exists (quote_body (c_default_message c)); (split; [reflexivity|]); exact (unquote_lemma (c_default_message c) "" "").
  - intros N1 N2. destruct t as [[]|]; try reflexivity; contradiction.
Qed.
Print Assumptions C58_message.
(** Required options have no default. *)
Theorem C58_required : forall t v c, c_default_message c = "" -> c_required c = true ->
  option_info t v c = c_desc c +s+ (if is_empty (c_vhelp c) then "" else ". " +s+ c_vhelp c).
Proof. intros t v c HM HR. unfold option_info. rewrite HM, HR. reflexivity. Qed.
Print Assumptions C58_required.

Example C58_exact_case : has_type TChar (VInt 97) /\ has_type TPath (VPath "dir") /\ has_type (TEnum "colour" [("red", 1); ("blue", 2)]%Z) (VEnum 2)
  /\ option_info (Scalar (TEnum "colour" [("red", 1); ("blue", 2)]%Z)) (VEnum 2) (cfg "c" "") = "desc Default: blue"
  /\ option_info (ListOf TString) (VList [VStr "a"; VStr "b"]) (cfg "c" "") = "desc Default: [""a"", ""b""]".
Proof.
  split; [constructor; unfold in_type; cbn; lia|]. split; [constructor|]. split; [|split; reflexivity].
  constructor; [repeat constructor; cbn; intuition discriminate|cbn; auto].
Qed.
