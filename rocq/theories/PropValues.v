(** Properties of the conversion of argument text (C01 - C05, C53). *)
From Verif Require Import Base StrLib Fs Values ValuesSpec ValuesProofs Validators FormatParse Invocation
  InvocationProofs InvocationCorollaries InvocationEffects ValuesRun ValuesProps Samples.
From Coq Require Import Permutation Sorted.

(** ** C01: integers *)

Theorem C01_integer_option : forall ndebug x sg bits c i s vs f,
  wf_decls [DOption x (Scalar (TInt sg bits)) c] = true -> In i (config_idents c) -> s <> "" ->
  c_validator c = default_validator ->
  let r := parse_args ndebug [DOption x (Scalar (TInt sg bits)) c] (one_arg i s) vs f in
  (forall z, numeral sg s z -> in_type sg bits z -> okind_of (snd r) = ORet /\ vars (fst r) x = VInt z) /\
  ((forall z, numeral sg s z -> ~ in_type sg bits z) -> okind_of (snd r) = OThrow KUserInput).
Proof. exact integer_option_lemma. Qed.
Print Assumptions C01_integer_option.

(** the same for positional words and elements of lists: the conversion function itself *)
Theorem C01_integer_conversion : forall sg bits old s v,
  parse_elem (TInt sg bits) old s = POk v PSuccess <-> exists z, v = VInt z /\ numeral sg s z /\ in_type sg bits z.
Proof. exact parse_int_iff. Qed.
Print Assumptions C01_integer_conversion.

Theorem C01_round_trip : forall sg bits old z, in_type sg bits z ->
  parse_elem (TInt sg bits) old (Z_to_string z) = POk (VInt z) PSuccess.
Proof. exact integer_round_trip_lemma. Qed.
Print Assumptions C01_round_trip.

Example C01_case : numeral true "-0128" (-128) /\ in_type true 8 (-128) /\ ~ in_type true 8 128 /\ numeral false "255" 255 /\
  in_type false 8 255 /\ ~ in_type false 8 256.
Proof.
  split; [apply (num_neg true "0128"); [reflexivity|split; [discriminate|reflexivity]]|].
  split; [unfold in_type; cbn; lia|]. split; [unfold in_type; cbn; lia|].
  split; [apply (num_pos false "255"); split; [discriminate|reflexivity]|]. split; unfold in_type; cbn; lia.
Qed.
Example C01_run :
  map (fun s => let r := parse_args true [DOption 0 (Scalar (TInt true 8)) (cfg "i" "int")] (one_arg (IdLong "int") s) vars0 no_fs in
                (okind_of (snd r), vars (fst r) 0)) ["-0128"; "128"; "+1"; "1 "; " 1"; "-"; "0x1"] =
  [(ORet, VInt (-128)); (OThrow KUserInput, VInt 1); (OThrow KUserInput, VInt 1); (OThrow KUserInput, VInt 1);
   (OThrow KUserInput, VInt 1); (OThrow KUserInput, VInt 1); (OThrow KUserInput, VInt 0)].
Proof. vm_compute. reflexivity. Qed.

(** ** C02: lists *)

(** -l1 -l300 -l2 into a list of 8 bit integers: 300 disappears (NDEBUG) or aborts the program *)
Theorem C02_no_value_dropped_refuted : exists decls args vs f,
  decls = [DOption 1 (ListOf uint8) (cfg "l" "list")] /\ args = ["-l1"; "-l300"; "-l2"] /\
  snd (parse_args true decls args vs f) = Ret tt /\
  vars (fst (parse_args true decls args vs f)) 1 = VList [VInt 1; VInt 2] /\
  snd (parse_args false decls args vs f) = AssertFail.
Proof.
  exists [DOption 1 (ListOf uint8) (cfg "l" "list")], ["-l1"; "-l300"; "-l2"], vars0, no_fs.
  vm_compute. auto.
Qed.
Print Assumptions C02_no_value_dropped_refuted.

(** What holds (full statement: without the last hypothesis): without NDEBUG, or for element types other than numbers, an
    accepted list is complete. *)
Theorem C02_no_value_dropped_partial : forall ndebug decls inv vs f x e c,
  wf_decls decls = true -> wf_invocation decls inv = true -> one_names decls (items inv) = true ->
  NoDup (map bound_addr decls) -> In (DOption x (ListOf e) c) decls ->
  option_values (items inv) c <> [] ->
  okind_of (snd (parse_args ndebug decls (render inv) vs f)) = ORet ->
  ndebug = false \/ numeric e = false ->
  exists texts es, option_values (items inv) c = map Some texts /\
    vars (fst (parse_args ndebug decls (render inv) vs f)) x = VList es /\
    Forall2 (fun text v => parse_elem e (default_val e) text = POk v PSuccess) texts es.
Proof. exact complete_list_lemma. Qed.
Print Assumptions C02_no_value_dropped_partial.

Example C02_case :
  let decls := [DOption 5 (ListOf TString) (cfg "s" "str")] in
  let inv := {| items := [IOpt (IdShort "s") Joined "300"; IOpt (IdShort "s") Equals "x"]; tail := None |} in
  wf_decls decls = true /\ wf_invocation decls inv = true /\ one_names decls (items inv) = true /\
  vars (fst (parse_args true decls (render inv) vars0 no_fs)) 5 = VList [VStr "300"; VStr "x"].
Proof. vm_compute. auto. Qed.

(** ** C03: bool *)

Theorem C03_bool_option : forall ndebug x c i s vs f,
  wf_decls [DOption x (Scalar TBool) c] = true -> In i (config_idents c) -> s <> "" ->
  c_validator c = default_validator ->
  let r := parse_args ndebug [DOption x (Scalar TBool) c] (one_arg i s) vs f in
  (s = "1" \/ s = "true" -> okind_of (snd r) = ORet /\ vars (fst r) x = VBool true) /\
  (s = "0" \/ s = "false" -> okind_of (snd r) = ORet /\ vars (fst r) x = VBool false) /\
  (~ In s ["0"; "1"; "true"; "false"] -> okind_of (snd r) = OThrow KUserInput /\ vars (fst r) x = vs x).
Proof. exact bool_option_lemma. Qed.
Print Assumptions C03_bool_option.

Example C03_case :
  map (fun s => let r := parse_args true [DOption 0 (Scalar TBool) (cfg "b" "bool")] (one_arg (IdLong "bool") s) vars0 no_fs in
                (okind_of (snd r), vars (fst r) 0)) ["1"; "true"; "0"; "false"; "True"; "yes"; "01"] =
  [(ORet, VBool true); (ORet, VBool true); (ORet, VBool false); (ORet, VBool false); (OThrow KUserInput, VInt 1);
   (OThrow KUserInput, VInt 1); (OThrow KUserInput, VInt 1)].
Proof. vm_compute. reflexivity. Qed.

(** ** C04: paths *)

(** "a b" is rejected, a leading blank is dropped, a leading quote is rejected *)
Theorem C04_path_verbatim_refuted : exists decls, decls = [DOption 0 (Scalar TPath) (cfg "p" "path")] /\
  forall ndebug,
  okind_of (snd (parse_args ndebug decls ["--path=a b"] vars0 no_fs)) = OThrow KUserInput /\
  okind_of (snd (parse_args ndebug decls ["--path=""a"""] vars0 no_fs)) = OThrow KUserInput /\
  okind_of (snd (parse_args ndebug decls ["--path= a"] vars0 no_fs)) = ORet /\
  vars (fst (parse_args ndebug decls ["--path= a"] vars0 no_fs)) 0 = VPath "a".
Proof. exists [DOption 0 (Scalar TPath) (cfg "p" "path")]. split; [reflexivity|]. intros []; vm_compute; auto. Qed.
Print Assumptions C04_path_verbatim_refuted.

(** Exactly: the text must be blanks followed by a word without white space that does not start
    with a quote; the word is stored. *)
Theorem C04_path_option_partial : forall ndebug x c i s vs f,
  wf_decls [DOption x (Scalar TPath) c] = true -> In i (config_idents c) -> s <> "" ->
  c_validator c = default_validator ->
  let r := parse_args ndebug [DOption x (Scalar TPath) c] (one_arg i s) vs f in
  (plain_word s -> okind_of (snd r) = ORet /\ vars (fst r) x = VPath s) /\
  (forall w b, s = b +s+ w -> blanks b -> plain_word w -> okind_of (snd r) = ORet /\ vars (fst r) x = VPath w) /\
  ((forall w b, s = b +s+ w -> blanks b -> ~ plain_word w) -> okind_of (snd r) = OThrow KUserInput).
Proof. exact path_option_lemma. Qed.
Print Assumptions C04_path_option_partial.

Example C04_case : plain_word "dir/file.txt" /\ ~ plain_word "a b" /\ ~ plain_word """a""" /\ blanks "  ".
Proof.
  repeat split; try discriminate.
  - intros (_ & H & _). discriminate.
  - intros (_ & _ & H). now apply H.
Qed.

(** ** C05: enumerations *)

Theorem C05_enum_conversion : forall name names old s,
  NoDup (map fst names) -> names <> [] ->
  (forall v, parse_elem (TEnum name names) old s = POk v PSuccess <-> exists z, v = VEnum z /\ In (s, z) names) /\
  (~ In s (map fst names) ->
     exists sorted, Permutation names sorted /\ LocallySorted entry_lt sorted /\
       parse_elem (TEnum name names) old s =
         PThrow (Exn KUserInput ("You have chosen an invalid input value: " +s+ s +s+ ". Please use one of: "
                                 +s+ bracket (map fst sorted)))).
Proof. exact enum_conversion_lemma. Qed.
Print Assumptions C05_enum_conversion.

Theorem C05_enum_round_trip : forall name names old z k,
  NoDup (map fst names) -> In (k, z) names ->
  parse_elem (TEnum name names) old (print_stream (TEnum name names) (VEnum z)) = POk (VEnum z) PSuccess.
Proof. exact enum_round_trip_lemma. Qed.
Print Assumptions C05_enum_round_trip.

Theorem C05_enum_option : forall ndebug x name names c i s vs f,
  wf_decls [DOption x (Scalar (TEnum name names)) c] = true -> In i (config_idents c) -> s <> "" ->
  c_validator c = default_validator -> NoDup (map fst names) -> names <> [] ->
  let r := parse_args ndebug [DOption x (Scalar (TEnum name names)) c] (one_arg i s) vs f in
  (forall z, In (s, z) names -> okind_of (snd r) = ORet /\ vars (fst r) x = VEnum z) /\
  (~ In s (map fst names) -> okind_of (snd r) = OThrow KUserInput).
Proof. exact enum_option_lemma. Qed.
Print Assumptions C05_enum_option.

Definition colours : list (string * Z) := [("red", 2%Z); ("rot", 2%Z); ("blue", 1%Z)].
Example C05_case : NoDup (map fst colours) /\
  parse_elem (TEnum "colour" colours) (VEnum 7) "rot" = POk (VEnum 2) PSuccess /\
  parse_elem (TEnum "colour" colours) (VEnum 7) "green" =
    PThrow (Exn KUserInput "You have chosen an invalid input value: green. Please use one of: [blue, red, rot]").
Proof. split; [repeat constructor; cbn; intuition discriminate|vm_compute; auto]. Qed.

(** an enumeration without names: the message construction itself throws, and not a parser_error *)
Theorem C05_empty_enum_refuted : exists e, e = TEnum "empty" [] /\
  parse_elem e (VEnum 0) "x" = PThrow (Exn KStdOutOfRange "basic_string::replace") /\
  is_parser_error KStdOutOfRange = false.
Proof. exists (TEnum "empty" []). vm_compute. auto. Qed.
Print Assumptions C05_empty_enum_refuted.

(** ** C53: variables after a failed conversion *)

Theorem C53_unchanged_refuted : exists decls, decls = [DOption 0 (Scalar int32) (cfg "i" "int")] /\
  forall ndebug, okind_of (snd (parse_args ndebug decls ["-i"; "2abc"] vars0 no_fs)) = OThrow KUserInput /\
    vars0 0 = VInt 1 /\ vars (fst (parse_args ndebug decls ["-i"; "2abc"] vars0 no_fs)) 0 = VInt 2.
Proof. exists [DOption 0 (Scalar int32) (cfg "i" "int")]. split; [reflexivity|]. intros []; vm_compute; auto. Qed.
Print Assumptions C53_unchanged_refuted.

(** What holds: bool, string and enumeration variables, and integers unless the text begins with
    an in-range number followed by something else. (A list variable is emptied.) *)
Theorem C53_unchanged_partial : forall ndebug x e c i s vs f,
  wf_decls [DOption x (Scalar e) c] = true -> In i (config_idents c) -> s <> "" ->
  match e with
  | TBool | TString | TEnum _ _ => True
  | TInt sg bits => forall p r z, s = p +s+ r -> r <> "" -> numeral sg p z -> ~ in_type sg bits z
  | _ => False
  end ->
  okind_of (snd (parse_args ndebug [DOption x (Scalar e) c] (one_arg i s) vs f)) = OThrow KUserInput ->
  vars (fst (parse_args ndebug [DOption x (Scalar e) c] (one_arg i s) vs f)) x = vs x.
Proof. exact unchanged_lemma. Qed.
Print Assumptions C53_unchanged_partial.

Example C53_case : okind_of (snd (parse_args true [DOption 0 (Scalar int32) (cfg "i" "int")] (one_arg (IdShort "i") "abc") vars0 no_fs))
    = OThrow KUserInput.
Proof. vm_compute. reflexivity. Qed.
