(** Lists: exactly what they hold (C02, C08). *)
From Verif Require Import Base StrLib Fs Values Validators FormatParse Invocation ValuesSpec DiagnosisSpec ListSpec ListElements InvocationNames Samples.

(** an accepted list option holds the values given by its long name if there are any, else those given by its short
    name, in order; with NDEBUG without the numbers out of range *)
Theorem C08_exact : forall ndebug decls inv vs f x e c, enum_ok e ->
  wf_decls decls = true -> wf_invocation decls inv = true ->
  NoDup (map bound_addr decls) -> In (DOption x (ListOf e) c) decls ->
  okind_of (snd (parse_args ndebug decls (render inv) vs f)) = ORet ->
  exists texts, kept (items inv) c = map Some texts /\
    match texts with
    | [] => vars (fst (parse_args ndebug decls (render inv) vs f)) x = vs x
    | _ => exists es, taken ndebug e texts es /\ vars (fst (parse_args ndebug decls (render inv) vs f)) x = VList es
    end.
Proof. exact list_option_taken. Qed.
Print Assumptions C08_exact.

(** an accepted positional list holds the values of all words behind those of the other positional options *)
Theorem C02_positional_exact : forall ndebug d1 d2 inv vs f x e c, let decls := d1 ++ DPositional x (ListOf e) c :: d2 in enum_ok e ->
  wf_decls decls = true -> wf_invocation decls inv = true -> NoDup (map bound_addr decls) ->
  okind_of (snd (parse_args ndebug decls (render inv) vs f)) = ORet ->
  exists es, taken ndebug e (skipn (List.length (filter is_positional d1)) (words inv)) es /\ vars (fst (parse_args ndebug decls (render inv) vs f)) x = VList es.
Proof. exact list_positional_taken. Qed.
Print Assumptions C02_positional_exact.

(** nothing is lost without NDEBUG *)
Theorem C02_nothing_lost : forall e ts vs, taken false e ts vs -> Forall2 (fun t v => means e (default_val e) t v) ts vs.
Proof. exact taken_all. Qed.
Print Assumptions C02_nothing_lost.

(** how many are lost with NDEBUG *)
Theorem C02_lost : forall e ts vs, taken true e ts vs ->
  exists lost, Forall (too_large e) lost /\ List.length ts = List.length vs + List.length lost /\ forall t, In t lost -> In t ts.
Proof. exact taken_lost_texts. Qed.
Print Assumptions C02_lost.

Example C08_exact_ex :
  let decls := [DFlag 2 (cfg "a" "all"); DOption 1 (ListOf uint8) (cfg "l" "list"); DPositional 3 (ListOf uint8) (cfg nul "")] in
  let inv := {| items := [IOpt (IdShort "l") Separate "1"; IOpt (IdLong "list") Separate "300"; IWord "7"; IOpt (IdLong "list") Equals "2"]; tail := Some ["999"; "8"] |} in
  wf_decls decls = true /\ wf_invocation decls inv = true /\ kept (items inv) (cfg "l" "list") = [Some "300"; Some "2"]
  /\ okind_of (snd (parse_args true decls (render inv) vars0 no_fs)) = ORet
  /\ map (vars (fst (parse_args true decls (render inv) vars0 no_fs))) [1; 3] = [VList [VInt 2]; VList [VInt 7; VInt 8]].
Proof. vm_compute. auto 10. Qed.

(** An element of a list is what a variable of its own type would be, whatever that variable held: that elements are value-initialised
    (Values.v, [default_val]) cannot be seen, except by an operator>> of the program, which starts from the empty value. *)
Theorem C02_element : forall e l s start new, (forall n rd pr, e <> TStream n rd pr) ->
  (parse_option_value (ListOf e) (VList l) s = POk new PSuccess <->
   exists v, parse_option_value (Scalar e) start s = POk v PSuccess /\ new = VList (l ++ [v])).
Proof. exact element_fresh. Qed.
Print Assumptions C02_element.
Theorem C02_element_stream : forall n rd pr l s new,
  parse_option_value (ListOf (TStream n rd pr)) (VList l) s = POk new PSuccess <->
  exists v, rd (VOther "") s = (v, false, true) /\ new = VList (l ++ [v]).
Proof. exact element_stream. Qed.
Print Assumptions C02_element_stream.
Example C02_element_case : parse_option_value (ListOf TBool) (VList [VBool true]) "0" = POk (VList [VBool true; VBool false]) PSuccess /\
  parse_option_value (Scalar TBool) (VBool true) "0" = POk (VBool false) PSuccess /\
  parse_option_value (ListOf TPath) (VList []) "a/b" = POk (VList [VPath "a/b"]) PSuccess.
Proof. repeat split. Qed.
(** an operator>> that appends to what is there *)
Definition appending (old : val) (s : string) : val * bool * bool := (VOther (match old with VOther o => o +s+ s | _ => s end), false, true).
Example C02_element_stream_case : parse_option_value (ListOf (TStream "log" appending (fun _ => ""))) (VList [VOther "a"]) "b" =
    POk (VList [VOther "a"; VOther "b"]) PSuccess /\
  parse_option_value (Scalar (TStream "log" appending (fun _ => ""))) (VOther "a") "b" = POk (VOther "ab") PSuccess.
Proof. split; reflexivity. Qed.
