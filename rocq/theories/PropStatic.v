(** What the compiler decides about options and validators (C98). *)
From Verif Require Import Base Values FloatNum Validators HelpBase Static StaticSpec StaticProofs.

(** a call means the one viable candidate that is better than all others *)
Theorem C98_best : forall W (l : list (candidate W)) w, NoDup (map number l) ->
  (best l = Chosen w <-> exists c, (In c l /\ viable c = true /\ forall d, In d l -> viable d = true -> d <> c -> better c d = true) /\ what c = w).
Proof. exact @best_iff. Qed.
Print Assumptions C98_best.
Example C98_best_case : NoDup (map number (overloads true (Arith Int))) /\ best (overloads true (Arith Int)) = Chosen ByNumber /\
  length (filter viable (overloads true (Arith Int))) = 2%nat.
Proof. split; [|split; reflexivity]. repeat constructor; cbn; intuition discriminate. Qed.

(** the overload of parse_option_value, for every type *)
Theorem C98_overload : forall t w, resolve t = Chosen w <-> reads t w.
Proof. exact resolve_iff. Qed.
Print Assumptions C98_overload.
(** an enumeration with names; std::set<int>; std::string_view; a class derived from std::string *)
Definition color := Class "color" false false false true None false false true.
Definition set_of_int := Class "std::set<int>" false false false false (Some (Arith Int)) false false false.
Definition both_ways := Class "mode" true true true false None false false false.
Definition view := Class "std::string_view" false true false false (Some (Arith Char)) false false false.
Definition label := Class "label" true true false false (Some (Arith Char)) true true false.
Example C98_overload_case : map resolve [Arith Bool; Arith Char; Arith LDouble; Str; Path; Seq Path; Seq (Seq (Arith Int)); color; Seq color] =
  [Chosen ByTruth; Chosen ByNumber; Chosen ByNumber; Chosen ByText; Chosen ByStream; Chosen ByElement; Chosen ByElement; Chosen ByNames; Chosen ByElement] /\
  reads color ByNames /\ ~ (exists w, reads set_of_int w).
Proof.
  split; [reflexivity|]. split; [apply C98_overload; reflexivity|]. intros [w h]. apply C98_overload in h. discriminate h.
Qed.

(** two of: read from streams, named, filled with push_back *)
Theorem C98_ambiguous : forall n i o c a r p d k, resolve (Class n i o c a r p d k) = Ambiguous <->
  two_of (i = true) (c = true \/ a = true) (p = true /\ exists u, r = Some u /\ exists w, reads u w).
Proof. exact ambiguous_iff. Qed.
Print Assumptions C98_ambiguous.
Example C98_ambiguous_case : resolve both_ways = Ambiguous /\ resolve label = Ambiguous /\ resolve color <> Ambiguous.
Proof. repeat split; try reflexivity. discriminate. Qed.

(** variables made of numbers, texts, paths and lists: the constraint admits the basic types and the lists of them, and what it admits compiles *)
Theorem C98_accepted : forall t, plain t -> (accepted t = true <-> basic t \/ exists u, t = Seq u /\ basic u).
Proof. exact accepted_plain. Qed.
Print Assumptions C98_accepted.
Theorem C98_compiles : forall t, plain t -> compiles t = accepted t.
Proof. exact compiles_plain. Qed.
Print Assumptions C98_compiles.
(** lists of lists are refused although there is an overload to read them *)
Example C98_accepted_case : map accepted [Arith Int; Seq Str; Seq (Seq Str); Arith WChar; Seq (Arith Char8)] = [true; true; false; false; false] /\
  resolve (Seq (Seq Str)) = Chosen ByElement.
Proof. split; reflexivity. Qed.
(** the constraint, for every type *)
Theorem C98_admitted : forall t, accepted t = true <-> may_parse t \/ exists u, element_of u t /\ may_parse u.
Proof. exact admitted_iff. Qed.
Print Assumptions C98_admitted.
Theorem C98_parsable : forall t, parsable t = true <-> may_parse t.
Proof. exact parses_iff. Qed.
Print Assumptions C98_parsable.
Example C98_admitted_case : may_parse (Class "colors" true false false false (Some color) true false false) /\ ~ may_parse (Class "ints" true false false false None false false false).
Proof.
  split; [right; right; split; [reflexivity|right; exists color; split; [constructor|cbn; tauto]]|].
  rewrite <- C98_parsable. discriminate.
Qed.
(** in general not: the constraint admits a set of numbers, a string_view, an enumeration that is named and streamed, a class derived
    from std::string, and no overload can be chosen *)
Theorem C98_compiles_refuted : exists t, accepted t = true /\ compiles t = false.
Proof. exists set_of_int. vm_compute. split; reflexivity. Qed.
Print Assumptions C98_compiles_refuted.
Example C98_compiles_refuted_case : map accepted [set_of_int; view; both_ways; label] = [true; true; true; true] /\
  map resolve [set_of_int; view; both_ways; label] = [NoMatch; NoMatch; Ambiguous; Ambiguous].
Proof. split; reflexivity. Qed.

(** the model of values reads every type in the branch of the overload the compiler chooses *)
Theorem C98_agrees : forall t v, models t v -> resolve t = Chosen (branch v) /\ accepted t = true.
Proof. exact models_chosen. Qed.
Print Assumptions C98_agrees.
Theorem C98_covers : forall t, plain t -> accepted t = true -> exists v, models t v.
Proof. exact models_total. Qed.
Print Assumptions C98_covers.
Theorem C98_lists : forall t v, models t v -> container_option t = is_container v.
Proof. exact models_list. Qed.
Print Assumptions C98_lists.
Example C98_agrees_case : models (Seq color) (ListOf (TEnum "color" [("red", 0%Z)])) /\ models (Arith Long) (Scalar (TInt true 64)).
Proof. split; [apply m_list, m_enum; now right|repeat constructor]. Qed.

(** the names of types *)
Theorem C98_names : forall t v, models t v -> ~ long_long t -> get_type_name t = type_name (elem_ty v).
Proof. exact models_name. Qed.
Print Assumptions C98_names.
Example C98_names_case : models (Seq (Arith UShort)) (ListOf (TInt false 16)) /\ ~ long_long (Seq (Arith UShort)) /\
  type_and_list (Seq (Arith UShort)) = "(\fIList\fP of \fIunsigned 16 bit integer\fP)".
Proof. repeat split; try (repeat constructor). unfold long_long. cbn. intuition discriminate. Qed.
(** [long long] has 64 bits as [long] has, but is shown under its own name *)
Theorem C98_names_refuted : exists t v, models t v /\ get_type_name t <> type_name (elem_ty v).
Proof. exists (Arith LLong), (Scalar (TInt true 64)). split; [repeat constructor|]. vm_compute. discriminate. Qed.
Print Assumptions C98_names_refuted.

(** for every type *)
Theorem C98_every_name : forall t w, says t w <-> get_type_name t = w.
Proof. exact says_iff. Qed.
Print Assumptions C98_every_name.
Example C98_every_name_case : says (Seq (Arith LLong)) "long long" /\ says color "color" /\ ~ says (Arith LLong) "signed 64 bit integer".
Proof. rewrite !C98_every_name. split; [reflexivity|]. split; [reflexivity|]. vm_compute. discriminate. Qed.

(** as shown in help pages *)
Theorem C98_shown : forall t v, models t v -> ~ long_long t -> type_and_list t = HelpBase.type_info v.
Proof. exact models_shown. Qed.
Print Assumptions C98_shown.
(** names the library has no word for: qualifiers, and the reasons why there is none *)
Theorem C98_qualified : forall mangled demangled c r s, type_name_as_string 0 mangled demangled c r = s <-> named_type demangled c r s.
Proof. exact qualified_iff. Qed.
Print Assumptions C98_qualified.
Theorem C98_unnamed : forall z mangled demangled c r w, reason z w ->
  type_name_as_string z mangled demangled c r = mangled +s+ " (abi::__cxa_demangle error status (" +s+ Z_to_string z +s+ "): " +s+ w +s+ ")".
Proof. exact failed_name. Qed.
Print Assumptions C98_unnamed.
Example C98_qualified_case : named_type "int" true LRef "int const &" /\ reason 7 "Unknown Error" /\ reason (-2) "mangled_name is not a valid name under the C++ ABI mangling rules.".
Proof. split; [exact (nt_cl "int")|]. split; constructor. cbn. intuition discriminate. Qed.

(** the table in sharg::custom::parsing goes before the function found by lookup *)
Theorem C98_table : forall T (custom adl : option T),
  names_table custom adl = match custom, adl with Some t, _ => Chosen t | None, Some t => Chosen t | None, None => NoMatch end.
Proof. exact @table_priority. Qed.
Print Assumptions C98_table.
Example C98_table_case : names_table (Some 1%nat) (Some 2%nat) = Chosen 1%nat /\ names_table None (Some 2%nat) = Chosen 2%nat.
Proof. split; reflexivity. Qed.

(** which variables a validator may be given *)
Theorem C98_numbers : forall a t, plain t -> (invocable (KRange a) t = true <-> numeral t) /\ (invocable (KValues (Arith a)) t = true <-> numeral t).
Proof. intros a t h. exact (conj (range_takes a t h) (numbers_take a t h)). Qed.
Print Assumptions C98_numbers.
Theorem C98_texts : forall v t, In v [KRegex; KFile; KValues Str; KValues Path] -> plain t -> (invocable v t = true <-> textual t).
Proof. exact texts_take. Qed.
Print Assumptions C98_texts.
Theorem C98_chain : forall v w t, invocable (KBoth v w) t = true <-> invocable v t = true /\ invocable w t = true.
Proof. exact chain_takes. Qed.
Print Assumptions C98_chain.
Example C98_texts_case : plain (Seq Path) /\ invocable (KBoth KRegex KFile) (Seq Path) = true /\ invocable (KBoth KRegex (KRange Int)) (Seq Path) = false /\
  invocable (KBoth KRegex (KRange Int)) Str = true.
Proof. repeat split. Qed.

(** numbers and files, for every type *)
Theorem C98_number_overload : forall a t, (looks (KRange a) t = Chosen Each <-> exists b, element_of (Arith b) t) /\
  (looks (KRange a) t = Chosen Whole <-> to_number t /\ ~ exists b, element_of (Arith b) t).
Proof. intros a t. exact (conj (number_each a t) (number_whole a t)). Qed.
Print Assumptions C98_number_overload.
Theorem C98_file_overload : forall t, (looks KFile t = Chosen Whole <-> to_path t) /\ (looks KFile t = Chosen Each <-> ~ to_path t /\ exists u, element_of u t /\ to_path u).
Proof. exact file_looks. Qed.
Print Assumptions C98_file_overload.
(** an unscoped enumeration is a number, a list of them is not a list of numbers *)
Example C98_number_overload_case : looks (KRange Int) color = Chosen Whole /\ looks (KRange Int) (Seq color) = NoMatch /\ looks KFile label = Chosen Whole /\ looks KFile (Seq label) = Chosen Each.
Proof. repeat split. Qed.

(** whole values and elements: as the model of the validators takes them *)
Theorem C98_regex_looks : forall x t, holds x t -> invocable KRegex t = true -> (looks KRegex t = Chosen Each <-> exists l, by_elements x = VList l).
Proof. exact regex_looks. Qed.
Print Assumptions C98_regex_looks.
Theorem C98_range_looks : forall a x t, holds x t -> invocable (KRange a) t = true -> (looks (KRange a) t = Chosen Each <-> exists l, by_characters x = VList l).
Proof. exact range_looks. Qed.
Print Assumptions C98_range_looks.
Theorem C98_values_look : forall u e x t, models_elem u e -> basic u -> holds x t -> invocable (KValues u) t = true ->
  (looks (KValues u) t = Chosen Each <-> exists l, match e with TFloat _ _ _ _ => by_characters x | _ => as_range e x end = VList l).
Proof. exact values_look. Qed.
Print Assumptions C98_values_look.
Example C98_looks_case : holds (VPath "a/b") Path /\ map (fun v => looks v Path) [KRegex; KFile; KValues Str; KValues Path] = [Chosen Each; Chosen Whole; Chosen Whole; Chosen Whole] /\
  map (fun v => looks v Str) [KRegex; KFile; KRange Int; KValues (Arith Char)] = [Chosen Whole; Chosen Whole; Chosen Each; Chosen Each].
Proof. repeat split. constructor. Qed.
