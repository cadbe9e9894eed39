(** Validators on paths, texts and truth values (C97). *)
From Verif Require Import Base StrLib Fs FloatNum Values ValuesSpec Validators ValidatorsSpec FormatParse Invocation Regex RegexSpec RegexReading RegexUses
  ValidatorsProofs ElementsSpec ElementsProofs Samples.

(** the elements the code goes through are the root directory and the names between the slashes *)
Theorem C97_elements : forall p l, path_parts p l <-> path_elements p = l.
Proof. exact elements_iff. Qed.
Print Assumptions C97_elements.
Theorem C97_every_path : forall p, exists l, path_parts p l.
Proof. exact parts_total. Qed.
Print Assumptions C97_every_path.
Example C97_elements_case : map path_elements [""; "/"; "a"; "/usr//lib/"; "data/seasons.tsv"; "./x"] =
  [[]; ["/"]; ["a"]; ["/"; "usr"; "lib"; ""]; ["data"; "seasons.tsv"]; ["."; "x"]] /\ path_parts "/usr//lib/" ["/"; "usr"; "lib"; ""].
Proof. split; [reflexivity|]. apply C97_elements. reflexivity. Qed.

(** a regex_validator on a path looks at every element, in order, and reports the first that does not match *)
Theorem C97_path : forall pattern rx f p l, path_parts p l ->
  let v := regex_validator pattern rx f (VPath p) in
  (Forall (fun e => rx e = Some true) l /\ v = (f, VOk)) \/
  (exists a e b, l = a ++ e :: b /\ Forall (fun e => rx e = Some true) a /\
     (rx e = Some false /\ v = (f, VThrow ("Value " +s+ e +s+ " did not match the pattern " +s+ pattern +s+ ".")) \/ rx e = None /\ v = (f, VThrow "regex_error"))).
Proof. exact path_regex. Qed.
Print Assumptions C97_path.
(** but at the whole text of every path in a list *)
Theorem C97_path_list : forall pattern rx f ps, snd (regex_validator pattern rx f (VList (map VPath ps))) = VOk <-> Forall (fun p => rx p = Some true) ps.
Proof. exact path_list_regex. Qed.
Print Assumptions C97_path_list.
(** with the meaning of patterns (C93) *)
Theorem C97_says : forall other r f p l, fits r = true -> (load r <= load_limit)%N -> path_parts p l ->
  (snd (regex_validator (pattern r) (std_regex other (pattern r)) f (VPath p)) = VOk <-> Forall (says r true true) l).
Proof. exact path_says. Qed.
Print Assumptions C97_says.
(** the whole parser *)
Theorem C97_option : forall ndebug other r x c i w l vs f, fits r = true -> (load r <= load_limit)%N ->
  wf_decls [DOption x (Scalar TPath) c] = true -> In i (config_idents c) -> plain_word w -> path_parts w l -> c_validator c = regex_validator (pattern r) (std_regex other (pattern r)) ->
  let o := okind_of (snd (parse_args ndebug [DOption x (Scalar TPath) c] (one_arg i w) vs f)) in
  (o = ORet <-> Forall (says r true true) l) /\ (o = OThrow KValidation <-> ~ Forall (says r true true) l).
Proof. exact one_path_matched. Qed.
Print Assumptions C97_option.

(** Full statement: a path option with a regex_validator is accepted exactly if the pattern describes the path.  Neither direction
    holds: the pattern of the tutorial (doc/tutorial/parser/solution6.cpp) describes data/seasons.tsv, but the parser refuses it;
    the pattern [a-z]+ does not describe a/b, but the parser accepts it. *)
Definition seasons : string := ".*seasons\..+$".
Definition word_re : re := Rep (Bracket false false [RegexSpec.Range Plain "a" Plain "z"] false) Many false.
Definition path_option (v : validator) : list decl := [DOption 0%nat (Scalar TPath) (validated v (cfg "f" "file"))].
Theorem C97_path_refuted :
  (exists pattern p, regex_match pattern p = Fine true /\
     snd (parse_args true (path_option (regex_validator pattern (std_regex (fun _ _ => None) pattern))) ["-f"; p] vars0 no_fs) =
     Throw (Exn KValidation "Validation failed for option -f/--file: Value data did not match the pattern .*seasons\..+$.")) /\
  (exists pattern p, regex_match pattern p = Fine false /\
     snd (parse_args true (path_option (regex_validator pattern (std_regex (fun _ _ => None) pattern))) ["-f"; p] vars0 no_fs) = Ret tt).
Proof. split; [exists seasons, "data/seasons.tsv"|exists (pattern word_re), "a/b"]; vm_compute; auto. Qed.
Print Assumptions C97_path_refuted.
Example C97_option_case :
  let c := validated (regex_validator (pattern word_re) (std_regex (fun _ _ => None) (pattern word_re))) (cfg "f" "file") in
  wf_decls [DOption 0%nat (Scalar TPath) c] = true /\ In (IdLong "file") (config_idents c) /\ plain_word "home/me" /\ path_parts "home/me" ["home"; "me"] /\ fits word_re = true /\ (load word_re <= load_limit)%N /\
  map (fun s => snd (parse_args true [DOption 0%nat (Scalar TPath) c] (one_arg (IdLong "file") s) vars0 no_fs)) ["home/me"; "home//me"; "/home"; "home/"] =
  [Ret tt; Ret tt; Throw (Exn KValidation "Validation failed for option -f/--file: Value / did not match the pattern [a-z]+.");
   Throw (Exn KValidation "Validation failed for option -f/--file: Value  did not match the pattern [a-z]+.")].
Proof.
  split; [vm_compute; reflexivity|]. split; [vm_compute; auto|]. split; [split; [discriminate|split; [reflexivity|discriminate]]|]. split; [apply C97_elements; reflexivity|].
  split; [reflexivity|]. split; [vm_compute; discriminate|]. vm_compute. reflexivity.
Qed.

(** the validator of the tutorial wants every directory on the way to be called like the file *)
Theorem C97_tutorial : forall other f p l, path_parts p l ->
  (snd (regex_validator ".*seasons\..+$" (std_regex other ".*seasons\..+$") f (VPath p)) = VOk <->
   Forall (fun e => exists u v, sall no_break u = true /\ sall no_break v = true /\ v <> "" /\ e = u +s+ "seasons." +s+ v) l).
Proof. exact tutorial_lemma. Qed.
Print Assumptions C97_tutorial.
(** the validator for absolute paths of the documentation refuses all paths *)
Theorem C97_absolute : forall other f p, p <> "" -> exists m, regex_validator "(/[^/]+)+/.*\.[^/\.]+$" (std_regex other "(/[^/]+)+/.*\.[^/\.]+$") f (VPath p) = (f, VThrow m).
Proof. exact absolute_lemma. Qed.
Print Assumptions C97_absolute.
Example C97_absolute_case : let v := regex_validator "(/[^/]+)+/.*\.[^/\.]+$" (std_regex (fun _ _ => None) "(/[^/]+)+/.*\.[^/\.]+$") no_fs in
  snd (v (VPath "/home/me/x.sa")) = VThrow "Value / did not match the pattern (/[^/]+)+/.*\.[^/\.]+$." /\ snd (v (VStr "/home/me/x.sa")) = VOk /\ snd (v (VList [VPath "/home/me/x.sa"])) = VOk.
Proof. vm_compute. auto. Qed.

(** lists of paths: what differs in the number of slashes only is the same *)
Theorem C97_path_values : forall values f x ps, elements x = map VPath ps ->
  snd (value_list_validator TPath (map VPath values) f x) = VOk <-> Forall (fun p => Exists (same_path p) values) ps.
Proof. exact path_list_lemma. Qed.
Print Assumptions C97_path_values.
Example C97_path_values_case : same_path "a//b" "a/b" /\ ~ same_path "a/b/" "a/b" /\
  map (fun p => snd (value_list_validator TPath [VPath "a/b"; VPath "/"] no_fs (VPath p))) ["a//b"; "///"; "a/b/"] = [VOk; VOk; VThrow "Value ""a/b/"" is not one of [""a/b"", ""/""]."].
Proof.
  split; [exists ["a"; "b"]; split; apply C97_elements; reflexivity|]. split; [|vm_compute; reflexivity].
  intros (l & A & B). apply C97_elements in A, B. rewrite <- B in A. discriminate.
Qed.

(** a range of numbers on a text: the codes of the characters are compared *)
Theorem C97_text : forall sg bits mn mx f s, (0 < bits)%N ->
  (snd (arithmetic_range_validator sg bits mn mx f (VStr s)) = VOk <->
   forall c z y, In c (chars s) -> character_number c z -> residue sg bits z y -> within mn mx y).
Proof. exact text_accepted. Qed.
Print Assumptions C97_text.
(** Full statement: a text is accepted if it is a number of the range.  Refuted: 3 is refused by {1, 5}, "0" by itself is in {48, 57} *)
Theorem C97_text_refuted : exists mn mx s, means (TInt true 32) (VInt 0) s (VInt 3) /\ within mn mx 3 /\
  snd (parse_args true [DOption 0%nat (Scalar TString) (validated (arithmetic_range_validator true 32 mn mx) (cfg "n" "number"))] ["-n"; s] vars0 no_fs) =
  Throw (Exn KValidation "Validation failed for option -n/--number: Value 51 is not in range [1,5].").
Proof.
  exists 1%Z, 5%Z, "3". split; [|split; [split; discriminate|vm_compute; reflexivity]].
  apply (proj1 (Verif.ValuesProofs.parse_elem_means (TInt true 32) (VInt 0) "3" (VInt 3) Logic.I)). reflexivity.
Qed.
Print Assumptions C97_text_refuted.
(** a truth value is 0 or 1 *)
Theorem C97_truth : forall sg bits mn mx f b, (1 < bits)%N ->
  (snd (arithmetic_range_validator sg bits mn mx f (VBool b)) = VOk <-> within mn mx (if b then 1 else 0)).
Proof. exact truth_accepted. Qed.
Print Assumptions C97_truth.
