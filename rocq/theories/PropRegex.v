(** Regular expressions (C93). *)
From Verif Require Import Base StrLib Fs Values ValuesSpec Validators FormatParse Invocation Parser VersionCheck Regex RegexSpec RegexReading RegexErrors RegexUses Samples.

(** a pattern matches exactly the texts it describes *)
Theorem C93_match : forall r s, fits r = true -> (load r <= load_limit)%N ->
  exists v, regex_match (pattern r) s = Fine v /\ (v = true <-> says r true true s).
Proof. exact match_pattern. Qed.
Print Assumptions C93_match.
(** and is found exactly in the texts with such a part *)
Theorem C93_search : forall r s, fits r = true -> (load r <= load_limit)%N ->
  exists v, regex_search (pattern r) s = Fine v /\ (v = true <-> occurs r s).
Proof. exact search_pattern. Qed.
Print Assumptions C93_search.
(** a text that cannot be read as a pattern is rejected, whatever it is compared with *)
Theorem C93_malformed : forall p s, no_expression p -> regex_match p s = Malformed.
Proof. intros p s H. exact (ill_formed p H s). Qed.
Print Assumptions C93_malformed.

(** every form: groups, alternatives, repetitions, classes, anchors *)
Definition sample : re :=
  Seq Bol (Seq (Alt (Seq (Lit Plain "a") (Rep (Class SDigit true) (Between 1 3) true)) (Rep (Bracket true false [Range Plain "0" Plain "9"; Named Space; One Slash "]"] true) Many false))
               (Seq (Quiet (Rep (Seq (Lit Slash ".") (Alt Nothing (Lit Plain "x"))) (Exactly 2) false)) Eol)).
Example C93_match_case : fits sample = true /\ (load sample <= load_limit)%N /\
  pattern sample = "^(a\D{1,3}?|[^0-9[:space:]\]-]+)(?:(\.(|x)){2})$" /\
  map (regex_match (pattern sample)) ["abc..x"; "zzz.x."; "zz"; "a1.x.x"] = [Fine true; Fine true; Fine false; Fine false].
Proof. vm_compute. repeat split; discriminate. Qed.
(** every way to write a character, and dashes at both ends *)
Definition spellings : re :=
  Seq (Lit (Hex false) "k") (Seq (Lit (Wide true) "]") (Seq (Lit Letter "009") (Seq (Lit Plain "}")
    (Rep (Bracket false true [One Letter "008"; Range (Hex true) "J" Slash "^"] true) Many false)))).
Example C93_spellings_case : fits spellings = true /\ pattern spellings = "\x6b\u005D\t}[-\b\x4A-\^-]+" /\
  map (fun s => regex_match (pattern spellings) ("k]" +s+ String "009" "}" +s+ s)) ["-J-Z^"; "I"; ""; String "008" ""] = [Fine true; Fine false; Fine false; Fine true].
Proof. vm_compute. auto. Qed.
(** Full statement: every character can be written in the ways of ECMAScript.  \cA is the letter A here, not the character with code 1 *)
Theorem C93_control_refuted : regex_match "\cA" (str1 "001") = Fine false /\ regex_match "\cA" "A" = Fine true.
Proof. vm_compute. auto. Qed.
Print Assumptions C93_control_refuted.
Example C93_search_case : map (regex_search "b+$") ["abb"; "bba"] = [Fine true; Fine false] /\ map (regex_search "^b") ["ab"; "ba"] = [Fine false; Fine true].
Proof. vm_compute. auto. Qed.
Example C93_malformed_case :
  Forall no_expression ["(a"; "a)b"; "*a"; "^+"; "x[ab"; "[z-a]"; "a{3,2}"; "a{2"; "a\"; "(?<a)"; "\x4g"; "[[:digits:]]"] /\
  map (fun p => regex_match p "a") ["(a"; "a)b"; "*a"; "^+"; "x[ab"; "[z-a]"; "a{3,2}"; "a{2"; "a\"; "(?<a)"; "\x4g"; "[[:digits:]]"] = repeat Malformed 12.
Proof.
  split; [|vm_compute; reflexivity].
  assert (L : (load (Lit Plain "a") <= load_limit)%N) by (vm_compute; discriminate). assert (L0 : (load Nothing <= load_limit)%N) by (vm_compute; discriminate).
  repeat constructor.
  - exact (unclosed_group (Lit Plain "a") eq_refl L).
  - exact (unopened_group (Lit Plain "a") "b" eq_refl L).
  - exact (nothing_to_repeat Any "a").
  - refine (no_atom_to_repeat Nothing "^" Many "" eq_refl L0 _). cbn. auto.
  - exact (unclosed_bracket (Lit Plain "x") false [One Plain "a"; One Plain "b"] eq_refl L eq_refl).
  - refine (reversed_range Nothing false [] Plain "z" Plain "a" "]" eq_refl L0 eq_refl eq_refl eq_refl _). vm_compute. lia.
  - refine (reversed_counts (Lit Plain "a") 3 2 "" eq_refl L _ _); lia.
  - exact (unclosed_braces (Lit Plain "a") "2" eq_refl L eq_refl).
  - exact (lone_backslash (Lit Plain "a") eq_refl).
  - refine (unknown_group Nothing "<a)" eq_refl _). intros c t' E. injection E as <- _. cbn. intuition discriminate.
  - refine (short_number Nothing false "4" "g" eq_refl eq_refl _ _); [cbn; lia|]. intros c t' E. injection E as <- _. reflexivity.
  - refine (unknown_name Nothing false [] "digits" "]" eq_refl L0 eq_refl eq_refl _). cbn. intuition discriminate.
Qed.

(** plain texts match themselves and nothing else; with a backslash before any character but letters and digits as well *)
Theorem C93_plain : forall f t s, sall (fun c => literal (f c) c) t = true -> (String.length t <= 2400)%nat -> regex_match (quoted f t) s = Fine (String.eqb s t).
Proof. intros f t s. exact (quoted_match f t s). Qed.
Print Assumptions C93_plain.
Example C93_plain_case : quoted (fun c => if scontains c specials then Slash else Plain) "a.b (c)" = "a\.b \(c\)" /\ sall (fun c => literal (if scontains c specials then Slash else Plain) c) "a.b (c)" = true /\
  regex_match "a\.b \(c\)" "a.b (c)" = Fine true /\ regex_match "a\.b \(c\)" "aXb (c)" = Fine false.
Proof. vm_compute. auto. Qed.

(** ** The patterns in the library: [name_matches] and [match_version], used in C01 to C92, are what std::regex answers *)

Theorem C93_names : forall s, regex_match "^[a-zA-Z0-9_-]+$" s = Fine (name_matches s).
Proof. exact names_match. Qed.
Print Assumptions C93_names.
Theorem C93_versions : forall s, regex_match "^[[:digit:]]+\.[[:digit:]]+\.[[:digit:]]+$" s = Fine (match match_version s with Some (_, EmptyString) => true | _ => false end).
Proof. exact versions_match. Qed.
Print Assumptions C93_versions.
Theorem C93_version_search : forall s, regex_search "^([[:digit:]]+\.[[:digit:]]+\.[[:digit:]]+).*" s = Fine (match match_version s with Some _ => true | None => false end).
Proof. exact versions_search. Qed.
Print Assumptions C93_version_search.
Example C93_names_case : map name_matches ["my-app_2"; "my app"; ""] = [true; false; false] /\
  map (fun s => match match_version s with Some (v, rest) => Some (v, rest) | None => None end) ["1.2.3"; "1.2.30-rc1"; "v1.2.3"] = [Some ("1.2.3", ""); Some ("1.2.30", "-rc1"); None].
Proof. vm_compute. auto. Qed.

(** ** The patterns in documentation and tests *)

Theorem C93_email : forall s, regex_match "[a-zA-Z]+@[a-zA-Z]+\.com" s = Fine true <->
  exists u v, u <> "" /\ v <> "" /\ sall (has_kind Alpha) u = true /\ sall (has_kind Alpha) v = true /\ s = u +s+ "@" +s+ v +s+ ".com".
Proof. exact email_match. Qed.
Print Assumptions C93_email.
Theorem C93_path : forall s, regex_match "(/[^/]+)+/.*\.[^/\.]+$" s = Fine true <->
  exists ds x y, ds <> [] /\ Forall component ds /\ sall no_break x = true /\ y <> "" /\ scontains "/" y = false /\ scontains "." y = false /\
    s = sconcat (map (String "/") ds) +s+ "/" +s+ x +s+ "." +s+ y.
Proof. exact path_match. Qed.
Print Assumptions C93_path.
(** Full statement: the pattern of snippet validators_chaining.cpp accepts every absolute path of a file with an extension, and no
    relative one.  Not files in the root directory, and not with a line break after the first directories *)
Theorem C93_path_refuted : regex_match "(/[^/]+)+/.*\.[^/\.]+$" "/file.sa" = Fine false /\ regex_match "(/[^/]+)+/.*\.[^/\.]+$" (String "/" (String "a" (String "/" (String "010" "b.sa")))) = Fine false.
Proof. vm_compute. auto. Qed.
Print Assumptions C93_path_refuted.
Theorem C93_seasons : forall s, regex_match ".*seasons\..+$" s = Fine true <->
  exists u v, sall no_break u = true /\ sall no_break v = true /\ v <> "" /\ s = u +s+ "seasons." +s+ v.
Proof. exact seasons_match. Qed.
Print Assumptions C93_seasons.
Theorem C93_inside : forall t s, t <> "" -> sall (fun c => literal Plain c) t = true -> (String.length t <= 2300)%nat ->
  (regex_match (".*" +s+ t +s+ ".*") s = Fine true <-> exists u v, sall no_break u = true /\ sall no_break v = true /\ s = u +s+ t +s+ v).
Proof. exact inside_match. Qed.
Print Assumptions C93_inside.
(** ".*" accepts everything but line breaks *)
Theorem C93_any : forall s, regex_match ".*" s = Fine (sall no_break s).
Proof. exact any_match. Qed.
Print Assumptions C93_any.
Theorem C93_chr : forall s, regex_match "^chr[0-9]+" s = Fine true <-> exists d, digits d /\ s = "chr" +s+ d.
Proof. exact chr_match. Qed.
Print Assumptions C93_chr.
Example C93_documented_case :
  map (regex_match "[a-zA-Z]+@[a-zA-Z]+\.com") ["rita@rambo.com"; "@rambo.com"; "r2@rambo.com"] = [Fine true; Fine false; Fine false] /\
  map (regex_match "(/[^/]+)+/.*\.[^/\.]+$") ["/home/user/file.sa"; "home/file.sa"; "/home/file"; "/home/x/y.z/file.a.sa"] = [Fine true; Fine false; Fine false; Fine true] /\
  map (regex_match ".*seasons\..+$") ["data/seasons.tsv"; "seasons."; "seasons.tsv"] = [Fine true; Fine false; Fine true] /\
  map (regex_match ".*oll.*") ["rollo"; "roll"; "rlo"] = [Fine true; Fine true; Fine false] /\ map (regex_match "^chr[0-9]+") ["chr12"; "chr"; "chr1x"] = [Fine true; Fine false; Fine false].
Proof. vm_compute. auto. Qed.

(** ** regex_validator *)

Theorem C93_validator : forall other r f v f' o, fits r = true -> (load r <= load_limit)%N ->
  regex_validator (pattern r) (std_regex other (pattern r)) f (VStr v) = (f', o) ->
  f' = f /\ (says r true true v /\ o = VOk \/ ~ says r true true v /\ o = VThrow ("Value " +s+ v +s+ " did not match the pattern " +s+ pattern r +s+ ".")).
Proof. intros other r f v f' o F L. exact (validator_exact other r f v F L f' o). Qed.
Print Assumptions C93_validator.
Theorem C93_validator_list : forall other r f vs, fits r = true -> (load r <= load_limit)%N ->
  (snd (regex_validator (pattern r) (std_regex other (pattern r)) f (VList (map VStr vs))) = VOk <-> Forall (says r true true) vs).
Proof. exact validator_list. Qed.
Print Assumptions C93_validator_list.
Theorem C93_validator_malformed : forall other p f v, no_expression p -> regex_validator p (std_regex other p) f (VStr v) = (f, VThrow "regex_error").
Proof. intros other p f v H. exact (validator_malformed other p f v (ill_formed p H v)). Qed.
Print Assumptions C93_validator_malformed.
(** the whole parser *)
Theorem C93_option : forall ndebug other r x c i s vs f, fits r = true -> (load r <= load_limit)%N ->
  wf_decls [DOption x (Scalar TString) c] = true -> In i (config_idents c) -> s <> "" -> c_validator c = regex_validator (pattern r) (std_regex other (pattern r)) ->
  let o := okind_of (snd (parse_args ndebug [DOption x (Scalar TString) c] (one_arg i s) vs f)) in
  (o = ORet <-> says r true true s) /\ (o = OThrow KValidation <-> ~ says r true true s).
Proof. exact one_matched. Qed.
Print Assumptions C93_option.
Example C93_option_case :
  let c := validated (regex_validator (pattern email_re) (std_regex (fun _ _ => None) (pattern email_re))) (cfg "m" "mail") in
  wf_decls [DOption 0%nat (Scalar TString) c] = true /\ In (IdLong "mail") (config_idents c) /\ fits email_re = true /\ (load email_re <= load_limit)%N /\
  map (fun s => snd (parse_args true [DOption 0%nat (Scalar TString) c] (one_arg (IdLong "mail") s) vars0 no_fs)) ["rita@rambo.com"; "rita@rambo.org"] =
  [Ret tt; Throw (Exn KValidation "Validation failed for option -m/--mail: Value rita@rambo.org did not match the pattern [a-zA-Z]+@[a-zA-Z]+\.com.")].
Proof. split; [vm_compute; reflexivity|]. split; [vm_compute; auto|]. split; [reflexivity|]. split; [vm_compute; discriminate|]. vm_compute. reflexivity. Qed.
