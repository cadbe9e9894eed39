(** What a parser says about itself (C101). *)
From Verif Require Import Base StrLib Fs Values Validators FormatParse Invocation Samples Parser ParserSpec ParserProofs PropParser InfoSpec InfoProofs.

(** ** C101: parser.info is what the program wrote there last, and in a new parser nothing but the name *)

Theorem C101_new : forall i name args dev subs, says_only name (info (construct i name args dev subs)).
Proof. exact new_says. Qed.
Print Assumptions C101_new.

(** after any calls, parse(), moves and calls of sub-parsers included *)
Theorem C101_last_written : forall ndebug bk p cs p', lived ndebug bk p cs p' -> info p' = last_written (info p) cs.
Proof. exact lived_info. Qed.
Print Assumptions C101_last_written.

(** every run is such a sequence of calls *)
Theorem C101_runs : forall ndebug bk cs w w1 log, run ndebug bk cs w = (w1, log) -> lived ndebug bk (w_parser w) (map fst log) (w_parser w1).
Proof. exact run_lived. Qed.
Print Assumptions C101_runs.

(** A sub-parser is made by one call of parse(); it takes over the name the parser has at that time and nothing else, and
    the calls it lives through are those made with get_sub_parser() after that - so [C101_last_written] and this theorem hold
    of it in turn, on every level. *)
Theorem C101_sub_parser : forall ndebug bk p cs p' q, lived ndebug bk p cs p' -> sub_parser p = None -> sub_parser p' = Some q ->
  exists cs1 pm cs2 s q0, cs = cs1 ++ CParse :: cs2 /\ lived ndebug bk p cs1 pm /\ In s (subcommands pm)
    /\ says_only (m_app_name (last_written (info p) cs1) +s+ "-" +s+ s) (info q0) /\ sub_parser q0 = None
    /\ lived ndebug bk q0 (below cs2) q.
Proof. exact lived_sub. Qed.
Print Assumptions C101_sub_parser.

(** the program writes version 2.0 and the name tool, parses, writes again, and the sub-parser is told a version of its own
    (the attempt before parse() is an exception and has no effect) *)
Definition told (name version : string) : meta :=
  {| m_app_name := name; m_version := version; m_short_description := ""; m_author := "somebody"; m_email := ""; m_date := "";
     m_url := ""; m_short_copyright := ""; m_long_copyright := ""; m_citation := ""; m_man_page_title := "";
     m_man_page_section := 3; m_description := ["Does things."]; m_synopsis := []; m_examples := [] |}.
Definition info_calls (more : list call) : list call :=
  [CInfo (told "tool" "2.0"); CSub (CInfo (told "early" "0")); CParse; CInfo (told "later" "3.0")] ++ more.

Example C101_case_new : info (w_parser (app_with ["push"] ["push"])) <> told "app" "" /\
  m_man_page_section (info (w_parser (app_with ["push"] ["push"]))) = 1%N.
Proof. split; [discriminate|reflexivity]. Qed.

Example C101_case_top : let '(w, log) := run false bk0 (info_calls [CMove 7 false]) (app_with ["push"] ["push"]) in
  List.length log = 5 /\ info (w_parser w) = told "later" "3.0".
Proof. vm_compute. split; reflexivity. Qed.

(** the sub-parser is called tool-push; nothing of version, author or section 3 is taken over *)
Example C101_case_sub : exists q, sub_parser (w_parser (fst (run false bk0 (info_calls []) (app_with ["push"] ["push"])))) = Some q /\
  m_app_name (info q) = "tool-push" /\ m_version (info q) = "" /\ m_man_page_section (info q) = 1%N /\ m_author (info q) = "".
Proof. eexists. split; [vm_compute; reflexivity|vm_compute; repeat split]. Qed.

Example C101_case_sub_told : exists q, sub_parser (w_parser (fst (run false bk0 (info_calls [CSub (CInfo (told "mine" "1.1"))]) (app_with ["push"] ["push"])))) = Some q /\
  info q = told "mine" "1.1" /\ below (info_calls [CSub (CInfo (told "mine" "1.1"))]) = [CInfo (told "early" "0"); CInfo (told "mine" "1.1")].
Proof. eexists. split; [vm_compute; reflexivity|vm_compute; split; reflexivity]. Qed.
