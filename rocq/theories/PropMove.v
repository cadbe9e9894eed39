(** Moved parsers (C52). *)
From Verif Require Import Base Fs Values Validators FormatParse Invocation Samples Parser ParserSpec DeclSpec MoveSpec MoveProofs PropParser.

(** What parse() does after any history with any moves: what was added at other addresses is lost, or fatal if one of
    these objects is gone; the rest decides.  Names announced at other addresses are still known to the argument
    scan. *)
Theorem C52_exact : forall ndebug bk w0 w log cs opts a args ks, fresh (w_parser w0) -> run ndebug bk cs w0 = (w, log) ->
  (forall r, ~ In (CParse, r) log) -> arguments (w_parser w0) = a :: args ->
  good_name (m_app_name (info (w_parser w))) -> (forall s, In s (subcommands (w_parser w)) -> good_name s) ->
  (forall t, In t opts <-> announced (history log) t) ->
  pieces opts (subcommands (w_parser w)) args ks ->
  exists w1 r, step ndebug bk CParse w = (w1, r) /\
  match first_error (bk_tdl bk) (subcommands (w_parser w)) ks with
  | Some e => r = Throw e /\ w_vars w1 = w_vars w /\ w_fs w1 = w_fs w
  | None =>
      (haunted (self (w_parser w0)) log -> r = UB /\ w_vars w1 = w_vars w /\ w_fs w1 = w_fs w) /\
      (~ haunted (self (w_parser w0)) log ->
       exists r', r = with_value r' /\
       (w_vars w1, w_fs w1, r') =
       expected ndebug bk (info (w_parser w)) (subcommands (w_parser w)) (dev_decision (w_parser w0))
         (executable_name (w_parser w0) ++ [a]) (at_home (self (w_parser w0)) log) (ops_decls (at_home (self (w_parser w0)) log))
         ks (w_vars w) (w_fs w))
  end.
Proof. exact moved_parse. Qed.
Print Assumptions C52_exact.

(** An option added at home, one added away, and the way back: the first belongs to the parser again, the second is
    found in an object that is gone. *)
Example C52_back_case :
  let cs := [CAddFlag 2 (cfg "a" "all"); CMove 2 true; CAddOption 4 (Scalar TString) (cfg "s" "str"); CMove 1 false] in
  let log := map (fun c => (c, Ret true)) cs in
  self (w_parser (app ["-a"])) = 1 /\ snd (run false bk0 cs (app ["-a"])) = log /\ abode 1 log = 1 /\
  lodgers 1 log = [(1, OpDecl (DFlag 2 (cfg "a" "all"))); (2, OpDecl (DOption 4 (Scalar TString) (cfg "s" "str")))] /\
  at_home 1 log = [OpDecl (DFlag 2 (cfg "a" "all"))] /\ haunted 1 log /\
  kinds (snd (run false bk0 (cs ++ [CParse]) (app ["-a"]))) = [ORet; ORet; ORet; ORet; OUB].
Proof.
  cbv zeta. split; [reflexivity|]. split; [reflexivity|]. split; [reflexivity|]. split; [reflexivity|]. split; [reflexivity|].
  split; [|reflexivity]. cbn [map]. eexists 2, _. split; [cbn [lodgers]; right; left; reflexivity|]. split; [discriminate|].
  eexists [_; _; _], 1, (Ret true), []. split; [reflexivity|]. split; [reflexivity|]. split; [discriminate|]. intros k b r [].
Qed.

(** the same without destroying the object away from home: the run succeeds with the flag alone *)
Example C52_alive_case :
  let cs := [CAddFlag 2 (cfg "a" "all"); CMove 2 true; CAddOption 4 (Scalar TString) (cfg "s" "str"); CMove 1 true] in
  let log := map (fun c => (c, Ret true)) cs in
  snd (run false bk0 cs (app ["-a"])) = log /\ at_home 1 log = [OpDecl (DFlag 2 (cfg "a" "all"))] /\ ~ haunted 1 log /\
  kinds (snd (run false bk0 (cs ++ [CParse]) (app ["-a"]))) = [ORet; ORet; ORet; ORet; ORet] /\
  w_vars (fst (run false bk0 (cs ++ [CParse]) (app ["-a"]))) 2 = VBool true /\
  kinds (snd (run false bk0 (cs ++ [CParse]) (app ["-s"; "x"]))) = [ORet; ORet; ORet; ORet; OThrow KUnknownOption].
Proof.
  cbv zeta. split; [reflexivity|]. split; [reflexivity|]. split; [|split; [reflexivity|split; reflexivity]].
  cbn [map]. intros (a & o & L & N & (l1 & j & r & l2 & E & _)). clear L N.
  do 4 (destruct l1 as [|? l1]; [discriminate E|]; injection E as _ E). destruct l1; discriminate E.
Qed.
