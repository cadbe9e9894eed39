(** Vocabulary for the time the version check takes. *)
From Verif Require Import Base Values VersionCheck Waiting.

(** the events of a check: what is said, then the search for a program, then at most one request *)
Definition wget : string := "/usr/bin/env -i wget --version > /dev/null 2>&1".
Definition curl : string := "/usr/bin/env -i curl --version > /dev/null 2>&1".
Inductive check_log : list event -> Prop :=
| said msgs : check_log (map Message msgs)
| searched msgs probes : probes = [wget] \/ probes = [wget; curl] -> check_log (map Message msgs ++ map Probe probes)
| requested msgs probes c : probes = [wget] \/ probes = [wget; curl] -> check_log (map Message msgs ++ map Probe probes ++ [Request c]).

Definition events_of (acts : list act) : list event := flat_map (fun a => match a with ACheck _ l => l | _ => [] end) acts.
Definition total (l : list N) : N := fold_right N.add 0%N l.

(** the time the program works, the time the user needs for answers, the time looking for a program takes *)
Definition own_time (acts : list act) : N := total (map (fun a => match a with AWork d => d | _ => 0%N end) acts).
Definition asked_time (p : pace) (acts : list act) : N :=
  total (map (fun e => match e with Message s => if String.eqb s question then wt_answer p else 0%N | _ => 0%N end) (events_of acts)).
Definition search_time (p : pace) (acts : list act) : N :=
  total (map (fun e => match e with Probe c => match wt_system p c with Some d => d | None => 0%N end | _ => 0%N end) (events_of acts)).
Definition requests (acts : list act) : nat := List.length (filter (fun e => match e with Request _ => true | _ => false end) (events_of acts)).

(** no parser is moved onto one that made a request, and none checks twice *)
Fixpoint none_lost (p : pace) (acts : list act) (st : wstate) : Prop :=
  match acts with
  | [] => True
  | a :: acts' => match a with
                  | ACheck i l => wt_futures st i = None /\ check_log l
                  | AMove i j => i = j \/ wt_futures st j = None
                  | _ => True
                  end /\ none_lost p acts' (on_act p st a)
  end.
