(** How long the version check holds up a program: parser.hpp 202-207 (destructor), 731-732 (version_check_future),
    1114-1125 (run_version_check), 160-163 (moves); version_check.hpp 38-45 (call_server), 126-220 (operator()).

    Times are milliseconds.  What takes time: [std::system], which the program waits for when it looks for a program to
    make the request with and which runs in a thread of its own for the request itself; the user answering the
    question; the program's own work.  Everything else takes no time.  The start of the thread is assumed to succeed.
    [std::exit] destroys no automatic object, so no destructor of a parser runs (parsers of static storage duration are
    not modelled). *)
From Verif Require Import Base Values VersionCheck.

(** the result of the promise: at a time, or never *)
Inductive ready := At (t : N) | Never.

(** [std::future<bool>]: not valid, or the state shared with the promise *)
Definition future := option ready.

(** [wt_system c]: how long [system(c)] takes; [None]: it does not return.  [wt_answer]: how long the user takes *)
Record pace := { wt_system : string -> option N; wt_answer : N }.

(** [wt_waited]: time spent in destructors; [wt_hung]: the program itself waits for a command that does not return;
    [wt_requests]: when the requests made so far are done (not known to the program) *)
Record wstate := { wt_now : N; wt_futures : nat -> future; wt_waited : N; wt_hung : bool; wt_exited : bool; wt_requests : list ready }.

Definition set_future (i : nat) (q : future) (g : nat -> future) : nat -> future := fun j => if Nat.eqb j i then q else g j.

(** One event of [version_check] (VersionCheck.v) in the parser at address [i].  The promise is set at once if there is
    no program for the request (180-184); [Request] replaces that: the thread sets it when the command is done
    (38-45, 219). *)
Definition on_event (p : pace) (i : nat) (st : wstate) (e : event) : wstate :=
  let '{| wt_now := now; wt_futures := g; wt_waited := w; wt_hung := h; wt_exited := x; wt_requests := rs |} := st in
  if h then st
  else match e with
  | Message s => if String.eqb s question then {| wt_now := now + wt_answer p; wt_futures := g; wt_waited := w; wt_hung := h; wt_exited := x; wt_requests := rs |} else st
  | Probe c => match wt_system p c with
               | Some d => {| wt_now := now + d; wt_futures := set_future i (Some (At (now + d))) g; wt_waited := w; wt_hung := h; wt_exited := x; wt_requests := rs |}
               | None => {| wt_now := now; wt_futures := g; wt_waited := w; wt_hung := true; wt_exited := x; wt_requests := rs |}
               end
  | Request c => let r := match wt_system p c with Some d => At (now + d) | None => Never end in
                 {| wt_now := now; wt_futures := set_future i (Some r) g; wt_waited := w; wt_hung := h; wt_exited := x; wt_requests := rs ++ [r] |}
  end.

(** ~parser, 202-207: [version_check_future.wait_for(std::chrono::seconds(3))] if the future is valid *)
Definition waiting_time (now : N) (q : future) : N :=
  match q with
  | None => 0
  | Some (At t) => N.min 3000 (t - now)
  | Some Never => 3000
  end.

(** What happens to the parsers of a program. *)
Inductive act :=
| ACheck (i : nat) (log : list event)      (* parse() of the parser at [i] runs the version check, with these events *)
| AWork (d : N)                            (* the program does something else *)
| AMove (i j : nat)                        (* the parser at [i] is moved to [j] (constructed or assigned) *)
| ADestroy (i : nat)
| AExit.                                   (* std::exit, parse() after printing a page *)

Definition on_act (p : pace) (st : wstate) (a : act) : wstate :=
  let '{| wt_now := now; wt_futures := g; wt_waited := w; wt_hung := h; wt_exited := x; wt_requests := rs |} := st in
  if h || x then st
  else match a with
  | ACheck i log => fold_left (on_event p i) log st
  | AWork d => {| wt_now := now + d; wt_futures := g; wt_waited := w; wt_hung := h; wt_exited := x; wt_requests := rs |}
  | AMove i j => {| wt_now := now; wt_futures := if Nat.eqb i j then g else set_future i None (set_future j (g i) g);
                    wt_waited := w; wt_hung := h; wt_exited := x; wt_requests := rs |}
  | ADestroy i => let d := waiting_time now (g i) in
                  {| wt_now := now + d; wt_futures := set_future i None g; wt_waited := w + d; wt_hung := h; wt_exited := x; wt_requests := rs |}
  | AExit => {| wt_now := now; wt_futures := g; wt_waited := w; wt_hung := h; wt_exited := true; wt_requests := rs |}
  end.

Definition live (p : pace) (acts : list act) (st : wstate) : wstate := fold_left (on_act p) acts st.

Definition begin_at (t : N) : wstate := {| wt_now := t; wt_futures := fun _ => None; wt_waited := 0; wt_hung := false; wt_exited := false; wt_requests := [] |}.
