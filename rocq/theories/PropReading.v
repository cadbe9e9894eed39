(** What an arbitrary argument vector means (C74). *)
From Verif Require Import Base StrLib Fs Values Validators FormatParse Invocation ValuesSpec ScanSpec DiagnosisSpec ReadingSpec ReadingProofs Samples.

(** ** C74: a vector is accepted exactly if it can be read, with exactly the values it is read with *)

Theorem C74_meaning : forall ndebug decls args vs f vs' f', wf_decls decls = true -> elems_ok decls ->
  understood ndebug decls args vs f vs' f' <->
  exists st', parse_args ndebug decls args vs f = (st', Ret tt) /\ (forall y, vars st' y = vs' y) /\ fsys st' = f'.
Proof. exact meaning_lemma. Qed.
Print Assumptions C74_meaning.

(** a vector has at most one reading *)
Theorem C74_unique : forall ndebug decls args vs f vs1 f1 vs2 f2, wf_decls decls = true -> elems_ok decls ->
  understood ndebug decls args vs f vs1 f1 -> understood ndebug decls args vs f vs2 f2 -> (forall y, vs1 y = vs2 y) /\ f1 = f2.
Proof. exact unique_lemma. Qed.
Print Assumptions C74_unique.

(** a vector without a reading is refused *)
Theorem C74_refused : forall ndebug decls args vs f, wf_decls decls = true -> elems_ok decls ->
  (forall vs' f', ~ understood ndebug decls args vs f vs' f') <-> snd (parse_args ndebug decls args vs f) <> Ret tt.
Proof. exact refused_lemma. Qed.
Print Assumptions C74_refused.

(** the hypotheses hold of the sample; vectors outside the grammar of C01 are read, e.g. a value that
    looks like an option, a flag in the middle of a cluster behind "--", an empty argument *)
Example C74_case : wf_decls sample = true /\ elems_ok sample /\
  map (fun args => match parse_args false sample args vars0 no_fs with
                   | (st, Ret tt) => Some (map (vars st) [0; 1; 2; 3; 4; 5]) | _ => None end)
    [["-l"; "1"; "w"; "--list=2"; "-l3"; "--list"; "4"; "v"]; ["w"; "--"; "--list"; "-xa"]; [""; "w"; ""; "-i=-5"; "-"; "-ba"]; ["-i"; "--list"; "w"; "v"]] =
  [Some [VInt 1; VList [VInt 2; VInt 4]; VBool false; VBool false; VStr "w"; VList [VStr "v"]];
   Some [VInt 1; VList [VInt 7; VInt 8]; VBool true; VBool false; VStr "w"; VList [VStr "--list"; VStr "-x"]];
   Some [VInt (-5); VList [VInt 7; VInt 8]; VBool true; VBool true; VStr "w"; VList [VStr "-"]];
   None].
Proof.
  split; [reflexivity|]. split; [|vm_compute; reflexivity].
  intros t H. repeat (destruct H as [<-|H]; [exact Logic.I|]). destruct H.
Qed.

