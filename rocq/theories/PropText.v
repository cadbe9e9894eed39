(** The parts of the C and C++ standard libraries all other files rest on: characters, numbers, pieces of texts, calls in a
    row (C100). *)
From Verif Require Import Base Values Validators HelpText TextSpec TextProofs.
Local Open Scope Z_scope.

(** isdigit, islower, isupper, isalnum and isspace of the "C" locale *)
Theorem C100_classes : forall c, (is_digit c = true <-> In c (letters_of the_digits)) /\ (is_lower c = true <-> In c (letters_of small_letters)) /\
  (is_upper c = true <-> In c (letters_of capital_letters)) /\ (is_alnum c = true <-> In c (letters_of (small_letters ++ capital_letters ++ the_digits))) /\
  (is_space c = true <-> In c blanks).
Proof. exact classes_lemma. Qed.
Print Assumptions C100_classes.

(** tolower and toupper *)
Theorem C100_case_mapping : forall c,
  (forall i, String.get i capital_letters = Some c -> String.get i small_letters = Some (to_lower c)) /\ (~ In c (letters_of capital_letters) -> to_lower c = c) /\
  (forall i, String.get i small_letters = Some c -> String.get i capital_letters = Some (to_upper c)) /\ (~ In c (letters_of small_letters) -> to_upper c = c).
Proof. exact case_lemma. Qed.
Print Assumptions C100_case_mapping.

(** std::to_string of an integer: its usual notation, nothing else *)
Theorem C100_numbers : forall z s, s = Z_to_string z <-> decimal z s.
Proof. exact decimal_lemma. Qed.
Print Assumptions C100_numbers.

Theorem C100_digits : forall d c, String.get d the_digits = Some c -> digit_val c = Z.of_nat d.
Proof. exact digit_lemma. Qed.
Print Assumptions C100_digits.

(** substr and erase *)
Theorem C100_pieces : forall a b c, stake (String.length a) (a +s+ b) = a /\ sdrop (String.length a) (a +s+ b) = b /\ erase_at (String.length a) (a +s+ String c b) = a +s+ b.
Proof. exact pieces_lemma. Qed.
Print Assumptions C100_pieces.

(** find: the first place *)
Theorem C100_find : forall c s, (forall n, sfind c s = Some n <-> exists a b, s = a +s+ String c b /\ String.length a = n /\ ~ In c (letters_of a)) /\
  (sfind c s = None <-> ~ In c (letters_of s)) /\ (scontains c s = true <-> In c (letters_of s)).
Proof. exact find_lemma. Qed.
Print Assumptions C100_find.

Theorem C100_texts : forall s t f n c l, (starts_with t s = true <-> exists r, s = t +s+ r) /\ (is_empty s = true <-> s = "") /\
  (sall f s = true <-> Forall (fun x => f x = true) (letters_of s)) /\ letters_of (srep n c) = repeat c n /\ (mem s l = true <-> In s l) /\
  letters_of (sconcat l) = flat_map letters_of l /\ letters_of (smap to_upper s) = map to_upper (letters_of s).
Proof. exact texts_lemma. Qed.
Print Assumptions C100_texts.

(** how lists are shown *)
Theorem C100_lists : forall l, bracket l = "[" +s+ String.concat ", " l +s+ "]".
Proof. exact join_lemma. Qed.
Print Assumptions C100_lists.

(** the exceptions of the library, as opposed to those of the standard library *)
Theorem C100_errors : forall k, is_parser_error k = true <-> In k [KUnknownOption; KTooMany; KTooFew; KRequiredMissing; KMultiple; KUserInput; KValidation; KDesign].
Proof. exact errors_lemma. Qed.
Print Assumptions C100_errors.

(** stored calls are made in their order; the first that does not return is the last, and what was done until then stays *)
Theorem C100_calls : forall (St A : Type) (f : A -> M St unit) l s s' r, mapM_ f l s = (s', r) <->
  (r = Ret tt /\ all_return f (Ret tt) l s s') \/ one_fails f (Ret tt) l s s' r.
Proof. intros St A. exact (@calls_lemma St A). Qed.
Print Assumptions C100_calls.

Example C100_case : map Z_to_string [0; 7; -120; 4294967296] = ["0"; "7"; "-120"; "4294967296"] /\ decimal (-120) "-120" /\ ~ decimal 7 "07" /\
  sfind "=" "--a=b=c" = Some 3%nat /\ filter is_space (map ascii_of_nat (seq 0 256)) = blanks /\ smap to_upper "max-Depth" = "MAX-DEPTH" /\ bracket ["a"; "b"] = "[a, b]".
Proof.
  split; [reflexivity|]. split; [now apply decimal_lemma|]. split; [intros H; apply decimal_lemma in H; discriminate H|]. repeat split; vm_compute; reflexivity.
Qed.
Example C100_case_calls : mapM_ (fun a s => if a <? 5 then (s + a, Ret tt) else (s, Throw (Exn KDesign "five"))) [1; 2; 7; 3] 0 = (3, Throw (Exn KDesign "five")) /\
  one_fails (fun a s => if a <? 5 then (s + a, Ret tt) else (s, Throw (Exn KDesign "five"))) (Ret tt) [1; 2; 7; 3] 0 3 (Throw (Exn KDesign "five")).
Proof.
  split; [reflexivity|]. exists [1; 2], 7, [3], 3. split; [reflexivity|]. split; [|split; [reflexivity|discriminate]].
  econstructor; [reflexivity|]. econstructor; [reflexivity|]. constructor.
Qed.
