(** What an element of a list is does not depend on the value it starts from (C02). *)
From Verif Require Import Base StrLib Values.

Lemma elem_fresh e old old' s v : (forall n rd pr, e <> TStream n rd pr) -> parse_elem e old s = POk v PSuccess -> parse_elem e old' s = POk v PSuccess.
Proof.
  assert (F : forall r, of_fc old r = POk v PSuccess -> of_fc old' r = POk v PSuccess) by (intros r; destruct r; cbn; congruence).
  intros N. destruct e; cbn [parse_elem]; auto.
  - repeat (destruct (String.eqb _ _); [auto|]). discriminate.
  - unfold read_path. destruct (skip_space s) as [|c s']; [discriminate|]. destruct (Ascii.eqb c """"); [|auto].
    destruct (read_quoted s' ""); [auto|discriminate].
  - edestruct N; reflexivity.
Qed.

Lemma element_of e l s new : parse_option_value (ListOf e) (VList l) s = POk new PSuccess <->
  exists v, parse_elem e (default_val e) s = POk v PSuccess /\ new = VList (l ++ [v]).
Proof.
  cbn [parse_option_value elems]. destruct (parse_elem e (default_val e) s) as [v r|ex].
  - destruct r; split; try discriminate; try (intros (w & E & _); discriminate E).
    + intros [= <-]. eauto.
    + intros (w & [= <-] & ->). reflexivity.
  - split; [discriminate|]. intros (w & E & _). discriminate E.
Qed.

Lemma element_fresh e l s start new : (forall n rd pr, e <> TStream n rd pr) ->
  (parse_option_value (ListOf e) (VList l) s = POk new PSuccess <->
   exists v, parse_option_value (Scalar e) start s = POk v PSuccess /\ new = VList (l ++ [v])).
Proof. intros N. rewrite element_of. cbn [parse_option_value]. split; intros (v & H & E); exists v; split; eauto using elem_fresh. Qed.

Lemma element_stream n rd pr l s new : parse_option_value (ListOf (TStream n rd pr)) (VList l) s = POk new PSuccess <->
  exists v, rd (VOther "") s = (v, false, true) /\ new = VList (l ++ [v]).
Proof.
  rewrite element_of. cbn [parse_elem default_val]. split; intros (v & H & E); exists v; (split; [|exact E]).
  - destruct (rd (VOther "") s) as [[w fail] eof]. cbn in H. destruct fail, eof; cbn in H; try discriminate. now injection H as ->.
  - now rewrite H.
Qed.
