(** Proofs about defaults (C58). *)
From Verif Require Import Base StrLib Fs Values ValuesSpec ValuesProofs ValuesProps Validators FormatParse Parser HelpBase HelpSpec HelpOther HelpProps DefaultSpec.

Definition shown_value (t : vty) (v : val) : string :=
  match t with ListOf TString => Values.bracket (map (fun x => quoted (print_stream TString x)) (elems v))
     | Scalar TString => quoted (print_stream TString v) | _ => to_string t v end.

Lemma info_eq t v c : c_default_message c = "" -> c_required c = false ->
  option_info t v c = c_desc c +s+ " Default: " +s+ shown_value t v +s+ (if is_empty (c_vhelp c) then "" else ". " +s+ c_vhelp c).
Proof. intros HM HR. unfold option_info, default_of_value, validator_info, shown_value. rewrite HM, HR. cbn [is_empty]. now rewrite !app_assoc_s. Qed.

Lemma quote_body_length s : (String.length s <= String.length (quote_body s))%nat.
Proof. induction s as [|c s IH]; cbn; [lia|]. destruct (_ || _); cbn; lia. Qed.

Lemma quoted_longer s : (String.length s < String.length (quoted s))%nat.
Proof. unfold quoted. cbn. rewrite length_app_s. pose proof (quote_body_length s). cbn. lia. Qed.

Lemma char_not_read z old : in_type true 8 z -> parse_elem TChar old (print_stream TChar (VInt z)) <> POk (VInt z) PSuccess.
Proof.
  intros H E. cbn [parse_elem print_stream] in E. unfold in_type in H. cbn in H.
  assert (A : (0 <= z mod 256 < 256)%Z) by (apply Z.mod_pos_bound; lia).
  remember (ascii_of_N (Z.to_N (z mod 256))) as c eqn:C.
  assert (N : N_of_ascii c = Z.to_N (z mod 256)) by (subst c; apply N_ascii_embedding; lia). clear C.
  assert (Q : forall c : ascii, match from_chars_int true 8 (str1 c) with FcOk (VInt y) "" => (y < 10)%Z /\ (48 <= Z.of_N (N_of_ascii c) <= 57)%Z | FcOk _ _ => False | _ => True end).
  { clear. intros [[] [] [] [] [] [] [] []]; vm_compute; try exact Logic.I; (split; [reflexivity|split; discriminate]). }
  specialize (Q c). destruct (from_chars_int true 8 (str1 c)); cbn [of_fc] in E; try discriminate E.
  destruct v; try contradiction Q. destruct rest; [|contradiction Q]. injection E as ->. destruct Q as [Q1 Q2]. rewrite N in Q2.
  rewrite Z2N.id in Q2 by lia. destruct (Z.ltb_spec z 0).
  - rewrite <- (Z.mod_unique_pos z 256 (-1) (z + 256)) in Q2; lia.
  - rewrite Z.mod_small in Q2 by lia. lia.
Qed.

Lemma path_refused s old : parse_elem TPath old (quoted s) = POk (VPath s) PError.
Proof.
  cbn [parse_elem]. unfold read_path, quoted. change (skip_space (String """" (quote_body s +s+ """"))) with (String """" (quote_body s +s+ """")). cbv beta iota.
  change (Ascii.eqb """" """") with true. cbv beta iota. change """" with (String """" "") at 1. rewrite unquote_lemma. reflexivity.
Qed.

Lemma scalar_exact e v old : has_type e v -> (parse_elem e old (shown_value (Scalar e) v) = POk v PSuccess <-> read_as_shown e).
Proof.
  intros []; cbn [read_as_shown].
  - split; [auto|]. intros _. now apply integer_round_trip_lemma.
  - split; [|contradiction]. intros E. exfalso. exact (char_not_read z old H E).
  - split; [auto|]. intros _. destruct b; reflexivity.
  - split; [|contradiction]. cbn [parse_elem shown_value print_stream]. intros E. injection E as E. pose proof (quoted_longer s) as L. rewrite E in L. lia.
  - split; [|contradiction]. change (shown_value (Scalar TPath) (VPath s)) with (quoted s). rewrite path_refused. discriminate.
  - split; [auto|]. intros _. rename H0 into Hi. apply in_map_iff in Hi as ((k & z') & E & Hi). cbn in E. subst z'. eapply enum_round_trip_lemma; eauto.
Qed.

Lemma strings_length l : forall x, In x l -> (String.length x < String.length (Values.bracket l))%nat.
Proof.
  assert (J : forall l x, In x l -> (String.length x <= String.length (join_comma l))%nat).
  { clear. induction l as [|a [|b l] IH]; intros x []; [subst; cbn; lia|contradiction| |].
    - subst. change (join_comma (x :: b :: l)) with (x +s+ ", " +s+ join_comma (b :: l)). rewrite length_app_s. lia.
    - change (join_comma (a :: b :: l)) with (a +s+ ", " +s+ join_comma (b :: l)). rewrite !length_app_s. specialize (IH x H). lia. }
  intros x I. specialize (J l x I). unfold Values.bracket. rewrite !length_app_s. cbn. lia.
Qed.

(** a list given as it is shown *)
Lemma list_refused e l old : match e with TInt _ _ | TChar | TBool => True | _ => False end ->
  parse_elem e old (shown_value (ListOf e) (VList l)) = POk old PError.
Proof.
  intros H. assert (S : exists s, shown_value (ListOf e) (VList l) = String "[" s) by (destruct e; try contradiction; eexists; reflexivity).
  destruct S as [s ->]. destruct e; try contradiction; cbn [parse_elem].
  - unfold from_chars_int. change (Ascii.eqb "[" "-") with false. rewrite andb_false_r. reflexivity.
  - reflexivity.
  - reflexivity.
Qed.

Lemma list_of_strings l old : exists d, parse_elem TString old (shown_value (ListOf TString) (VList (map VStr l))) = POk (VStr d) PSuccess /\ l <> [d].
Proof.
  eexists. split; [reflexivity|]. intros E. cbn [shown_value elems] in E. rewrite map_map in E. cbn [print_stream] in E.
  assert (D : exists d, l = [d] /\ d = Values.bracket (map (fun x => quoted x) l)) by (eexists; split; [exact E|reflexivity]).
  destruct D as (d & L & D). rewrite L in D. cbn [map] in D.
  pose proof (strings_length [quoted d] (quoted d) (or_introl eq_refl)) as X. pose proof (quoted_longer d) as Y. rewrite <- D in X. lia.
Qed.
