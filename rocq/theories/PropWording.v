(** What the version check writes (C50). *)
From Verif Require Import Base StrLib Fs Values Validators FormatParse Parser VersionCheck VersionSpec WordingSpec WordingProofs Samples PropVersion.

(** ** C50: the texts *)

(** In every run, whatever the files contain and whatever the user answers, only the five texts of WordingSpec.v are
    written, to those they are meant for. *)
Theorem C50_wording : forall e m on user st s,
  In (Message s) (vs_log (fst (version_check e m on user st))) -> In (Message s) (vs_log st) \/ may_say e m s.
Proof. exact wording_lemma. Qed.
Print Assumptions C50_wording.

(** Each of them occurs. *)
Example C50_case_wording :
  messages (go (at_ true 1 "") true (Some true) (server_says ("1.2.10" +s+ nl))) = [says_new_version ""]
  /\ messages (go (at_ false 1 "") true (Some true) (server_says ("1.1.9" +s+ nl +s+ "1.2.0" +s+ nl))) = [says_new_library; says_newer_than_registered]
  /\ messages (go (at_ false 1 "") true (Some true) (server_says ("UNREGISTERED_APP" +s+ nl +s+ "1.1.2" +s+ nl))) = [says_unregistered]
  /\ ve_tty (at_ true 1 "n") = true /\ In asks (messages (go (at_ true 1 "n") true None disk)).
Proof. vm_compute. auto 10. Qed.

(** The notices say how to switch them off, except one. *)
Theorem C50_switch_off : forall e m on user f s,
  In (Message s) (vs_log (fst (version_check e m on user {| vs_fs := f; vs_log := [] |}))) ->
  s = asks \/ s = says_newer_than_registered \/ exists p q, s = p +s+ switch_off +s+ String "010" q.
Proof.
  exact (fun e m on user f s H => match string_dec s asks, string_dec s says_newer_than_registered with
    | left E, _ => or_introl E
    | _, left E => or_intror (or_introl E)
    | right A, right B => or_intror (or_intror (match wording_lemma e m on user _ s H with or_introl K => match K with end | or_intror K => switch_off_lemma e m s K A B end))
    end).
Qed.
Print Assumptions C50_switch_off.

Theorem C50_switch_off_refuted : exists e m f s, In (Message s) (vs_log (fst (version_check e m true (Some true) {| vs_fs := f; vs_log := [] |}))) /\
  s <> asks /\ ~ exists p q, s = p +s+ "version-check" +s+ q.
Proof.
  exists (at_ false 1 ""), (app "1.2.3"), (server_says ("1.1.9" +s+ nl +s+ "1.0.0" +s+ nl)), says_newer_than_registered.
  split; [vm_compute; auto 10|]. split; [discriminate|]. intros (p & q & E).
  assert (C : forall t p, t = p +s+ "version-check" +s+ q -> (fix sub t := String.prefix "version-check" t || match t with String _ u => sub u | EmptyString => false end) t = true).
  { clear. induction t as [|c t IH]; intros [|d p] H; try discriminate H.
    - rewrite H. apply orb_true_iff. left. apply prefix_iff. exists q. reflexivity.
    - cbn [append] in H. injection H as -> H. apply orb_true_iff. right. apply (IH p). exact H. }
  apply C in E. vm_compute in E. discriminate E.
Qed.
Print Assumptions C50_switch_off_refuted.
