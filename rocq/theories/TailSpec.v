(** Vocabulary: short flags that are looked for behind "--" (C13). *)
From Verif Require Import Base Invocation.

(** no word of [ws] is a cluster with one of these letters *)
Definition spared (letters : list chr) (ws : list string) : Prop :=
  forall c w, In c letters -> In w ws -> looks_like_cluster_of c w = false.
(** [ws']: as many words as [ws], but letters are missing *)
Definition amount (ws : list string) : nat := fold_right (fun w n => (String.length w + n)%nat) O ws.
Definition robbed (ws ws' : list string) : Prop := List.length ws' = List.length ws /\ (amount ws' < amount ws)%nat.
