(** What becomes of one argument in front of "--" that no option reads. *)
From Verif Require Import Base Fs Values Validators FormatParse Invocation ScanSpec.

(** the flags of an interface, in the order of their declaration *)
Definition flag_configs (ds : list decl) : list config := flat_map (fun d => match d with DFlag _ c => [c] | _ => [] end) ds.

(** one flag after the other takes nothing, or the first of its letters from a cluster, or an argument that has become
    its long name; in the end nothing is left or the argument is a word *)
Inductive consumed : list config -> string -> Prop :=
| consumed_end a : a = "" \/ plain_word a -> consumed [] a
| consumed_kept c cs a : consumed cs a -> consumed (c :: cs) a
| consumed_letter c cs p q : looks_like_cluster_of (c_short c) (p +s+ String (c_short c) q) = true -> ~ In (c_short c) (chars p) ->
    consumed cs (if String.eqb (p +s+ q) "-" then "" else p +s+ q) -> consumed (c :: cs) (p +s+ String (c_short c) q)
| consumed_long c cs : consumed (c :: cs) ("--" +s+ c_long c).

(** the same for an argument alone: every flag takes what it can *)
Inductive used_up : list config -> string -> Prop :=
| used_end : used_up [] ""
| used_kept c cs a : looks_like_cluster_of (c_short c) a = false -> a <> "--" +s+ c_long c -> used_up cs a -> used_up (c :: cs) a
| used_letter c cs p q : looks_like_cluster_of (c_short c) (p +s+ String (c_short c) q) = true -> ~ In (c_short c) (chars p) ->
    used_up cs (if String.eqb (p +s+ q) "-" then "" else p +s+ q) -> used_up (c :: cs) (p +s+ String (c_short c) q)
| used_long c cs : used_up (c :: cs) ("--" +s+ c_long c).
