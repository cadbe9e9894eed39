(** When the order of the declarations of options and flags does not matter: what an argument
    vector must not contain.  Written on the texts only. *)
From Verif Require Import Base Fs Values Validators FormatParse Invocation ReadingSpec.

(** no argument that is exactly the name of an option is followed by an argument that looks like
    another option (this is what both orders disagree about: the first one takes the other as its value) *)
Definition apart (ds : list decl) (l : list string) : Prop :=
  forall d d' i j p w q, In d ds -> In d' ds -> bound_addr d <> bound_addr d' ->
    In i (option_idents d) -> In j (option_idents d') -> l = p ++ dashed i :: w :: q -> looks_like j w = false.

(** a cluster of short flags without a second dash and without the null character *)
Definition neat (a : string) : Prop :=
  forall r, a = String "-" r -> begins "-" r = false -> ~ In "-"%char (chars r) /\ ~ In "000"%char (chars r).

(** whatever the options leave of [b], and everything from "--" on, is neat *)
Definition leaves_neat (ds : list decl) (b r : list string) : Prop :=
  forall wss b1, reads_each (flat_map option_idents ds) b wss b1 -> forall a, In a (b1 ++ r) -> neat a.

(** ** Moving an option with its value *)

(** the option [i] with a value, in one of the spellings; a value of its own does not look like any of the options [ids] *)
Inductive setting (ids : list ident) (i : ident) : list string -> Prop :=
| setting_separate w : (forall k, In k ids -> looks_like k w = false) -> setting ids i [dashed i; w]
| setting_joined w : (exists c, i = IdShort c) -> w <> "" -> begins "=" w = false -> setting ids i [dashed i +s+ w]
| setting_equals w : w <> "" -> setting ids i [dashed i +s+ "=" +s+ w].

(** the last argument is not the name of an option, which would take the next argument as its value *)
Definition complete (ids : list ident) (l : list string) : Prop := forall k, In k ids -> last l "" <> dashed k.

(** the arguments do not mention this name *)
Definition silent (i : ident) (l : list string) : Prop := forall a, In a l -> looks_like i a = false.

(** ** A flag nobody gives *)

(** neither in what the options leave of [b] nor from "--" on is the short name in a cluster, before "--" there is no argument
    which is the long name; clusters are neat (otherwise a long name can be left over from a cluster) *)
Definition unused (ds : list decl) (c : config) (b r : list string) : Prop :=
  forall wss b1, reads_each (flat_map option_idents ds) b wss b1 ->
    (forall a, In a (b1 ++ r) -> neat a /\ looks_like_cluster_of (c_short c) a = false) /\ ~ In ("--" +s+ c_long c) b1.
