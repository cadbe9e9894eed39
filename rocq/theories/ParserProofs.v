(** Proofs about declarations, histories and the life of a parser. *)
From Verif Require Import Base StrLib Fs Values Validators FormatParse Invocation ValuesSpec ValuesProofs ScanSpec Parser ParserSpec.
From Coq Require Import Sorting.Sorted.

(** ** Generic facts *)

Lemma bind_ret_inv {St A B} (m : M St A) (k : A -> M St B) s s' b :
  bind m k s = (s', Ret b) -> exists s1 a, m s = (s1, Ret a) /\ k a s1 = (s', Ret b).
Proof. unfold bind. destruct (m s) as [s1 [a|e|o| | |]] eqn:E; intros H; try discriminate. eauto. Qed.

Lemma bind_throw_inv {St A B} (m : M St A) (k : A -> M St B) s s' e :
  bind m k s = (s', Throw e) -> m s = (s', Throw e) \/ exists s1 a, m s = (s1, Ret a) /\ k a s1 = (s', Throw e).
Proof. unfold bind. destruct (m s) as [s1 [a|e'|o| | |]] eqn:E; intros H; try discriminate; [right; eauto|left; congruence]. Qed.

Lemma bind_ret_step {St A B} (m : M St A) (k : A -> M St B) s s1 a : m s = (s1, Ret a) -> bind m k s = k a s1.
Proof. unfold bind. intros ->. reflexivity. Qed.

Lemma bind_throw_step {St A B} (m : M St A) (k : A -> M St B) s s1 e : m s = (s1, Throw e) -> bind m k s = (s1, Throw e).
Proof. unfold bind. intros ->. reflexivity. Qed.

Lemma mem_spec s l : mem s l = true <-> In s l.
Proof. apply mem_In. Qed.

Lemma mem_false s l : mem s l = false <-> ~ In s l.
Proof. rewrite <- mem_In. destruct (mem s l); split; intros H; try congruence; exfalso; auto. Qed.

(** ** Identifiers *)

Definition names_of (c : chr) (l : string) : list ident :=
  (if Ascii.eqb c nul then [] else [IdShort c]) ++ (if is_empty l then [] else [IdLong l]).

Lemma names_of_config c : config_idents c = names_of (c_short c) (c_long c).
Proof. reflexivity. Qed.

Lemma is_valid_id_char c : is_valid c = id_char c.
Proof. reflexivity. Qed.

Lemma verify_short_spec c p p' r : verify_short c p = (p', r) ->
  (exists u, p' = set_used_ids u p /\ (forall s, In s u -> In s (used_ids p) \/ (c <> nul /\ s = str1 c)) /\
    (forall s, In s (used_ids p) -> In s u)) /\
  (r = Ret tt \/ exists m, r = Throw (Exn KDesign m)) /\
  (r = Ret tt -> c <> nul -> good_ident (IdShort c) = true /\ ~ In (str1 c) (used_ids p) /\ In (str1 c) (used_ids p')).
Proof.
  assert (Hs : p = set_used_ids (used_ids p) p) by now destruct p.
  unfold verify_short. destruct (Ascii.eqb_spec c nul) as [Hc|Hc]; cbn [ret].
  { intros [= <- <-]. split; [exists (used_ids p); auto|]. split; [now left|]. contradiction. }
  destruct (Ascii.eqb c "-" || negb (is_valid c)) eqn:E.
  { unfold design, throw. intros [= <- <-]. split; [exists (used_ids p); auto|]. split; [right; eexists; reflexivity|]. discriminate. }
  unfold bind, id_exists. cbn [is_empty_id]. destruct (Ascii.eqb_spec c nul) as [|_]; [contradiction|].
  destruct (mem (str1 c) (used_ids p)) eqn:M.
  { unfold design, throw. intros [= <- <-]. split; [exists (used_ids p); auto|]. split; [right; eexists; reflexivity|]. discriminate. }
  cbn [ret]. intros [= <- <-]. split; [|split; [now left|]].
  - exists (str1 c :: used_ids p). split; [reflexivity|]. split; [|cbn; auto]. intros s [<-|H]; auto.
  - intros _ _. apply orb_false_iff in E as [E1 E2]. apply negb_false_iff in E2. rewrite is_valid_id_char in E2.
    split; [cbn [good_ident]; rewrite E1, E2; reflexivity|]. split; [now apply mem_false|]. cbn. auto.
Qed.

Lemma verify_long_spec l p p' r : verify_long l p = (p', r) ->
  (exists u, p' = set_used_ids u p /\ (forall s, In s u -> In s (used_ids p) \/ (l <> "" /\ s = l)) /\
    (forall s, In s (used_ids p) -> In s u)) /\
  (r = Ret tt \/ exists m, r = Throw (Exn KDesign m)) /\
  (r = Ret tt -> l <> "" -> good_ident (IdLong l) = true /\ ~ In l (used_ids p) /\ In l (used_ids p')).
Proof.
  assert (Hs : p = set_used_ids (used_ids p) p) by now destruct p.
  unfold verify_long. destruct (is_empty l) eqn:Hl; cbn [ret].
  { apply is_empty_iff in Hl. intros [= <- <-]. split; [exists (used_ids p); auto|]. split; [now left|]. contradiction. }
  apply is_empty_false in Hl.
  destruct (String.length l =? 1)%nat eqn:E1.
  { unfold design, throw. intros [= <- <-]. split; [exists (used_ids p); auto|]. split; [right; eexists; reflexivity|]. discriminate. }
  destruct (match snth 0 l with Some c => Ascii.eqb c "-" | None => false end) eqn:E2.
  { unfold design, throw. intros [= <- <-]. split; [exists (used_ids p); auto|]. split; [right; eexists; reflexivity|]. discriminate. }
  destruct (negb (sall is_valid l)) eqn:E3.
  { unfold design, throw. intros [= <- <-]. split; [exists (used_ids p); auto|]. split; [right; eexists; reflexivity|]. discriminate. }
  unfold bind, id_exists. cbn [is_empty_id]. rewrite (proj2 (is_empty_false l) Hl).
  destruct (mem l (used_ids p)) eqn:M.
  { unfold design, throw. intros [= <- <-]. split; [exists (used_ids p); auto|]. split; [right; eexists; reflexivity|]. discriminate. }
  cbn [ret]. intros [= <- <-]. split; [|split; [now left|]].
  - exists (l :: used_ids p). split; [reflexivity|]. split; [|cbn; auto]. intros s [<-|H]; auto.
  - intros _ _. apply negb_false_iff in E3. split; [|split; [now apply mem_false|cbn; auto]].
    cbn [good_ident]. change id_char with is_valid. rewrite E3. destruct l as [|a [|b l]]; [contradiction|discriminate|].
    cbn in E2. rewrite E2. reflexivity.
Qed.

Lemma id_name_short_long c l : good_ident (IdLong l) = true -> str1 c <> l.
Proof. cbn. intros H <-. cbn in H. discriminate. Qed.

Lemma verify_identifiers_spec c l p p' r : verify_identifiers c l p = (p', r) ->
  (exists u, p' = set_used_ids u p /\ (forall s, In s u -> In s (used_ids p) \/ In s (map id_name (names_of c l))) /\
    (forall s, In s (used_ids p) -> In s u)) /\
  (r = Ret tt \/ exists m, r = Throw (Exn KDesign m)) /\
  (r = Ret tt ->
     forallb good_ident (names_of c l) = true /\ NoDup (map id_name (names_of c l)) /\
     names_of c l <> [] /\
     (forall n, In n (map id_name (names_of c l)) -> ~ In n (used_ids p) /\ In n (used_ids p'))).
Proof.
  assert (Hs : p = set_used_ids (used_ids p) p) by now destruct p.
  unfold verify_identifiers. destruct (Ascii.eqb c nul && is_empty l) eqn:Z.
  { unfold design, throw. intros [= <- <-]. split; [exists (used_ids p); auto|]. split; [right; eexists; reflexivity|]. discriminate. }
  unfold bind. destruct (verify_short c p) as [p1 r1] eqn:V1.
  destruct (verify_short_spec _ _ _ _ V1) as ((u1 & E1 & Hu1 & Hu1') & [->|[m ->]] & K1).
  2:{ intros [= <- <-]. split; [|split; [right; eexists; reflexivity|discriminate]].
      exists u1. split; [exact E1|]. split; [|exact Hu1'].
      intros s H. destruct (Hu1 s H) as [|[H1 H2]]; [auto|]. right. unfold names_of.
      destruct (Ascii.eqb_spec c nul); [contradiction|]. cbn. auto. }
  intros V2. destruct (verify_long_spec _ _ _ _ V2) as ((u2 & E2 & Hu2 & Hu2') & R & K2).
  assert (U1 : used_ids p1 = u1) by (rewrite E1; reflexivity).
  split; [|split; [exact R|]].
  - exists u2. rewrite E2, E1. split; [reflexivity|]. rewrite U1 in *. split; [|auto].
    intros s H. destruct (Hu2 s H) as [H'|[H1 H2]].
    + destruct (Hu1 s H') as [|[H1 H2]]; [auto|]. right. unfold names_of.
      destruct (Ascii.eqb_spec c nul); [contradiction|]. cbn. auto.
    + right. unfold names_of. rewrite (proj2 (is_empty_false l) H1). rewrite map_app. apply in_or_app. right. cbn. auto.
  - intros ->. specialize (K1 eq_refl). specialize (K2 eq_refl).
    unfold names_of. destruct (Ascii.eqb_spec c nul) as [Hc|Hc]; destruct (is_empty l) eqn:Hl.
    + discriminate Z.
    + apply is_empty_false in Hl. destruct (K2 Hl) as (G & N & I). cbn [app map forallb].
      repeat split.
      * now rewrite G.
      * repeat constructor. tauto.
      * discriminate.
      * destruct H as [<-|[]]. cbn [id_name]. intros HH. apply N. rewrite U1. auto.
      * destruct H as [<-|[]]. exact I.
    + destruct (K1 Hc) as (G & N & I). cbn [app map forallb]. rewrite E2. cbn [used_ids set_used_ids]. repeat split.
      * now rewrite G.
      * repeat constructor. tauto.
      * discriminate.
      * destruct H as [<-|[]]. exact N.
      * destruct H as [<-|[]]. cbn [id_name]. rewrite U1 in Hu2', I. auto.
    + apply is_empty_false in Hl. destruct (K1 Hc) as (G & N & I). destruct (K2 Hl) as (G' & N' & I').
      cbn [app map forallb]. repeat split.
      * now rewrite G, G'.
      * constructor; [|repeat constructor; tauto]. cbn [id_name]. intros [H|[]]. apply (id_name_short_long c) in G'. congruence.
      * discriminate.
      * destruct H as [<-|[<-|[]]]; cbn [id_name]; [exact N|]. intros HH. apply N'. rewrite U1. auto.
      * destruct H as [<-|[<-|[]]]; cbn [id_name]; [|exact I']. rewrite E2. cbn. rewrite U1 in Hu2', I. auto.
Qed.

(** ** Declarations *)

(** the parser apart from used_ids and options *)
Definition but_ids (p q : parser) : Prop := q = set_options (options q) (set_used_ids (used_ids q) p).

Lemma but_ids_refl p : but_ids p p.
Proof. now destruct p. Qed.
Lemma but_ids_trans p q r : but_ids p q -> but_ids q r -> but_ids p r.
Proof. unfold but_ids. intros H1 H2. rewrite H2, H1. reflexivity. Qed.
Lemma but_ids_used u p : but_ids p (set_used_ids u p).
Proof. now destruct p. Qed.
Lemma but_ids_options u p : but_ids p (set_options u p).
Proof. now destruct p. Qed.
#[export] Hint Resolve but_ids_refl but_ids_used but_ids_options : core.

Definition dash_names (c : config) : list string := map dashed (config_idents c).

(** what a call that declares something does *)
Record declares (ids : list ident) (opts : list string) (p p' : parser) (r : res unit) : Prop := {
  dc_out : r = Ret tt \/ exists m, r = Throw (Exn KDesign m);
  dc_used : forall s, In s (used_ids p') -> In s (used_ids p) \/ In s (map id_name ids);
  dc_used' : forall s, In s (used_ids p) -> In s (used_ids p');
  dc_opts : forall s, In s (options p') -> In s (options p) \/ In s opts;
  dc_opts' : forall s, In s (options p) -> In s (options p');
  dc_throw : r <> Ret tt -> but_ids p p';
  dc_ok : r = Ret tt ->
    forallb good_ident ids = true /\ NoDup (map id_name ids) /\
    (forall n, In n (map id_name ids) -> ~ In n (used_ids p) /\ In n (used_ids p')) /\
    (forall o, In o opts -> In o (options p')) }.

Lemma declares_same ids opts p m : declares ids opts p p (Throw (Exn KDesign m)).
Proof. constructor; try (now auto); try discriminate. right. eexists. reflexivity. Qed.

Lemma check_spec fn p : check_parse_not_called fn p =
  if parse_was_called p then (p, Throw (Exn KDesign (fn +s+ " may only be used before calling parse()."))) else (p, Ret tt).
Proof. unfold check_parse_not_called, design, throw, ret. now destruct (parse_was_called p). Qed.

Lemma verify_option_spec c p p' r : verify_option_config c p = (p', r) -> 
  declares (config_idents c) (dash_names c) p p' r /\ but_ids p p'.
Proof.
  unfold verify_option_config. unfold bind at 1.
  destruct (verify_identifiers (c_short c) (c_long c) p) as [p1 r1] eqn:V.
  destruct (verify_identifiers_spec _ _ _ _ _ V) as ((u & E1 & Hu & Hu') & [->|[m ->]] & K).
  2:{ intros [= <- <-]. subst p1. split; [|auto]. constructor; cbn; auto; try discriminate. right; eexists; reflexivity. }
  specialize (K eq_refl). destruct K as (G & N & _ & D). intros H.
  assert (exists o, p' = set_options o p1 /\ (forall s, In s o <-> In s (options p1) \/ In s (dash_names c)) /\
            (r = Ret tt \/ exists m, r = Throw (Exn KDesign m))) as (o & Ep & Ho & Hr).
  { revert H. unfold dash_names. rewrite names_of_config. unfold names_of, register, bind, modify, ret, design, throw.
    destruct (Ascii.eqb (c_short c) nul) eqn:Z; destruct (is_empty (c_long c)) eqn:L;
      destruct (c_required c && negb (is_empty (c_default_message c))); intros [= <- <-];
      (match goal with |- exists o, ?q = _ /\ _ => exists (options q) end; split; [destruct p1; reflexivity|]); (split; [|eauto]); intros s; cbn; intuition. }
  subst p' p1. split; [|eapply but_ids_trans; [apply but_ids_used|apply but_ids_options]].
  constructor; cbn; auto.
  - intros s Hs. apply Ho in Hs. exact Hs.
  - intros s Hs. apply Ho. auto.
  - intros _. now destruct p.
  - intros _. split; [exact G|]. split; [exact N|]. split; [exact D|]. intros s Hs. apply Ho. auto.
Qed.

Lemma verify_flag_spec c p p' r : verify_flag_config c p = (p', r) -> declares (config_idents c) [] p p' r /\ but_ids p p'.
Proof.
  unfold verify_flag_config. unfold bind at 1.
  destruct (verify_identifiers (c_short c) (c_long c) p) as [p1 r1] eqn:V.
  destruct (verify_identifiers_spec _ _ _ _ _ V) as ((u & E1 & Hu & Hu') & [->|[m ->]] & K).
  2:{ intros [= <- <-]. subst p1. split; [|auto]. constructor; cbn; auto; try discriminate. right; eexists; reflexivity. }
  specialize (K eq_refl). destruct K as (G & N & _ & D). intros H.
  assert (p' = p1 /\ (r = Ret tt \/ exists m, r = Throw (Exn KDesign m))) as (Ep & Hr).
  { revert H. unfold bind, modify, ret, design, throw.
    destruct (negb (is_empty (c_default_message c))); intros [= <- <-]; eauto. }
  subst p' p1. split; [|auto]. constructor; cbn; auto.
  intros _. split; [exact G|]. split; [exact N|]. split; [exact D|]. tauto.
Qed.

Definition pushed (o : op) (p : parser) : parser := set_operations (operations p ++ [(self p, o)]) p.

Lemma defer_eq o p : defer o p = (pushed o p, Ret tt).
Proof. reflexivity. Qed.

(** add_option: rejected with nothing changed but identifiers, or accepted *)
Lemma add_option_spec x t c p p' r : add_option x t c p = (p', r) ->
  declares (config_idents c) (dash_names c) p p' r /\
  (r = Ret tt -> parse_was_called p = false /\ exists q, but_ids p q /\ p' = pushed (OpDecl (DOption x t c)) q).
Proof.
  unfold add_option. unfold bind at 1. rewrite check_spec. destruct (parse_was_called p) eqn:C.
  { intros [= <- <-]. split; [apply declares_same|discriminate]. }
  unfold bind. destruct (verify_option_config c p) as [p1 r1] eqn:V.
  destruct (verify_option_spec _ _ _ _ V) as [D B]. destruct r1 as [[]|e|o| | |].
  2:{ intros [= <- <-]. split; [destruct D; constructor; auto; discriminate|discriminate]. }
  2-5: destruct (dc_out _ _ _ _ _ D) as [H|[m H]]; discriminate H.
  rewrite defer_eq. intros [= <- <-]. split; [|eauto].
  destruct D. constructor; cbn; auto. congruence.
Qed.

Lemma add_flag_spec value x c p p' r : add_flag value x c p = (p', r) ->
  declares (config_idents c) [] p p' r /\
  (r = Ret tt -> parse_was_called p = false /\ value = false /\ exists q, but_ids p q /\ p' = pushed (OpDecl (DFlag x c)) q).
Proof.
  unfold add_flag. unfold bind at 1. rewrite check_spec. destruct (parse_was_called p) eqn:C.
  { intros [= <- <-]. split; [apply declares_same|discriminate]. }
  unfold bind. destruct (verify_flag_config c p) as [p1 r1] eqn:V.
  destruct (verify_flag_spec _ _ _ _ V) as [D B]. destruct r1 as [[]|e|o| | |].
  2:{ intros [= <- <-]. split; [destruct D; constructor; auto; discriminate|discriminate]. }
  2-5: destruct (dc_out _ _ _ _ _ D) as [H|[m H]]; discriminate H.
  destruct value; unfold design, throw, ret.
  { intros [= <- <-]. split; [|discriminate]. destruct D. constructor; auto; try discriminate. right; eexists; reflexivity. }
  rewrite defer_eq. intros [= <- <-]. split; [|eauto].
  destruct D. constructor; cbn; auto. congruence.
Qed.

Lemma verify_positional_spec c p : 
  (exists m, verify_positional_option_config c p = (p, Throw (Exn KDesign m))) \/
  (verify_positional_option_config c p = (p, Ret tt) /\ config_idents c = [] /\ c_advanced c = false /\ c_hidden c = false /\
   subcommands p = [] /\ has_positional_list_option p = false /\ c_default_message c = "").
Proof.
  unfold verify_positional_option_config, design, throw, ret, config_idents.
  destruct (Ascii.eqb (c_short c) nul); [|left; eexists; reflexivity].
  destruct (is_empty (c_long c)); [|left; eexists; reflexivity].
  destruct (c_advanced c); [left; eexists; reflexivity|].
  destruct (c_hidden c); [left; eexists; reflexivity|].
  destruct (subcommands p); [|left; eexists; reflexivity].
  destruct (has_positional_list_option p); [left; eexists; reflexivity|].
  destruct (c_default_message c); [right|left; eexists; reflexivity]. cbn. auto 10.
Qed.

Lemma add_positional_spec x t c p p' r : add_positional_option x t c p = (p', r) ->
  (p' = p /\ exists m, r = Throw (Exn KDesign m)) \/
  (r = Ret tt /\ parse_was_called p = false /\ config_idents c = [] /\ subcommands p = [] /\ has_positional_list_option p = false /\
   p' = pushed (OpDecl (DPositional x t c)) (set_has_list (is_container t) p)).
Proof.
  unfold add_positional_option. unfold bind at 1. rewrite check_spec. destruct (parse_was_called p) eqn:C.
  { intros [= <- <-]. left. eauto. }
  unfold bind at 1. destruct (verify_positional_spec c p) as [[m ->]|(-> & H1 & H2 & H3 & H4 & H5 & H6)].
  { intros [= <- <-]. left. eauto. }
  unfold bind. destruct (is_container t).
  - unfold modify. rewrite defer_eq. intros [= <- <-]. right. auto 10.
  - unfold ret. rewrite defer_eq. intros [= <- <-]. right. replace (set_has_list false p) with p; [auto 10|].
    destruct p; cbn in *. now rewrite H5.
Qed.

(** ** Histories *)

Definition section_op (c : call) : option op :=
  match c with
  | CAddSection s a => Some (OpSection s a)
  | CAddSubsection s a => Some (OpSubsection s a)
  | CAddLine s b a => Some (OpLine s b a)
  | CAddListItem k d a => Some (OpListItem k d a)
  | _ => None
  end.

Section hist.
Variable ndebug : bool.
Variable bk : backend.

Notation step := (step ndebug bk).
Notation run := (run ndebug bk).

Definition with_parser (p : parser) (w : world) : world := {| w_parser := p; w_vars := w_vars w; w_fs := w_fs w |}.

Lemma with_parser_same w : with_parser (w_parser w) w = w.
Proof. now destruct w. Qed.

Lemma on_parser_ret {A} (m : M parser A) w w' r :
  on_parser m w = (w', r) -> exists p', m (w_parser w) = (p', r) /\ w' = with_parser p' w.
Proof. unfold on_parser. destruct (m (w_parser w)) as [p' r']. intros [= <- <-]. eauto. Qed.

Lemma on_parser_true {A} (m : M parser A) w w' r :
  (on_parser m ;; ret true) w = (w', r) -> exists p' ra, m (w_parser w) = (p', ra) /\ w' = with_parser p' w /\
    ((exists a, ra = Ret a /\ r = Ret true) \/ (forall a, ra <> Ret a) /\ forall b, r <> Ret b).
Proof.
  unfold bind. destruct (on_parser m w) as [w1 r1] eqn:E. apply on_parser_ret in E as (p' & E & ->).
  destruct r1; cbn [ret]; intros [= <- <-]; eexists _, _; (split; [exact E|]); (split; [reflexivity|]).
  1: left; eauto.
  all: right; split; intros; discriminate.
Qed.

Lemma step_option x t c w w' r : step (CAddOption x t c) w = (w', r) -> exists p' ra, add_option x t c (w_parser w) = (p', ra) /\
  w' = with_parser p' w /\ (returned r = true <-> ra = Ret tt).
Proof.
  intros H. apply on_parser_true in H as (p' & ra & H & -> & [([] & -> & ->)|[H1 H2]]); eexists _, _; (split; [exact H|]);
    (split; [reflexivity|]); [cbn; tauto|]. split; intros K; [|now apply H1 in K]. destruct r; try discriminate. now edestruct H2.
Qed.
Lemma step_flag x c w w' r : step (CAddFlag x c) w = (w', r) -> exists p' ra, add_flag (as_bool (w_vars w x)) x c (w_parser w) = (p', ra) /\
  w' = with_parser p' w /\ (returned r = true <-> ra = Ret tt).
Proof.
  intros H. apply on_parser_true in H as (p' & ra & H & -> & [([] & -> & ->)|[H1 H2]]); eexists _, _; (split; [exact H|]);
    (split; [reflexivity|]); [cbn; tauto|]. split; intros K; [|now apply H1 in K]. destruct r; try discriminate. now edestruct H2.
Qed.
Lemma step_positional x t c w w' r : step (CAddPositional x t c) w = (w', r) -> exists p' ra, add_positional_option x t c (w_parser w) = (p', ra) /\
  w' = with_parser p' w /\ (returned r = true <-> ra = Ret tt).
Proof.
  intros H. apply on_parser_true in H as (p' & ra & H & -> & [([] & -> & ->)|[H1 H2]]); eexists _, _; (split; [exact H|]);
    (split; [reflexivity|]); [cbn; tauto|]. split; intros K; [|now apply H1 in K]. destruct r; try discriminate. now edestruct H2.
Qed.

Lemma step_section c o w w' r : section_op c = Some o -> step c w = (w', r) ->
  (parse_was_called (w_parser w) = true /\ w' = w /\ exists m, r = Throw (Exn KDesign m)) \/
  (parse_was_called (w_parser w) = false /\ w' = with_parser (pushed o (w_parser w)) w /\ r = Ret true).
Proof.
  destruct c; try discriminate; intros [= <-]; cbn [Parser.step];
    unfold add_section, add_subsection, add_line, add_list_item, bind, on_parser; rewrite check_spec;
    destruct (parse_was_called (w_parser w)) eqn:E; intros [= <- <-];
    try (left; split; [reflexivity|]; split; [now destruct w|]; eexists; reflexivity); right; auto.
Qed.

(** *** Fields parse() does not change *)

Record kept (p p' : parser) : Prop := {
  kept_self : self p' = self p;
  kept_gone : gone p' = gone p;
  kept_info : info p' = info p;
  kept_list : has_positional_list_option p' = has_positional_list_option p;
  kept_dev : dev_decision p' = dev_decision p;
  kept_subs : subcommands p' = subcommands p;
  kept_used : used_ids p' = used_ids p;
  kept_args : arguments p' = arguments p;
  kept_opts : options p' = options p;
  kept_ops : operations p' = operations p }.

Lemma kept_refl p : kept p p.
Proof. constructor; reflexivity. Qed.
Lemma kept_trans p q r : kept p q -> kept q r -> kept p r.
Proof. intros [] []. constructor; congruence. Qed.

Ltac keep := constructor; reflexivity.

Definition keeps {A} (m : M parser A) : Prop := forall p, kept p (fst (m p)).

Lemma keeps_ret {A} (a : A) : keeps (ret a).
Proof. intros p. apply kept_refl. Qed.
Lemma keeps_throw {A} k m : keeps (@throw parser A k m).
Proof. intros p. apply kept_refl. Qed.
Lemma keeps_bind {A B} (m : M parser A) (k : A -> M parser B) : keeps m -> (forall a, keeps (k a)) -> keeps (bind m k).
Proof.
  intros H1 H2 p. unfold bind. specialize (H1 p). destruct (m p) as [p1 [a|e|o| | |]]; cbn [fst] in *; auto.
  eapply kept_trans; [exact H1|]. apply H2.
Qed.

Lemma keeps_found arg rest : keeps (found_subcommand arg rest).
Proof.
  intros p. unfold found_subcommand. destruct (subcommands p) eqn:E; [apply kept_refl|]. rewrite <- E.
  destruct (mem arg (subcommands p)); [keep|]. destruct (negb (starts_with "-" arg)); apply kept_refl.
Qed.

Lemma keeps_export v : keeps (export_format bk v).
Proof.
  intros p. unfold export_format, select, modify, throw.
  repeat (destruct (String.eqb v _); [keep|]). apply kept_refl.
Qed.
Lemma keeps_check v : keeps (version_check_value v).
Proof.
  intros p. unfold version_check_value, modify, throw.
  destruct (_ || _); [keep|]. destruct (_ || _); [keep|]. apply kept_refl.
Qed.

Lemma keeps_scan l : forall n, List.length l <= n -> keeps (scan_arguments bk l).
Proof.
  intros n. revert l. induction n as [|n IH]; intros l Hl; [destruct l; [|cbn in Hl; lia]; intros p; apply kept_refl|].
  destruct l as [|arg l]; [intros p; apply kept_refl|]. cbn in Hl.
  assert (IH1 : keeps (scan_arguments bk l)) by (apply IH; lia).
  assert (IH2 : forall v l'', l = v :: l'' -> keeps (scan_arguments bk l'')).
  { intros v l'' ->. apply IH. cbn in Hl. lia. }
  intros p. cbn [scan_arguments]. destruct (mem arg (options p)).
  - apply keeps_bind; [intros q; keep|]. intros _. destruct l as [|v l'']; [apply keeps_ret|].
    apply keeps_bind; [intros q; keep|]. intros _. eapply IH2; reflexivity.
  - apply keeps_bind; [apply keeps_found|]. intros found. destruct found; [apply keeps_ret|].
    repeat match goal with
    | |- keeps (if ?b then _ else _) => destruct b
    | |- keeps (bind (select _) _) => apply keeps_bind; [intros q; keep|intros _]
    | |- keeps (bind (push_arg _) _) => apply keeps_bind; [intros q; keep|intros _]
    | |- keeps (bind (export_format _ _) _) => apply keeps_bind; [apply keeps_export|intros _]
    | |- keeps (bind (version_check_value _) _) => apply keeps_bind; [apply keeps_check|intros _]
    | |- keeps (match l with _ => _ end) => destruct l as [|v l'']
    | |- keeps (throw _ _) => apply keeps_throw
    end; first [exact IH1 | eapply IH2; reflexivity].
Qed.

Lemma keeps_settle : keeps settle_format.
Proof.
  intros p. unfold settle_format, modify. cbn [fst]. destruct (fmt p); try apply kept_refl.
  destruct (format_arguments p); [destruct (sub_parser p); [keep|apply kept_refl]|keep].
Qed.

Lemma keeps_determine : keeps (determine_format_and_subcommand ndebug bk).
Proof.
  intros p. unfold determine_format_and_subcommand. destruct (arguments p); [apply kept_refl|].
  apply keeps_bind; [intros q; keep|]. intros _. apply keeps_bind; [eapply keeps_scan; reflexivity|]. intros _. apply keeps_settle.
Qed.

Lemma keeps_names : keeps verify_app_and_subcommand_names.
Proof.
  intros p. unfold verify_app_and_subcommand_names. destruct (negb _); [apply kept_refl|]. destruct (negb _); apply kept_refl.
Qed.

(** parse() keeps these fields, and the flag parse_was_called is up afterwards *)
Lemma parse_format_parser l w : w_parser (fst (parse_format ndebug bk l w)) = w_parser w.
Proof.
  unfold parse_format. destruct (fmt (w_parser w)); try reflexivity.
  destruct (parse_args _ _ _ _ _) as [st r]. reflexivity.
Qed.
Lemma version_check_parser w : w_parser (fst (run_version_check bk w)) = w_parser w.
Proof. unfold run_version_check. destruct (bk_version_check _ _ _ _ _) as [f r]. reflexivity. Qed.

Definition keepw {A} (m : M world A) : Prop := forall w, kept (w_parser w) (w_parser (fst (m w))) /\
  (parse_was_called (w_parser w) = true -> parse_was_called (w_parser (fst (m w))) = true).

Lemma keepw_bind {A B} (m : M world A) (k : A -> M world B) : keepw m -> (forall a, keepw (k a)) -> keepw (bind m k).
Proof.
  intros H1 H2 w. unfold bind. specialize (H1 w). destruct (m w) as [w1 [a|e|o| | |]]; cbn [fst] in *; auto.
  specialize (H2 a w1). destruct H1, H2. split; [eapply kept_trans; eauto|auto].
Qed.

Definition keeps_flag {A} (m : M parser A) : Prop := forall p, parse_was_called p = true -> parse_was_called (fst (m p)) = true.

Lemma flag_bind {A B} (m : M parser A) (k : A -> M parser B) : keeps_flag m -> (forall a, keeps_flag (k a)) -> keeps_flag (bind m k).
Proof.
  intros H1 H2 p Hp. unfold bind. specialize (H1 p Hp). destruct (m p) as [p1 [a|e|o| | |]]; cbn [fst] in *; auto. now apply H2.
Qed.

Lemma flag_scan_arguments n : forall l, List.length l <= n -> keeps_flag (scan_arguments bk l).
Proof.
  induction n as [|n IH]; intros l Hl; [destruct l; [|cbn in Hl; lia]; intros p; auto|].
  destruct l as [|arg l]; [intros p; auto|]. cbn in Hl.
  assert (IH1 : keeps_flag (scan_arguments bk l)) by (apply IH; lia).
  assert (IH2 : forall v l'', l = v :: l'' -> keeps_flag (scan_arguments bk l'')).
  { intros v l'' ->. apply IH. cbn in Hl. lia. }
  intros p Hp. cbn [scan_arguments]. revert p Hp.
  assert (HE : forall v, keeps_flag (export_format bk v)).
  { intros v p Hp. unfold export_format, select, modify, throw. repeat (destruct (String.eqb v _); [exact Hp|]). exact Hp. }
  assert (HC : forall v, keeps_flag (version_check_value v)).
  { intros v p Hp. unfold version_check_value, modify, throw. destruct (_ || _); [exact Hp|]. destruct (_ || _); exact Hp. }
  assert (HF : keeps_flag (found_subcommand arg (arg :: l))).
  { intros p Hp. unfold found_subcommand. destruct (subcommands p) eqn:E; [exact Hp|]. rewrite <- E.
    destruct (mem arg (subcommands p)); [exact Hp|]. destruct (negb (starts_with "-" arg)); exact Hp. }
  intros p Hp. destruct (mem arg (options p)).
  - apply flag_bind; [intros q Hq; exact Hq| |exact Hp]. intros _. destruct l as [|v l'']; [intros q Hq; exact Hq|].
    apply flag_bind; [intros q Hq; exact Hq|]. intros _. eapply IH2; reflexivity.
  - apply flag_bind; [exact HF| |exact Hp]. intros found. destruct found; [intros q Hq; exact Hq|].
    repeat match goal with
    | |- keeps_flag (if ?b then _ else _) => destruct b
    | |- keeps_flag (bind (select _) _) => apply flag_bind; [intros q Hq; exact Hq|intros _]
    | |- keeps_flag (bind (push_arg _) _) => apply flag_bind; [intros q Hq; exact Hq|intros _]
    | |- keeps_flag (bind (export_format _ _) _) => apply flag_bind; [apply HE|intros _]
    | |- keeps_flag (bind (version_check_value _) _) => apply flag_bind; [apply HC|intros _]
    | |- keeps_flag (match l with _ => _ end) => destruct l as [|v l'']
    | |- keeps_flag (throw _ _) => intros q Hq; exact Hq
    end; first [exact IH1 | eapply IH2; reflexivity].
Qed.

Lemma flag_determine : keeps_flag (determine_format_and_subcommand ndebug bk).
Proof.
  intros p Hp. unfold determine_format_and_subcommand. destruct (arguments p); [exact Hp|].
  apply flag_bind; [intros q Hq; exact Hq| |exact Hp]. intros _. apply flag_bind; [eapply flag_scan_arguments; reflexivity|]. intros _ q Hq.
  unfold settle_format, modify. cbn [fst]. destruct (fmt q); try exact Hq.
  destruct (format_arguments q); [destruct (sub_parser q)|]; exact Hq.
Qed.

Lemma flag_names : keeps_flag verify_app_and_subcommand_names.
Proof.
  intros p Hp. unfold verify_app_and_subcommand_names. destruct (negb _); [exact Hp|]. destruct (negb _); exact Hp.
Qed.

Lemma keepw_parser {A} (m : M parser A) : keeps m -> keeps_flag m -> keepw (on_parser m).
Proof.
  intros H1 H2 w. unfold on_parser. specialize (H1 (w_parser w)). specialize (H2 (w_parser w)).
  destruct (m (w_parser w)) as [p r]. cbn in *. auto.
Qed.

Lemma keepw_same {A} (m : M world A) : (forall w, w_parser (fst (m w)) = w_parser w) -> keepw m.
Proof. intros H w. rewrite H. split; [apply kept_refl|auto]. Qed.

Lemma parse_keeps w : kept (w_parser w) (w_parser (fst (parse ndebug bk w))) /\
  parse_was_called (w_parser (fst (parse ndebug bk w))) = true.
Proof.
  unfold parse. destruct (parse_was_called (w_parser w)) eqn:E.
  { cbn. split; [apply kept_refl|exact E]. }
  unfold bind at 1. unfold on_parser at 1, modify at 1.
  set (w1 := {| w_parser := set_called true (w_parser w); w_vars := w_vars w; w_fs := w_fs w |}).
  match goal with |- kept _ (w_parser (fst (?m w1))) /\ _ => assert (K : keepw m) end.
  { apply keepw_bind; [apply keepw_parser; [apply keeps_names|apply flag_names]|]. intros _.
    apply keepw_bind; [apply keepw_parser; [apply keeps_determine|apply flag_determine]|]. intros _.
    apply keepw_bind; [apply keepw_same; reflexivity|]. intros l.
    apply keepw_bind; [apply keepw_same; apply version_check_parser|]. intros _.
    apply keepw_same. apply parse_format_parser. }
  destruct (K w1) as [K1 K2]. split; [|apply K2; reflexivity].
  eapply kept_trans; [|exact K1]. keep.
Qed.

(** *** The effect of one call on a parser *)

(** calls that do not declare, shape or parse *)
Definition quiet_call (c : call) : bool :=
  match c with CIsSet _ | CSub _ | CInfo _ | CMove _ _ | CAssign _ _ | CFs _ => true | _ => false end.

Lemma is_option_set_parser i p : fst (is_option_set i p) = p.
Proof.
  unfold is_option_set. destruct (negb (parse_was_called p)); [reflexivity|].
  destruct (match i with IdLong _ => _ | _ => _ end); [reflexivity|]. destruct (negb _); reflexivity.
Qed.

Lemma step_quiet c w : quiet_call c = true ->
  let p := w_parser w in let p' := w_parser (fst (step c w)) in
  has_positional_list_option p' = has_positional_list_option p /\ subcommands p' = subcommands p /\ used_ids p' = used_ids p /\
  options p' = options p /\ operations p' = operations p /\ parse_was_called p' = parse_was_called p /\ arguments p' = arguments p.
Proof.
  destruct c; try discriminate; intros _; cbn zeta.
  - cbn [Parser.step]. unfold on_parser. pose proof (is_option_set_parser i (w_parser w)).
    destruct (is_option_set i (w_parser w)) as [p' r]. cbn in *. subst. auto 10.
  - cbn [Parser.step]. unfold get_sub_parser. destruct (sub_parser (w_parser w)) as [q|]; [|cbn; auto 10].
    destruct (Parser.step _ _ _ _) as [w' r]. cbn. auto 10.
  - cbn. auto 10.
  - cbn. auto 10.
  - cbn. auto 10.
  - cbn. auto 10.
Qed.

(** the invariant of a parser with accepted declarations [ds] and subcommands added [subs] *)
Record good_state (ds : list decl) (subs : list string) (p : parser) : Prop := {
  gs_good : forallb good_ident (flat_map decl_idents ds) = true;
  gs_nodup : NoDup (decl_names ds);
  gs_used : forall n, In n (decl_names ds) -> In n (used_ids p);
  gs_reserved : forall n, In n reserved -> In n (used_ids p);
  gs_fresh : forall n, In n (decl_names ds) -> ~ In n reserved;
  gs_list : list_last (pos_types ds) = true;
  gs_flag : has_positional_list_option p = false -> forallb (fun t => negb (is_container t)) (pos_types ds) = true;
  gs_options : forall n, In n (map dashed (flat_map option_idents ds)) -> In n (options p);
  gs_subs : forall s, In s (subcommands p) <-> In s subs;
  gs_ops : ops_decls (map snd (operations p)) = ds }.

Lemma pos_types_app a b : pos_types (a ++ b) = pos_types a ++ pos_types b.
Proof. apply flat_map_app. Qed.

Lemma list_last_app ts t : forallb (fun t => negb (is_container t)) ts = true -> list_last (ts ++ [t]) = true.
Proof.
  induction ts as [|s ts IH]; cbn [forallb app]; intros H; [reflexivity|].
  apply andb_true_iff in H as [H1 H2]. specialize (IH H2). cbn [list_last]. destruct (ts ++ [t]) eqn:E; [reflexivity|].
  now rewrite H1, IH.
Qed.

Lemma decl_names_app a b : decl_names (a ++ b) = decl_names a ++ decl_names b.
Proof. unfold decl_names. now rewrite flat_map_app, map_app. Qed.

Lemma NoDup_app_intro {A} (a b : list A) : NoDup a -> NoDup b -> (forall x, In x a -> In x b -> False) -> NoDup (a ++ b).
Proof.
  induction a as [|x a IH]; cbn; intros Ha Hb H; [exact Hb|]. inversion_clear Ha. constructor.
  - rewrite in_app_iff. intros [|]; eauto.
  - eapply IH; eauto.
Qed.

Lemma ops_decls_app a b : ops_decls (a ++ b) = ops_decls a ++ ops_decls b.
Proof. apply flat_map_app. Qed.

(** a rejected declaration keeps the invariant *)
Lemma good_rejected ids opts ds subs p p' r : good_state ds subs p -> declares ids opts p p' r -> r <> Ret tt -> good_state ds subs p'.
Proof.
  intros [] D Hr. destruct D. specialize (dc_throw0 Hr). unfold but_ids in dc_throw0.
  assert (E1 : has_positional_list_option p' = has_positional_list_option p) by (rewrite dc_throw0; reflexivity).
  assert (E2 : subcommands p' = subcommands p) by (rewrite dc_throw0; reflexivity).
  assert (E3 : operations p' = operations p) by (rewrite dc_throw0; reflexivity).
  constructor; rewrite ?E1, ?E2, ?E3; auto.
Qed.

Lemma good_accepted d opts ds subs p p' :
  good_state ds subs p -> declares (decl_idents d) opts p p' (Ret tt) -> pos_types [d] = [] ->
  (forall o, In o (map dashed (option_idents d)) -> In o opts) ->
  (exists q, but_ids p q /\ p' = pushed (OpDecl d) q) -> good_state (ds ++ [d]) subs p'.
Proof.
  intros [] D Hp Ho (q & B & E). destruct D. destruct (dc_ok0 eq_refl) as (G & N & K & KO). unfold but_ids in B.
  assert (E1 : has_positional_list_option p' = has_positional_list_option p) by (rewrite E, B; reflexivity).
  assert (E2 : subcommands p' = subcommands p) by (rewrite E, B; reflexivity).
  assert (E3 : map snd (operations p') = map snd (operations p) ++ [OpDecl d]) by (rewrite E, B; cbn; now rewrite map_app).
  assert (Hd : flat_map decl_idents [d] = decl_idents d) by (cbn; now rewrite app_nil_r).
  assert (Hn : decl_names [d] = map id_name (decl_idents d)) by (unfold decl_names; now rewrite Hd).
  constructor.
  - rewrite flat_map_app, forallb_app, gs_good0, Hd. exact G.
  - rewrite decl_names_app, Hn. apply NoDup_app_intro; auto. intros n H1 H2. apply gs_used0 in H1. now apply K in H2.
  - intros n. rewrite decl_names_app, in_app_iff, Hn. intros [H|H]; [auto|]. now apply K.
  - auto.
  - intros n. rewrite decl_names_app, in_app_iff, Hn. intros [H|H]; [auto|]. intros R. now apply K in H as [H _]; apply H, gs_reserved0.
  - rewrite pos_types_app, Hp, app_nil_r. exact gs_list0.
  - rewrite pos_types_app, Hp, app_nil_r, E1. exact gs_flag0.
  - intros n. rewrite flat_map_app, map_app, in_app_iff. cbn [flat_map]. rewrite app_nil_r. intros [H|H]; auto.
  - intros s. rewrite E2. apply gs_subs0.
  - rewrite E3, ops_decls_app, gs_ops0. reflexivity.
Qed.

Lemma in_unique s l : In s (unique l) <-> In s l.
Proof.
  induction l as [|x l IH]; [tauto|]. cbn [unique]. destruct (unique l) as [|y l''] eqn:E.
  - cbn in *. tauto.
  - destruct (String.eqb_spec x y) as [->|Hne]; cbn in *; tauto.
Qed.
Lemma in_insert s x l : In s (insert_string x l) <-> s = x \/ In s l.
Proof.
  induction l as [|y l IH]; cbn; [intuition|]. destruct (str_ltb y x); cbn; rewrite ?IH; intuition.
Qed.
Lemma in_sort s l : In s (sort_strings l) <-> In s l.
Proof. induction l as [|x l IH]; cbn; [tauto|]. rewrite in_insert, IH. intuition. Qed.

Lemma in_add_subcommands s l p : In s (subcommands (add_subcommands l p)) <-> In s (subcommands p) \/ In s l.
Proof. cbn. rewrite in_unique, in_sort, in_app_iff. tauto. Qed.

Lemma good_kept ds subs p p' : has_positional_list_option p' = has_positional_list_option p -> subcommands p' = subcommands p ->
  used_ids p' = used_ids p -> options p' = options p -> operations p' = operations p -> good_state ds subs p -> good_state ds subs p'.
Proof. intros H1 H2 H3 H4 H5 []. constructor; try (rewrite ?H1, ?H2, ?H3, ?H4, ?H5; auto); intros; rewrite ?H2, ?H3, ?H4; auto. Qed.

(** one call *)
Lemma good_step c w w' r ds subs : good_state ds subs (w_parser w) -> step c w = (w', r) ->
  good_state (ds ++ (if returned r then call_decl c else [])) (subs ++ match c with CAddSubcommands l => l | _ => [] end) (w_parser w').
Proof.
  intros G H. destruct (quiet_call c) eqn:Q.
  { pose proof (step_quiet c w Q) as K. cbn zeta in K. rewrite H in K. cbn [fst] in K. destruct K as (K1 & K2 & K3 & K4 & K5 & _ & _).
    replace (ds ++ _) with ds by (destruct c; try discriminate Q; destruct (returned r); cbn; now rewrite app_nil_r).
    replace (subs ++ _) with subs by (destruct c; try discriminate Q; cbn; now rewrite app_nil_r).
    eapply good_kept; eauto. }
  destruct (section_op c) as [o|] eqn:S.
  { replace (ds ++ _) with ds by (destruct c; try discriminate S; destruct (returned r); cbn; now rewrite app_nil_r).
    replace (subs ++ _) with subs by (destruct c; try discriminate S; cbn; now rewrite app_nil_r).
    destruct (step_section _ _ _ _ _ S H) as [(_ & -> & _)|(_ & -> & ->)]; [exact G|].
    destruct G. constructor; auto. cbn. rewrite map_app, ops_decls_app, gs_ops0. cbn.
    destruct c; try discriminate S; injection S as <-; cbn; now rewrite app_nil_r. }
  destruct c; try discriminate Q; try discriminate S; cbn [call_decl].
  - rewrite app_nil_r. apply step_option in H as (p' & ra & H & -> & R). apply add_option_spec in H as [D K]. cbn [w_parser with_parser].
    destruct (returned r).
    + rewrite (proj1 R eq_refl) in *. destruct (K eq_refl) as [_ K']. eapply good_accepted; eauto.
      * unfold decl_idents. cbn [option_idents flag_idents]. rewrite app_nil_r. exact D.
    + rewrite app_nil_r. eapply good_rejected; eauto. intros E. apply R in E. discriminate.
  - rewrite app_nil_r. apply step_flag in H as (p' & ra & H & -> & R). apply add_flag_spec in H as [D K]. cbn [w_parser with_parser].
    destruct (returned r).
    + rewrite (proj1 R eq_refl) in *. destruct (K eq_refl) as (_ & _ & K'). eapply good_accepted; eauto.
    + rewrite app_nil_r. eapply good_rejected; eauto. intros E. apply R in E. discriminate.
  - rewrite app_nil_r. apply step_positional in H as (p' & ra & H & -> & R). cbn [w_parser with_parser].
    apply add_positional_spec in H as [[-> [m ->]]|(-> & _ & I & S1 & L & ->)].
    + destruct (returned r); [discriminate (proj1 R eq_refl)|]. now rewrite app_nil_r.
    + rewrite (proj2 R eq_refl). destruct G.
      assert (Hn : decl_names [DPositional x t c] = []) by reflexivity.
      constructor; cbn [used_ids options pushed set_operations set_has_list has_positional_list_option subcommands operations self]; auto.
      * rewrite flat_map_app, forallb_app, gs_good0. reflexivity.
      * rewrite decl_names_app, Hn, app_nil_r. exact gs_nodup0.
      * rewrite decl_names_app, Hn, app_nil_r. exact gs_used0.
      * rewrite decl_names_app, Hn, app_nil_r. exact gs_fresh0.
      * rewrite pos_types_app. apply list_last_app. auto.
      * intros E. rewrite pos_types_app, forallb_app, (gs_flag0 L). cbn. now rewrite E.
      * intros n. rewrite flat_map_app. cbn [flat_map option_idents app]. rewrite app_nil_r. auto.
      * rewrite map_app, ops_decls_app, gs_ops0. reflexivity.
  - cbn in H. injection H as <- <-. cbn [returned w_parser on_parser]. rewrite app_nil_r. destruct G. constructor; auto.
    intros s. cbn [w_parser]. rewrite in_add_subcommands, gs_subs0, in_app_iff. tauto.
  - rewrite app_nil_r. replace (ds ++ _) with ds by (destruct (returned r); now rewrite app_nil_r).
    cbn [Parser.step] in H. destruct (parse_keeps w) as [K _].
    assert (E : w_parser w' = w_parser (fst (parse ndebug bk w))).
    { revert H. unfold bind. destruct (parse ndebug bk w) as [w1 [a|e|o| | |]]; intros [= <- _]; reflexivity. }
    rewrite E. destruct K. eapply good_kept; eauto.
Qed.

Lemma good_run cs : forall w ds subs, good_state ds subs (w_parser w) ->
  good_state (ds ++ accepted (snd (run cs w))) (subs ++ ever_added (snd (run cs w))) (w_parser (fst (run cs w))).
Proof.
  induction cs as [|c cs IH]; intros w ds subs G; cbn [Parser.run].
  { cbn. now rewrite !app_nil_r. }
  destruct (step c w) as [w1 r] eqn:H. pose proof (good_step _ _ _ _ _ _ G H) as G1.
  assert (C : match r with Ret _ | Throw _ => True | _ => False end \/
    (match r with Ret _ | Throw _ => let '(w2, l) := run cs w1 in (w2, (c, r) :: l) | _ => (w1, [(c, r)]) end) = (w1, [(c, r)])).
  { destruct r; auto. }
  destruct C as [C| ->].
  2:{ cbn [fst snd accepted ever_added flat_map app]. rewrite !app_nil_r. exact G1. }
  specialize (IH w1 _ _ G1). destruct (run cs w1) as [w2 l].
  replace (match r with Ret _ | Throw _ => (w2, (c, r) :: l) | _ => (w1, [(c, r)]) end) with (w2, (c, r) :: l) by (destruct r; tauto).
  cbn [fst snd accepted ever_added flat_map] in *. rewrite !app_assoc. exact IH.
Qed.

(** a fresh parser satisfies the invariant *)
Lemma good_fresh p : fresh p -> good_state [] (subcommands p) p.
Proof.
  intros []. constructor; cbn; auto; try constructor; try tauto.
Qed.

Lemma history w cs : fresh (w_parser w) ->
  good_state (accepted (snd (run cs w))) (subcommands (w_parser w) ++ ever_added (snd (run cs w))) (w_parser (fst (run cs w))).
Proof. intros H. apply good_fresh in H. apply (good_run cs) in H. exact H. Qed.

End hist.

(** ** Identifiers of interfaces built by a program *)

Lemma nodup_idents_names l : NoDup (map id_name l) -> nodup_idents l = true.
Proof.
  induction l as [|i l IH]; cbn; intros H; [reflexivity|]. inversion_clear H. rewrite IH by assumption.
  destruct (mem_ident i l) eqn:E; [|reflexivity]. exfalso. apply H0. unfold mem_ident in E. apply existsb_exists in E as (j & Hj & E).
  apply in_map_iff. exists j. split; [|exact Hj]. destruct i, j; cbn in *; try discriminate.
  - apply Ascii.eqb_eq in E. now subst.
  - apply String.eqb_eq in E. now subst.
Qed.

Lemma identifiers_lemma ndebug bk w cs : fresh (w_parser w) ->
  let ds := accepted (snd (run ndebug bk cs w)) in
  NoDup (decl_names ds) /\ forallb good_ident (flat_map decl_idents ds) = true /\ (forall n, In n (decl_names ds) -> ~ In n reserved).
Proof. intros H. destruct (history ndebug bk w cs H). auto. Qed.

Lemma list_last_lemma ndebug bk w cs : fresh (w_parser w) -> list_last (pos_types (accepted (snd (run ndebug bk cs w)))) = true.
Proof. intros H. destruct (history ndebug bk w cs H). auto. Qed.

Lemma wf_lemma ndebug bk w cs : fresh (w_parser w) -> wf_decls (accepted (snd (run ndebug bk cs w))) = true.
Proof.
  intros H. destruct (history ndebug bk w cs H). unfold wf_decls. rewrite gs_good0, gs_list0, andb_true_r. cbn.
  now apply nodup_idents_names.
Qed.

(** ** Subcommands *)

Definition sorted (l : list string) : Prop := StronglySorted (fun a b => str_ltb a b = true) l.

Lemma str_ltb_trans a b c : str_ltb a b = true -> str_ltb b c = true -> str_ltb a c = true.
Proof.
  revert b c; induction a as [|x a IH]; intros [|y b] [|z c]; cbn; try congruence.
  destruct (N.ltb_spec (code x) (code y)); destruct (N.ltb_spec (code y) (code x)); try lia;
  destruct (N.ltb_spec (code y) (code z)); destruct (N.ltb_spec (code z) (code y)); try lia;
  destruct (N.ltb_spec (code x) (code z)); destruct (N.ltb_spec (code z) (code x)); try lia; auto; try congruence.
  apply IH.
Qed.

Definition weakly (l : list string) : Prop := StronglySorted (fun a b => str_ltb b a = false) l.

Lemma str_ltb_irrefl a : str_ltb a a = false.
Proof. induction a as [|x a IH]; cbn; [reflexivity|]. rewrite N.ltb_irrefl. exact IH. Qed.

Lemma str_leb_trans a b c : str_ltb b a = false -> str_ltb c b = false -> str_ltb c a = false.
Proof.
  intros H1 H2. destruct (str_ltb c a) eqn:E; [|reflexivity]. exfalso.
  apply str_ltb_total in H1 as [->|H1]; [congruence|]. pose proof (str_ltb_trans _ _ _ E H1). congruence.
Qed.

Lemma insert_weakly x l : weakly l -> weakly (insert_string x l).
Proof.
  induction l as [|y l IH]; intros H; cbn [insert_string]; [repeat constructor|].
  inversion_clear H. destruct (str_ltb y x) eqn:E.
  - constructor; [apply IH; assumption|]. rewrite Forall_forall in *. intros z Hz. apply in_insert in Hz as [->|Hz].
    + destruct (str_ltb x y) eqn:E'; [|reflexivity]. pose proof (str_ltb_trans _ _ _ E E'). rewrite str_ltb_irrefl in H. discriminate.
    + auto.
  - constructor; [constructor; assumption|]. constructor; [exact E|]. rewrite Forall_forall in *. intros z Hz.
    eapply str_leb_trans; [exact E|]. auto.
Qed.
Lemma sort_weakly l : weakly (sort_strings l).
Proof. induction l as [|x l IH]; cbn; [constructor|]. now apply insert_weakly. Qed.

Lemma unique_sorted l : weakly l -> sorted (unique l).
Proof.
  induction l as [|x l IH]; intros H; cbn [unique]; [constructor|]. inversion_clear H. specialize (IH H0).
  assert (F : Forall (fun z => str_ltb z x = false) (unique l)).
  { rewrite Forall_forall in *. intros z Hz. apply H1. now apply in_unique. }
  destruct (unique l) as [|y l'']; [repeat constructor|]. inversion_clear IH. inversion_clear F.
  destruct (String.eqb_spec x y) as [->|Hne].
  - constructor; assumption.
  - assert (Hxy : str_ltb x y = true).
    { apply str_ltb_total in H3 as [->|H3]; [contradiction|exact H3]. }
    constructor; [constructor; assumption|]. constructor; [exact Hxy|]. rewrite Forall_forall in *. intros z Hz.
    eapply str_ltb_trans; [exact Hxy|]. auto.
Qed.

Lemma add_sorted l p : sorted (subcommands (add_subcommands l p)).
Proof. cbn. apply unique_sorted, sort_weakly. Qed.

Lemma step_subcommands ndebug bk c w w' r : step ndebug bk c w = (w', r) ->
  subcommands (w_parser w') = subcommands (w_parser w) \/ exists l, w_parser w' = add_subcommands l (w_parser w).
Proof.
  intros H. destruct (quiet_call c) eqn:Q.
  { pose proof (step_quiet ndebug bk c w Q) as K. rewrite H in K. cbn in K. left. tauto. }
  destruct (section_op c) as [o|] eqn:S.
  { left. destruct (step_section _ _ _ _ _ _ _ S H) as [(_ & -> & _)|(_ & -> & ->)]; reflexivity. }
  destruct c; try discriminate Q; try discriminate S.
  - left. apply step_option in H as (p' & ra & H & -> & R). apply add_option_spec in H as [D K]. cbn. destruct D.
    destruct dc_out0 as [->|[m ->]].
    + destruct (K eq_refl) as (_ & q & B & ->). cbn. rewrite B. reflexivity.
    + rewrite dc_throw0 by discriminate. reflexivity.
  - left. apply step_flag in H as (p' & ra & H & -> & R). apply add_flag_spec in H as [D K]. cbn. destruct D.
    destruct dc_out0 as [->|[m ->]].
    + destruct (K eq_refl) as (_ & _ & q & B & ->). cbn. rewrite B. reflexivity.
    + rewrite dc_throw0 by discriminate. reflexivity.
  - left. apply step_positional in H as (p' & ra & H & -> & R). cbn [w_parser with_parser].
    apply add_positional_spec in H as [[-> [m ->]]|(-> & _ & I & S1 & L & ->)]; reflexivity.
  - right. injection H as <- <-. eexists. reflexivity.
  - left. cbn [Parser.step] in H. destruct (parse_keeps ndebug bk w) as [K _].
    assert (E : w_parser w' = w_parser (fst (parse ndebug bk w))).
    { revert H. unfold bind. destruct (parse ndebug bk w) as [w1 [a|e|o| | |]]; intros [= <- _]; reflexivity. }
    rewrite E. apply K.
Qed.

Lemma run_cons ndebug bk c cs w : run ndebug bk (c :: cs) w =
  (let '(w1, r) := step ndebug bk c w in
   if match r with Ret _ | Throw _ => true | _ => false end
   then (fst (run ndebug bk cs w1), (c, r) :: snd (run ndebug bk cs w1)) else (w1, [(c, r)])).
Proof.
  cbn [run]. destruct (step ndebug bk c w) as [w1 r]. destruct r; try reflexivity; destruct (run ndebug bk cs w1); reflexivity.
Qed.

Lemma run_sorted ndebug bk cs : forall w, sorted (subcommands (w_parser w)) -> sorted (subcommands (w_parser (fst (run ndebug bk cs w)))).
Proof.
  induction cs as [|c cs IH]; intros w H; [exact H|]. rewrite run_cons. destruct (step ndebug bk c w) as [w1 r] eqn:E.
  assert (H1 : sorted (subcommands (w_parser w1))).
  { destruct (step_subcommands _ _ _ _ _ _ E) as [->|[l ->]]; [exact H|apply add_sorted]. }
  destruct r; cbn [fst]; auto.
Qed.

Lemma subcommands_lemma ndebug bk i name args dev subs exe vs f cs :
  let w := {| w_parser := set_executable_name exe (construct i name args dev subs); w_vars := vs; w_fs := f |} in
  let p := w_parser (fst (run ndebug bk cs w)) in
  sorted (subcommands p) /\ forall s, In s (subcommands p) <-> In s subs \/ In s (ever_added (snd (run ndebug bk cs w))).
Proof.
  cbn zeta. split.
  - apply run_sorted. cbn. apply unique_sorted, sort_weakly.
  - intros s. match goal with |- context [run ndebug bk cs ?w] => assert (F : fresh (w_parser w)) by constructor;
      destruct (history ndebug bk w cs F) end.
    rewrite gs_subs0, in_app_iff. cbn. rewrite in_unique, in_sort. tauto.
Qed.

(** ** Positional options and subcommands *)

Lemma run_app_log ndebug bk cs : forall w l1 e l2, snd (run ndebug bk cs w) = l1 ++ e :: l2 ->
  exists cs1 cs2 w1, cs = cs1 ++ fst e :: cs2 /\ run ndebug bk cs1 w = (w1, l1) /\ snd (step ndebug bk (fst e) w1) = snd e.
Proof.
  induction cs as [|c cs IH]; intros w l1 e l2; [cbn; destruct l1; discriminate|].
  rewrite run_cons. destruct (step ndebug bk c w) as [w1 r] eqn:E.
  destruct l1 as [|e1 l1].
  - intros H. exists [], cs, w. assert (e = (c, r)) as ->.
    { destruct r; cbn [snd] in H; injection H; auto. }
    cbn. rewrite E. auto.
  - intros H. assert (S : (match r with Ret _ | Throw _ => true | _ => false end) = true /\ e1 = (c, r) /\ snd (run ndebug bk cs w1) = l1 ++ e :: l2).
    { destruct r; cbn [snd] in H; try (injection H as <- H; auto); destruct l1; discriminate. }
    destruct S as (S & -> & H'). destruct (IH _ _ _ _ H') as (cs1 & cs2 & w2 & -> & R & St).
    exists (c :: cs1), cs2, w2. split; [reflexivity|]. split; [|exact St]. rewrite run_cons, E, S, R. reflexivity.
Qed.

Lemma positional_first_lemma ndebug bk i name args dev subs exe vs f cs l1 x t c r l2 :
  let w := {| w_parser := set_executable_name exe (construct i name args dev subs); w_vars := vs; w_fs := f |} in
  snd (run ndebug bk cs w) = l1 ++ (CAddPositional x t c, r) :: l2 -> returned r = true -> subs = [] /\ ever_added l1 = [].
Proof.
  cbn zeta. intros H R. destruct (run_app_log _ _ _ _ _ _ _ H) as (cs1 & cs2 & w1 & -> & R1 & St). cbn [fst snd] in *.
  destruct (subcommands_lemma ndebug bk i name args dev subs exe vs f cs1) as [_ K]. cbn zeta in K. rewrite R1 in K. cbn [fst snd] in K.
  destruct (step ndebug bk (CAddPositional x t c) w1) as [w2 r'] eqn:E. cbn in St. subst r'.
  apply step_positional in E as (p' & ra & E & -> & R'). rewrite (proj1 R' R) in *.
  apply add_positional_spec in E as [[_ [m D]]|(_ & _ & _ & S & _)]; [discriminate D|]. rewrite S in K.
  split.
  - destruct subs as [|s subs']; [reflexivity|]. exfalso. apply (proj2 (K s)). left. now left.
  - destruct (ever_added l1) as [|s l]; [reflexivity|]. exfalso. apply (proj2 (K s)). right. now left.
Qed.

(** both are there exactly if subcommands were added after a positional option that was accepted *)
Lemma both_lemma ndebug bk i name args dev subs exe vs f cs :
  let w := {| w_parser := set_executable_name exe (construct i name args dev subs); w_vars := vs; w_fs := f |} in
  let log := snd (run ndebug bk cs w) in
  ((exists x t c, In (DPositional x t c) (accepted log)) /\ subcommands (w_parser (fst (run ndebug bk cs w))) <> []) <->
  exists l1 x t c r l2, log = l1 ++ (CAddPositional x t c, r) :: l2 /\ returned r = true /\ exists s l l3 r' l4, l2 = l3 ++ (CAddSubcommands (s :: l), r') :: l4.
Proof.
  cbn zeta. destruct (subcommands_lemma ndebug bk i name args dev subs exe vs f cs) as [_ K]. cbn zeta in K.
  pose proof (fun l1 x t c r l2 => positional_first_lemma ndebug bk i name args dev subs exe vs f cs l1 x t c r l2) as First. cbn zeta in First.
  set (w := {| w_parser := _; w_vars := _; w_fs := _ |}) in *. set (log := snd (run ndebug bk cs w)) in *. split.
  - intros ((x & t & c & A) & S). unfold accepted in A. apply in_flat_map in A as ([cl r] & In1 & D). cbn [fst snd] in D.
    destruct (returned r) eqn:R; [|contradiction]. assert (cl = CAddPositional x t c) as ->. { destruct cl; cbn in D; try contradiction; destruct D as [D|[]]; congruence. }
    apply in_split in In1 as (l1 & l2 & E). exists l1, x, t, c, r, l2. split; [exact E|]. split; [exact R|]. destruct (First _ _ _ _ _ _ E R) as [-> N].
    destruct (subcommands (w_parser (fst (run ndebug bk cs w)))) as [|s ss]; [contradiction|]. destruct (proj1 (K s) (or_introl eq_refl)) as [[]|K1].
    rewrite E in K1. unfold ever_added in K1. rewrite flat_map_app in K1. apply in_app_iff in K1 as [K1|K1]; [unfold ever_added in N; rewrite N in K1; contradiction|].
    cbn [flat_map fst app] in K1. apply in_flat_map in K1 as ([cl r'] & In2 & D2). cbn [fst] in D2. destruct cl; try contradiction. destruct l as [|s' l]; [contradiction|].
    apply in_split in In2 as (l3 & l4 & ->). now exists s', l, l3, r', l4.
  - intros (l1 & x & t & c & r & l2 & E & R & s & l & l3 & r' & l4 & ->). split.
    + exists x, t, c. unfold accepted. apply in_flat_map. exists (CAddPositional x t c, r). split; [rewrite E; apply in_elt|]. cbn [fst snd]. rewrite R. now left.
    + assert (X : In s (subcommands (w_parser (fst (run ndebug bk cs w))))); [|intros N; rewrite N in X; exact X]. apply K. right. unfold ever_added. apply in_flat_map. exists (CAddSubcommands (s :: l), r').
      split; [rewrite E; apply in_or_app; right; right; apply in_elt|now left].
Qed.

(** ** After parse() *)

Lemma step_called ndebug bk c w w' r : step ndebug bk c w = (w', r) ->
  parse_was_called (w_parser w) = true \/ c = CParse -> parse_was_called (w_parser w') = true.
Proof.
  intros H [P|P].
  2:{ subst c. cbn [step] in H. pose proof (proj2 (parse_keeps ndebug bk w)) as K. revert H. unfold bind.
      destruct (parse ndebug bk w) as [w1 [a|e|o| | |]]; intros [= <- _]; exact K. }
  destruct (quiet_call c) eqn:Q.
  { pose proof (step_quiet ndebug bk c w Q) as K. rewrite H in K. cbn in K. destruct K as (_ & _ & _ & _ & _ & -> & _). exact P. }
  destruct (section_op c) as [o|] eqn:S.
  { destruct (step_section _ _ _ _ _ _ _ S H) as [(_ & -> & _)|(_ & -> & ->)]; exact P. }
  destruct c; try discriminate Q; try discriminate S.
  - apply step_option in H as (p' & ra & H & -> & R). cbn. revert H. unfold add_option, bind. rewrite check_spec, P. intros [= <- _]. exact P.
  - apply step_flag in H as (p' & ra & H & -> & R). cbn. revert H. unfold add_flag, bind. rewrite check_spec, P. intros [= <- _]. exact P.
  - apply step_positional in H as (p' & ra & H & -> & R). cbn. revert H. unfold add_positional_option, bind. rewrite check_spec, P. intros [= <- _]. exact P.
  - injection H as <- <-. exact P.
  - cbn [step] in H. revert H. unfold bind, parse. rewrite P. intros [= <- _]. exact P.
Qed.

Lemma run_called ndebug bk cs : forall w, parse_was_called (w_parser w) = true \/ In CParse (map fst (snd (run ndebug bk cs w))) ->
  parse_was_called (w_parser (fst (run ndebug bk cs w))) = true.
Proof.
  induction cs as [|c cs IH]; intros w H; [cbn in *; tauto|]. rewrite run_cons in *. destruct (step ndebug bk c w) as [w1 r] eqn:E.
  pose proof (step_called _ _ _ _ _ _ E) as K.
  destruct (match r with Ret _ | Throw _ => true | _ => false end); cbn [fst snd map] in *.
  - apply IH. destruct H as [H|[H|H]]; [left; auto|left; auto|auto].
  - destruct H as [H|[H|[]]]; auto.
Qed.

Lemma frozen_step ndebug bk c w : parse_was_called (w_parser w) = true -> shapes c = true \/ c = CParse ->
  exists m, step ndebug bk c w = (w, Throw (Exn KDesign m)).
Proof.
  intros P [H|H].
  2:{ subst c. cbn [step]. unfold bind, parse. rewrite P. eexists. reflexivity. }
  destruct c; try discriminate H; cbn [step];
    unfold bind, on_parser, add_option, add_flag, add_positional_option, add_section, add_subsection, add_line, add_list_item, bind;
    rewrite check_spec, P; eexists; f_equal; now destruct w.
Qed.

Lemma frozen_lemma ndebug bk cs w c : In CParse (map fst (snd (run ndebug bk cs w))) -> shapes c = true \/ c = CParse ->
  exists m, step ndebug bk c (fst (run ndebug bk cs w)) = (fst (run ndebug bk cs w), Throw (Exn KDesign m)).
Proof. intros H. apply frozen_step. apply run_called. now right. Qed.
