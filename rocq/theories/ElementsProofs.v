(** Proofs about validators on paths and texts, see ElementsSpec.v *)
From Verif Require Import Base StrLib Fs FloatNum Values ValuesSpec Validators ValidatorsSpec ValidatorsProofs ValidatorsExact ElementsSpec.
From Coq Require Import Lia.

(** ** Every path has elements *)

Lemma slashes_cons s : slashes s -> slashes (String slash s).
Proof. intros [_ H]. split; [discriminate|]. intros c [<-|K]; [reflexivity|auto]. Qed.
Lemma slashes_one : slashes (String slash "").
Proof. split; [discriminate|]. intros c [<-|[]]. reflexivity. Qed.
Lemma name_cons c n : c <> slash -> name n -> name (String c n).
Proof. intros C [_ H]. split; [discriminate|]. intros [K|K]; [congruence|auto]. Qed.
Lemma name_one c : c <> slash -> name (String c "").
Proof. intros C. split; [discriminate|]. intros [K|[]]. congruence. Qed.

Lemma parts_total p : exists l, path_parts p l.
Proof.
  induction p as [|c p (l & IH)]; [exists []; constructor|]. destruct (ascii_dec c slash) as [->|C].
  - destruct IH as [|s S|p l N|s p l S N].
    + exists ["/"]. apply parts_root, slashes_one.
    + exists ["/"]. now apply parts_root, slashes_cons.
    + exists ("/" :: l). apply (parts_absolute (String slash "")); [apply slashes_one|exact N].
    + exists ("/" :: l). apply (parts_absolute (String slash s)); [now apply slashes_cons|exact N].
  - destruct IH as [|s S|p l N|s p l S N].
    + eexists. apply parts_relative, names_last. now apply name_one.
    + eexists. apply parts_relative, (names_open (String c "") s); [now apply name_one|exact S].
    + destruct N as [n K|n s K S|n s p l K S N]; eexists; apply parts_relative.
      * apply names_last. now apply name_cons.
      * apply (names_open (String c n) s); [now apply name_cons|exact S].
      * apply (names_more (String c n) s p l); [now apply name_cons|exact S|exact N].
    + eexists. apply parts_relative, (names_more (String c "") s p l); [now apply name_one|exact S|exact N].
Qed.

(** ** They are the ones the iteration finds *)

Lemma split_name n : ~ In slash (chars n) -> forall acc r, split_slash (n +s+ r) acc = split_slash r (acc +s+ n).
Proof.
  induction n as [|c n IH]; intros H acc r; [now rewrite app_nil_r_s|]. cbn [String.append split_slash]. destruct (Ascii.eqb_spec c slash) as [->|C]; [exfalso; apply H; now left|].
  rewrite IH; [|intros K; apply H; now right]. now rewrite app_assoc_s.
Qed.

Definition kept (l : list string) : list string := filter (fun x => negb (is_empty x)) l.
Lemma split_slashes s : (forall c, In c (chars s) -> c = slash) -> forall r, kept (split_slash (s +s+ r) "") = kept (split_slash r "").
Proof.
  induction s as [|c s IH]; intros H r; [reflexivity|]. rewrite (H c (or_introl eq_refl)). cbn [String.append split_slash].
  rewrite (proj2 (Ascii.eqb_eq slash slash) eq_refl). cbn [kept filter is_empty negb]. apply IH. intros d D. apply H. now right.
Qed.
Lemma names_slashes s r : slashes s -> names_of (s +s+ r) = names_of r.
Proof. intros [_ H]. exact (split_slashes s H r). Qed.
Lemma names_name n : name n -> names_of n = [n].
Proof.
  intros [N H]. unfold names_of. rewrite <- (app_nil_r_s n) at 1. rewrite (split_name n H). cbn. destruct n; [congruence|reflexivity].
Qed.
Lemma names_app n s r : name n -> slashes s -> names_of (n +s+ s +s+ r) = n :: names_of r.
Proof.
  intros [N H] [S K]. unfold names_of. rewrite (split_name n H). destruct s as [|c s]; [congruence|]. rewrite (K c (or_introl eq_refl)). cbn [String.append split_slash].
  rewrite (proj2 (Ascii.eqb_eq slash slash) eq_refl). cbn [String.append filter]. destruct n; [congruence|]. cbn [is_empty negb].
  f_equal. apply (split_slashes s). intros d D. apply K. now right.
Qed.
Lemma last_app a b : b <> "" -> last_chr (a +s+ b) = last_chr b.
Proof.
  intros B. induction a as [|c a IH]; [reflexivity|]. cbn [String.append]. destruct (a +s+ b) eqn:E; [destruct a; [cbn in E; congruence|discriminate]|]. exact IH.
Qed.
Lemma last_in s : s <> "" -> exists c, last_chr s = Some c /\ In c (chars s).
Proof.
  induction s as [|c s IH]; [congruence|]. intros _. destruct s as [|d s]; [exists c; split; [reflexivity|now left]|]. destruct (IH ltac:(discriminate)) as (e & E & I). exists e. split; [exact E|now right].
Qed.
Lemma last_name n : name n -> exists c, last_chr n = Some c /\ c <> slash.
Proof. intros [N H]. destruct (last_in n N) as (c & E & I). exists c. split; [exact E|]. intros ->. auto. Qed.
Lemma last_slashes s : slashes s -> last_chr s = Some slash.
Proof. intros [N H]. destruct (last_in s N) as (c & E & I). rewrite E. f_equal. auto. Qed.

Lemma names_text p l : names p l -> p <> "".
Proof. intros [n [N _]|n s [N _] _|n s q m [N _] _ _]; destruct n; try congruence; discriminate. Qed.

(** names, and an empty one behind a slash *)
Definition tail_of (p : string) : list string := match last_chr p, names_of p with Some c, _ :: _ => if Ascii.eqb c slash then [""] else [] | _, _ => [] end.
Lemma names_found p l : names p l -> names_of p ++ tail_of p = l /\ names_of p <> [].
Proof.
  induction 1 as [n N|n s N S|n s p l N S H [IH K]].
  - unfold tail_of. rewrite (names_name n N). destruct (last_name n N) as (c & -> & C). destruct (Ascii.eqb_spec c slash); [congruence|]. split; [reflexivity|discriminate].
  - unfold tail_of. pose proof (names_app n s "" N S) as E. rewrite app_nil_r_s in E. rewrite E, last_app by apply S. rewrite (last_slashes s S).
    rewrite (proj2 (Ascii.eqb_eq slash slash) eq_refl). split; [reflexivity|discriminate].
  - assert (E : tail_of (n +s+ s +s+ p) = tail_of p).
    { unfold tail_of. rewrite names_app by assumption. rewrite <- app_assoc_s, last_app by (apply (names_text _ _ H)). destruct (names_of p) as [|x m]; [congruence|reflexivity]. }
    rewrite E, names_app by assumption. cbn [app]. rewrite IH. split; [reflexivity|discriminate].
Qed.
Lemma names_first p l : names p l -> exists c q, p = String c q /\ c <> slash.
Proof.
  assert (F : forall n r, name n -> exists c q, n +s+ r = String c q /\ c <> slash).
  { intros [|c n] r [N H]; [congruence|]. exists c, (n +s+ r). split; [reflexivity|]. intros ->. apply H. now left. }
  intros [n N|n s N _|n s q m N _ _]; try apply F; try assumption. rewrite <- (app_nil_r_s n). now apply F.
Qed.

Lemma parts_found p l : path_parts p l -> path_elements p = l.
Proof.
  intros [|s S|q m N|s q m S N]; unfold path_elements.
  - reflexivity.
  - pose proof (names_slashes s "" S) as E. rewrite app_nil_r_s in E. rewrite E. cbn [names_of split_slash filter is_empty negb app].
    destruct s as [|c s]; [destruct S; congruence|]. rewrite (proj2 S c (or_introl eq_refl)). rewrite (proj2 (Ascii.eqb_eq slash slash) eq_refl). now destruct (last_chr _).
  - destruct (names_found q m N) as [E _]. destruct (names_first q m N) as (c & r & -> & C). destruct (Ascii.eqb_spec c slash); [congruence|]. exact E.
  - destruct (names_found q m N) as [E K]. unfold tail_of in E. rewrite names_slashes by exact S. rewrite last_app by exact (names_text _ _ N). rewrite E.
    destruct s as [|c s]; [destruct S; congruence|]. cbn [String.append]. rewrite (proj2 S c (or_introl eq_refl)). now rewrite (proj2 (Ascii.eqb_eq slash slash) eq_refl).
Qed.
Theorem elements_iff p l : path_parts p l <-> path_elements p = l.
Proof. split; [apply parts_found|]. intros <-. destruct (parts_total p) as (l & H). now rewrite (parts_found p l H). Qed.

Lemma strings_eqb_iff a : forall b, strings_eqb a b = true <-> a = b.
Proof.
  induction a as [|x a IH]; intros [|y b]; cbn; try (split; [discriminate|discriminate]); [tauto|]. rewrite andb_true_iff, String.eqb_eq, IH. split; [intros [-> ->]; reflexivity|intros [= -> ->]; auto].
Qed.
Lemma same_path_iff p q : strings_eqb (path_elements p) (path_elements q) = true <-> same_path p q.
Proof.
  rewrite strings_eqb_iff. unfold same_path. split.
  - intros E. exists (path_elements p). split; apply elements_iff; auto.
  - intros (l & A & B). apply elements_iff in A, B. congruence.
Qed.

(** ** Lists of paths *)

Lemma path_list_lemma values f x ps : elements x = map VPath ps ->
  snd (value_list_validator TPath (map VPath values) f x) = VOk <-> Forall (fun p => Exists (same_path p) values) ps.
Proof.
  intros Hx. unfold value_list_validator. cbn [as_range].
  assert (H1 : forall p, value_list1 TPath (map VPath values) (VPath p) = VOk <-> Exists (same_path p) values).
  { intros p. unfold value_list1. cbn [conv_to]. rewrite Exists_exists. destruct (existsb _ _) eqn:E.
    - split; [|reflexivity]. intros _. apply existsb_exists in E as (w & Hw & Heq). apply in_map_iff in Hw as (n & <- & Hn). exists n. split; [exact Hn|]. now apply same_path_iff.
    - split; [discriminate|]. intros (q & Q & S). assert (existsb (val_eqb (VPath p)) (map VPath values) = true); [|congruence].
      apply existsb_exists. exists (VPath q). split; [now apply in_map|]. now apply same_path_iff. }
  destruct (lift_pure_spec (value_list1 TPath (map VPath values)) f x (fun _ _ => Logic.I)) as [[Ha Hr]|(l & a & l' & He & Hl & Ha & Hr)]; rewrite Hr; cbn [snd].
  - split; [intros _|reflexivity]. rewrite Hx in Ha. rewrite Forall_forall in *. intros p Hp. apply H1, Ha. now apply in_map.
  - split; [tauto|]. intros H. exfalso. rewrite Hx in He. assert (Hin : In a (map VPath ps)) by (rewrite He; apply in_elt). apply in_map_iff in Hin as (p & <- & Hp).
    apply Ha, H1. rewrite Forall_forall in H. auto.
Qed.

(** ** Texts checked by validators of numbers *)

Lemma code_number c z : char_code c = z <-> character_number c z.
Proof.
  unfold char_code, character_number, residue, in_type. cbn [N.ltb]. assert (B : (0 <= Z.of_N (code c) < 256)%Z).
  { pose proof (N_ascii_bounded c). unfold code. lia. }
  change (2 ^ (Z.of_N 8 - 1))%Z with 128%Z. change (2 ^ Z.of_N 8)%Z with 256%Z. set (n := Z.of_N (code c)) in *. clearbody n. destruct (Z.leb_spec 128 n); split.
  - intros <-. split; [lia|]. exists 1%Z. lia.
  - intros (T & k & E). assert (k = 1%Z) by nia. lia.
  - intros <-. split; [lia|]. exists 0%Z. lia.
  - intros (T & k & E). assert (k = 0%Z) by nia. lia.
Qed.

Lemma text_range_lemma sg bits mn mx f s : (0 < bits)%N ->
  arithmetic_range_validator sg bits mn mx f (VStr s) = arithmetic_range_validator sg bits mn mx f (VList (map (fun c => VInt (char_code c)) (chars s))).
Proof. reflexivity. Qed.

Lemma text_accepted sg bits mn mx f s : (0 < bits)%N ->
  (snd (arithmetic_range_validator sg bits mn mx f (VStr s)) = VOk <->
   forall c z y, In c (chars s) -> character_number c z -> residue sg bits z y -> within mn mx y).
Proof.
  intros Hb. rewrite text_range_lemma by exact Hb. set (zs := map char_code (chars s)).
  assert (E : elements (VList (map (fun c => VInt (char_code c)) (chars s))) = map VInt zs) by (unfold zs; rewrite map_map; reflexivity).
  destruct (arithmetic_exact_lemma sg bits mn mx f _ zs Hb E) as [[A R]|(l & z & l' & y & Ez & A & Y & W & R)]; rewrite R; cbn [snd].
  - split; [|reflexivity]. intros _ c z y I C Y. apply code_number in C. rewrite Forall_forall in A. apply (A z); [|exact Y]. unfold zs. rewrite <- C. now apply in_map.
  - split; [discriminate|]. intros H. exfalso. assert (I : In z zs) by (rewrite Ez; apply in_elt). unfold zs in I. apply in_map_iff in I as (c & C & I).
    apply W, (H c z y I); [now apply code_number|exact Y].
Qed.

(** a truth value is checked as 0 or 1 *)
Lemma truth_range sg bits mn mx f b : arithmetic_range_validator sg bits mn mx f (VBool b) = arithmetic_range_validator sg bits mn mx f (VInt (if b then 1 else 0)).
Proof. reflexivity. Qed.

Lemma truth_accepted sg bits mn mx f b : (1 < bits)%N -> (snd (arithmetic_range_validator sg bits mn mx f (VBool b)) = VOk <-> within mn mx (if b then 1 else 0)).
Proof.
  intros Hb. rewrite truth_range. set (z := (if b then 1 else 0)%Z).
  assert (T : in_type sg bits z).
  { unfold in_type, z. assert (2 ^ 1 <= 2 ^ (Z.of_N bits - 1))%Z by (apply Z.pow_le_mono_r; lia). assert (2 ^ 1 <= 2 ^ Z.of_N bits)%Z by (apply Z.pow_le_mono_r; lia). destruct b, sg; lia. }
  destruct (arithmetic_range_lemma sg bits mn mx f (VInt z) [z] ltac:(lia) eq_refl (Forall_cons z T (Forall_nil _))) as [[A ->]|(l & y & l' & E & _ & W & ->)]; cbn [snd].
  - inversion_clear A. tauto.
  - split; [discriminate|]. intros H. exfalso. destruct l as [|? [|]]; [|discriminate|discriminate]. injection E as E _. congruence.
Qed.

(** ** Patterns for paths *)
From Verif Require Import FormatParse Invocation InvocationProofs InvocationCorollaries ValuesProofs ValuesRun Regex RegexSpec RegexReading RegexUses.

Definition no_match (pattern e : string) : string := "Value " +s+ e +s+ " did not match the pattern " +s+ pattern +s+ ".".

Lemma regex_each pattern rx f l : (Forall (fun e => rx e = Some true) l /\ for_each (pure_validator (regex1 pattern rx)) f (map VStr l) = (f, VOk)) \/
  (exists a e b, l = a ++ e :: b /\ Forall (fun e => rx e = Some true) a /\
     (rx e = Some false /\ for_each (pure_validator (regex1 pattern rx)) f (map VStr l) = (f, VThrow (no_match pattern e)) \/
      rx e = None /\ for_each (pure_validator (regex1 pattern rx)) f (map VStr l) = (f, VThrow "regex_error"))).
Proof.
  induction l as [|e l IH]; [left; split; [constructor|reflexivity]|]. cbn [map for_each]. unfold pure_validator at 1 3 5, regex1 at 1 3 5. destruct (rx e) as [[]|] eqn:E.
  - destruct IH as [(A & R)|(a & e' & b & -> & A & R)]; [left; split; [constructor; auto|exact R]|]. right. exists (e :: a), e', b. split; [reflexivity|]. split; [constructor; auto|exact R].
  - right. exists [], e, l. split; [reflexivity|]. split; [constructor|]. left. auto.
  - right. exists [], e, l. split; [reflexivity|]. split; [constructor|]. right. auto.
Qed.

Theorem path_regex pattern rx f p l : path_parts p l ->
  let v := regex_validator pattern rx f (VPath p) in
  (Forall (fun e => rx e = Some true) l /\ v = (f, VOk)) \/
  (exists a e b, l = a ++ e :: b /\ Forall (fun e => rx e = Some true) a /\
     (rx e = Some false /\ v = (f, VThrow ("Value " +s+ e +s+ " did not match the pattern " +s+ pattern +s+ ".")) \/ rx e = None /\ v = (f, VThrow "regex_error"))).
Proof. intros H v. apply elements_iff in H. subst l. exact (regex_each pattern rx f (path_elements p)). Qed.

Theorem path_regex_ok pattern rx f p l : path_parts p l -> (snd (regex_validator pattern rx f (VPath p)) = VOk <-> Forall (fun e => rx e = Some true) l).
Proof.
  intros H. destruct (path_regex pattern rx f p l H) as [(A & ->)|(a & e & b & -> & A & R)]; [cbn; tauto|]. split.
  - destruct R as [(_ & ->)|(_ & ->)]; discriminate.
  - intros F. apply Forall_app in F as [_ F]. inversion_clear F. destruct R as [(R & _)|(R & _)]; congruence.
Qed.

Theorem path_list_regex pattern rx f ps : snd (regex_validator pattern rx f (VList (map VPath ps))) = VOk <-> Forall (fun p => rx p = Some true) ps.
Proof.
  unfold regex_validator, by_elements, lift_range. induction ps as [|p ps IH]; cbn [map for_each]; [split; auto|].
  unfold pure_validator at 1, regex1 at 1. destruct (rx p) as [[]|] eqn:E.
  - rewrite IH. split; [intros H; constructor; auto|intros H; inversion H; assumption].
  - split; [discriminate|intros H; inversion H; congruence].
  - split; [discriminate|intros H; inversion H; congruence].
Qed.

Lemma std_says other r s : fits r = true -> (load r <= load_limit)%N -> (std_regex other (pattern r) s = Some true <-> says r true true s).
Proof. intros F L. unfold std_regex. destruct (match_pattern r s F L) as (b & -> & B). rewrite <- B. split; [intros [= ->]; reflexivity|intros ->; reflexivity]. Qed.

Theorem path_says other r f p l : fits r = true -> (load r <= load_limit)%N -> path_parts p l ->
  (snd (regex_validator (pattern r) (std_regex other (pattern r)) f (VPath p)) = VOk <-> Forall (says r true true) l).
Proof.
  intros F L H. rewrite (path_regex_ok _ _ f p l H). split; intros A; eapply Forall_impl; try exact A; intros e E; now apply (std_says other r e F L).
Qed.

(** the whole parser with one option for a path *)
Lemma one_path ndebug x c i w vs f : wf_decls [DOption x (Scalar TPath) c] = true -> In i (config_idents c) -> plain_word w ->
  okind_of (snd (parse_args ndebug [DOption x (Scalar TPath) c] (one_arg i w) vs f)) =
  match snd (c_validator c f (VPath w)) with VOk => ORet | VThrow _ => OThrow KValidation | VAssert => OAssert | VUB => OUB end.
Proof.
  intros Hd Hi Hw. assert (Hs : w <> "") by (destruct Hw; assumption). change (one_arg i w) with (render (one_inv i w)).
  destruct (parse_args_refines ndebug _ (one_inv i w) vs f Hd (one_wf x (Scalar TPath) c i w Hi Hs)) as (_ & _ & A).
  rewrite A, one_eval by exact Hi. unfold s_values. cbn [is_container s_scalar s_given]. unfold bind.
  rewrite (s_assign_means ndebug x TPath w {| s_vars := vs; s_fs := f |} (VPath w) Logic.I) by (exists w, ""; repeat split; try assumption; try apply Hw; intros ? []).
  unfold s_validate, set_var. cbn [s_vars s_fs ret]. rewrite Nat.eqb_refl. destruct (c_validator c f (VPath w)) as [f' []]; reflexivity.
Qed.
Theorem one_path_matched ndebug other r x c i w l vs f : fits r = true -> (load r <= load_limit)%N ->
  wf_decls [DOption x (Scalar TPath) c] = true -> In i (config_idents c) -> plain_word w -> path_parts w l -> c_validator c = regex_validator (pattern r) (std_regex other (pattern r)) ->
  let o := okind_of (snd (parse_args ndebug [DOption x (Scalar TPath) c] (one_arg i w) vs f)) in
  (o = ORet <-> Forall (says r true true) l) /\ (o = OThrow KValidation <-> ~ Forall (says r true true) l).
Proof.
  intros F L Hd Hi Hw Hp Hv o. unfold o. rewrite one_path by assumption. rewrite Hv. pose proof (path_says other r f w l F L Hp) as P.
  destruct (path_regex (pattern r) (std_regex other (pattern r)) f w l Hp) as [(A & E)|(a & e & b & _ & _ & [(_ & E)|(_ & E)])]; rewrite E in P |- *; cbn [snd] in *;
    [assert (Q : Forall (says r true true) l) by now apply P|assert (Q : ~ Forall (says r true true) l) by (intros K; apply P in K; discriminate)..];
    (split; split; intros H; try discriminate; try reflexivity; tauto).
Qed.

(** ** The patterns of the documentation *)

(** doc/tutorial/parser/solution6.cpp 85 *)
Theorem tutorial_lemma other f p l : path_parts p l ->
  (snd (regex_validator ".*seasons\..+$" (std_regex other ".*seasons\..+$") f (VPath p)) = VOk <->
   Forall (fun e => exists u v, sall no_break u = true /\ sall no_break v = true /\ v <> "" /\ e = u +s+ "seasons." +s+ v) l).
Proof.
  intros H. rewrite (path_regex_ok _ _ f p l H).
  assert (E : forall s, std_regex other ".*seasons\..+$" s = Some true <-> exists u v, sall no_break u = true /\ sall no_break v = true /\ v <> "" /\ s = u +s+ "seasons." +s+ v).
  { intros s. rewrite <- seasons_match. change ".*seasons\..+$" with (pattern (Seq (Rep Dot Any false) (Seq (spelled (fun c => if Ascii.eqb c "." then Slash else Plain) "seasons.") (Seq (Rep Dot Many false) Eol)))).
    rewrite std_says, match_iff by (reflexivity || (vm_compute; discriminate)). reflexivity. }
  split; intros A; eapply Forall_impl; try exact A; intros e; apply E.
Qed.

Lemma names_no_slash p l : names p l -> forall e, In e l -> ~ In slash (chars e).
Proof.
  induction 1 as [n [_ N]|n s [_ N] _|n s p l [_ N] _ _ IH]; intros e.
  - intros [<-|[]]; exact N.
  - intros [<-|[<-|[]]]; [exact N|intros []].
  - intros [<-|I]; [exact N|now apply IH].
Qed.
Lemma parts_no_slash p l : path_parts p l -> forall e, In e l -> e = "/" \/ ~ In slash (chars e).
Proof.
  intros [|s S|q m N|s q m S N] e; [intros []|intros [<-|[]]; now left|intros I; right; eapply names_no_slash; eassumption|].
  intros [<-|I]; [now left|right; eapply names_no_slash; eassumption].
Qed.
Lemma parts_some p l : path_parts p l -> p <> "" -> l <> [].
Proof. intros [|s S|q m N|s q m S N] H; try congruence; try discriminate. destruct N; discriminate. Qed.

(** test/snippet/validators_chaining.cpp 14: no path at all passes *)
Theorem absolute_lemma other f p : p <> "" -> exists m, regex_validator "(/[^/]+)+/.*\.[^/\.]+$" (std_regex other "(/[^/]+)+/.*\.[^/\.]+$") f (VPath p) = (f, VThrow m).
Proof.
  intros P. destruct (parts_total p) as (l & H). pose proof (parts_some p l H P) as L.
  destruct (path_regex "(/[^/]+)+/.*\.[^/\.]+$" (std_regex other "(/[^/]+)+/.*\.[^/\.]+$") f p l H) as [(A & _)|(a & e & b & _ & _ & [(_ & ->)|(_ & ->)])]; eauto.
  exfalso. destruct l as [|e l]; [congruence|]. inversion_clear A as [|? ? E _].
  change "(/[^/]+)+/.*\.[^/\.]+$" with (pattern path_re) in E. rewrite std_says in E by (reflexivity || (vm_compute; discriminate)).
  rewrite <- match_iff in E by (reflexivity || (vm_compute; discriminate)). change (pattern path_re) with "(/[^/]+)+/.*\.[^/\.]+$" in E. apply path_match in E.
  destruct E as (ds & x & y & D & C & X & Y & S1 & S2 & E). destruct ds as [|d ds]; [congruence|]. inversion_clear C as [|? ? [C1 C2] _].
  destruct (parts_no_slash p (e :: l) H e (or_introl eq_refl)) as [R|R].
  - subst e. destruct d; [congruence|]. discriminate.
  - apply R. rewrite E. now left.
Qed.
