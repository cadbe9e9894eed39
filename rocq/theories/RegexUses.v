(** The patterns of the repository, and plain texts. *)
From Verif Require Import Base StrLib Values ValuesSpec ValuesProofs Fs Validators Parser VersionCheck VersionProofs Regex RegexSpec RegexProofs RegexReading.

Lemma decide_match (v : bool) (P : Prop) (d : bool) : (v = true <-> P) -> (P <-> d = true) -> v = d.
Proof. intros H1 H2. destruct v, d; [reflexivity|symmetry; tauto|tauto|reflexivity]. Qed.
Lemma match_fine r s (d : bool) : fits r = true -> (load r <= load_limit)%N -> (says r true true s <-> d = true) -> regex_match (pattern r) s = Fine d.
Proof. intros F L H. destruct (match_pattern r s F L) as (v & -> & V). f_equal. eapply decide_match; eassumption. Qed.
Lemma match_iff r s : fits r = true -> (load r <= load_limit)%N -> (regex_match (pattern r) s = Fine true <-> says r true true s).
Proof. intros F L. destruct (match_pattern r s F L) as (v & E & V). rewrite E, <- V. split; [intros X; injection X; auto|intros ->; reflexivity]. Qed.

(** ** Plain texts *)

Lemma spelled_says f s : forall b e w, says (spelled f s) b e w <-> w = s.
Proof.
  induction s as [|c s IH]; intros b e w; cbn; [reflexivity|]. split.
  - intros (u & v & -> & -> & H). apply IH in H. subst v. reflexivity.
  - intros ->. exists (str1 c), s. split; [reflexivity|]. split; [reflexivity|]. now apply IH.
Qed.
Lemma spelled_fits f s : sall (fun c => literal (f c) c) s = true -> fits (spelled f s) = true.
Proof. induction s as [|c s IH]; cbn; intros H; [reflexivity|]. apply andb_true_iff in H as [H1 H2]. rewrite H1. exact (IH H2). Qed.
Lemma spelled_load f s : load (spelled f s) = (20 + 40 * N.of_nat (String.length s))%N.
Proof. induction s as [|c s IH]; [reflexivity|]. cbn [spelled load String.length]. rewrite IH, Nat2N.inj_succ. lia. Qed.
Fixpoint quoted (f : chr -> spelling) (s : string) : string := match s with EmptyString => "" | String c s' => write_char (f c) c +s+ quoted f s' end.
Lemma spelled_write f s : forall p, p <> Atom -> write p (spelled f s) = quoted f s.
Proof. induction s as [|c s IH]; intros p P; cbn; [destruct p; congruence|]. destruct p; try congruence; rewrite IH by discriminate; reflexivity. Qed.
Lemma quoted_none s : quoted (fun _ => Plain) s = s.
Proof. induction s as [|c s IH]; cbn; [reflexivity|]. now rewrite IH. Qed.
Lemma quoted_match f s w : sall (fun c => literal (f c) c) s = true -> (String.length s <= 2400)%nat -> regex_match (quoted f s) w = Fine (String.eqb w s).
Proof.
  intros H L. rewrite <- (spelled_write f s Whole) by discriminate. apply match_fine; [now apply spelled_fits| |].
  - rewrite spelled_load. unfold load_limit. lia.
  - rewrite spelled_says. symmetry. apply String.eqb_eq.
Qed.

(** ** Repetitions of one character *)

Definition simple (r : re) (f : chr -> bool) : Prop := forall b e w, says r b e w <-> one_of f w.
Lemma pieces_one r f : simple r f -> forall n b e w, pieces (says r) n b e w <-> String.length w = n /\ sall f w = true.
Proof.
  intros S n. induction n as [|n IH]; intros b e w; cbn [pieces].
  - split; [intros ->; auto|intros [H _]]. destruct w; [reflexivity|discriminate].
  - split.
    + intros (u & v & -> & H & R). apply S in H as (c & -> & H). apply IH in R as [L R]. cbn. rewrite H, R. auto.
    + intros [L H]. destruct w as [|c w]; [discriminate|]. cbn in L, H. apply andb_true_iff in H as [H1 H2]. exists (str1 c), w. split; [reflexivity|]. split; [apply S; exists c; auto|]. apply IH. split; [lia|exact H2].
Qed.
Lemma says_repeat r f q lazy b e w : simple r f -> (says (Rep r q lazy) b e w <-> allowed q (String.length w) /\ sall f w = true).
Proof.
  intros S. cbn [says]. split.
  - intros (n & A & P). apply (pieces_one r f S) in P as [<- P]. auto.
  - intros [A H]. exists (String.length w). split; [exact A|]. apply (pieces_one r f S). auto.
Qed.
Lemma many_nonempty w : allowed Many (String.length w) <-> w <> "".
Proof. destruct w; cbn; split; intros H; try congruence; lia. Qed.
Lemma simple_bracket neg front l dash f : (forall c, xorb neg (existsb (in_entry c) l || (front || dash) && Ascii.eqb c "-") = f c) -> simple (Bracket neg front l dash) f.
Proof. intros H b e w. cbn. split; intros (c & E & X); exists c; (split; [exact E|]); [rewrite <- H|rewrite H]; exact X. Qed.
Definition no_break (c : chr) : bool := negb (Ascii.eqb c "010") && negb (Ascii.eqb c "013").
Lemma simple_dot : simple Dot no_break.
Proof. intros b e w. reflexivity. Qed.
Lemma sall_ext f g s : (forall c, f c = g c) -> sall f s = sall g s.
Proof. intros H. induction s as [|c s IH]; cbn; [reflexivity|]. now rewrite H, IH. Qed.

(** ** parser.hpp 735, 1093, 1101, version_check.hpp 76 *)

Definition name_re : re := Seq Bol (Seq (Rep (Bracket false false [Range Plain "a" Plain "z"; Range Plain "A" Plain "Z"; Range Plain "0" Plain "9"; One Plain "_"] true) Many false) Eol).
Lemma name_chars : simple (Bracket false false [Range Plain "a" Plain "z"; Range Plain "A" Plain "Z"; Range Plain "0" Plain "9"; One Plain "_"] true) name_char.
Proof. apply simple_bracket. intros c. each_char c; vm_compute; reflexivity. Qed.
Theorem names_match s : regex_match "^[a-zA-Z0-9_-]+$" s = Fine (name_matches s).
Proof.
  change "^[a-zA-Z0-9_-]+$" with (pattern name_re). apply match_fine; [reflexivity|vm_compute; discriminate|].
  unfold name_re, name_matches. cbn [says]. split.
  - intros (u & v & -> & [-> _] & u2 & v2 & -> & H & [-> _]). apply (says_repeat _ _ Many false _ _ _ name_chars) in H as [H1 H2]. cbn [append]. rewrite app_nil_s, H2.
    destruct u2; [cbn in H1; lia|reflexivity].
  - intros H. apply andb_true_iff in H as [H1 H2]. exists "", s. split; [reflexivity|]. split; [auto|]. exists s, "". rewrite app_nil_s. split; [reflexivity|]. split; [|auto].
    apply (says_repeat _ _ Many false _ _ _ name_chars). split; [|exact H2]. destruct s; [discriminate|cbn; lia].
Qed.

(** ** version_check.hpp 93, 431, 480 *)

Definition number_re : re := Rep (Bracket false false [Named Digit] false) Many false.
Definition version_re : re := Seq number_re (Seq (Lit Slash ".") (Seq number_re (Seq (Lit Slash ".") number_re))).
Lemma number_says b e w : says number_re b e w <-> digits w.
Proof.
  assert (S : simple (Bracket false false [Named Digit] false) is_digit) by (apply simple_bracket; intros c; each_char c; vm_compute; reflexivity).
  unfold number_re. rewrite (says_repeat _ _ Many false _ _ _ S), many_nonempty. reflexivity.
Qed.
Lemma version_says b e w : says version_re b e w <-> exists x y z, digits x /\ digits y /\ digits z /\ w = x +s+ "." +s+ y +s+ "." +s+ z.
Proof.
  unfold version_re. cbn [says]. split.
  - intros (x & v1 & -> & X & d1 & v2 & -> & -> & y & v3 & -> & Y & d2 & z & -> & -> & T). apply number_says in X, Y, T. exists x, y, z. auto.
  - intros (x & y & z & X & Y & T & ->). exists x, ("." +s+ y +s+ "." +s+ z). split; [reflexivity|]. split; [now apply number_says|].
    exists ".", (y +s+ "." +s+ z). split; [reflexivity|]. split; [reflexivity|]. exists y, ("." +s+ z). split; [reflexivity|]. split; [now apply number_says|].
    exists ".", z. split; [reflexivity|]. split; [reflexivity|]. now apply number_says.
Qed.
Definition whole_version (s : string) : bool := match match_version s with Some (_, EmptyString) => true | _ => false end.
Lemma whole_version_iff s : whole_version s = true <-> exists x y z, digits x /\ digits y /\ digits z /\ s = x +s+ "." +s+ y +s+ "." +s+ z.
Proof.
  unfold whole_version. split.
  - destruct (match_version s) as [[p [|c r]]|] eqn:M; try discriminate. intros _. apply match_version_iff in M as (x & y & z & X & Y & T & -> & -> & _). exists x, y, z. rewrite app_nil_s. auto.
  - intros (x & y & z & X & Y & T & ->). assert (M : match_version (x +s+ "." +s+ y +s+ "." +s+ z) = Some (x +s+ "." +s+ y +s+ "." +s+ z, "")).
    { apply match_version_iff. exists x, y, z. rewrite app_nil_s. auto 8. }
    rewrite M. reflexivity.
Qed.
Theorem versions_match s : regex_match "^[[:digit:]]+\.[[:digit:]]+\.[[:digit:]]+$" s = Fine (whole_version s).
Proof.
  change "^[[:digit:]]+\.[[:digit:]]+\.[[:digit:]]+$" with (pattern (Seq Bol (Seq version_re Eol))). apply match_fine; [reflexivity|vm_compute; discriminate|].
  rewrite whole_version_iff. cbn [says]. split.
  - intros (u & v & -> & [-> _] & w & v2 & -> & H & [-> _]). apply version_says in H. cbn [append]. rewrite app_nil_s. exact H.
  - intros H. exists "", s. split; [reflexivity|]. split; [auto|]. exists s, "". rewrite app_nil_s. split; [reflexivity|]. split; [|auto]. now apply version_says.
Qed.
Lemma some_prefix x y z r : digits x -> digits y -> digits z -> exists p q, match_version (x +s+ "." +s+ y +s+ "." +s+ z +s+ r) = Some (p, q).
Proof.
  intros X Y T. pose proof (span_digits_spec (z +s+ r)) as S. destruct (span_digits (z +s+ r)) as [d q] eqn:E. destruct S as (S1 & S2 & S3).
  exists (x +s+ "." +s+ y +s+ "." +s+ d), q. apply match_version_iff. exists x, y, d. split; [exact X|]. split; [exact Y|]. split; [|split; [reflexivity|split; [rewrite S1; repeat first [rewrite app_assoc_s|progress cbn [append]]; reflexivity|exact S3]]].
  split; [|exact S2]. destruct T as [T1 T2]. destruct z as [|c z]; [contradiction|]. cbn in T2. apply andb_true_iff in T2 as [T2 _]. cbn in E. rewrite T2 in E. destruct (span_digits (z +s+ r)). injection E as <- _. discriminate.
Qed.
Theorem versions_search s : regex_search "^([[:digit:]]+\.[[:digit:]]+\.[[:digit:]]+).*" s = Fine (match match_version s with Some _ => true | None => false end).
Proof.
  assert (C : compile "^([[:digit:]]+\.[[:digit:]]+\.[[:digit:]]+).*" = compile (pattern (Seq Bol (Seq (Quiet version_re) (Rep Dot Any false))))) by (vm_compute; reflexivity).
  destruct (search_pattern (Seq Bol (Seq (Quiet version_re) (Rep Dot Any false))) s eq_refl ltac:(vm_compute; discriminate)) as (v & E & V).
  unfold regex_search in *. rewrite C, E. f_equal. eapply decide_match; [exact V|]. clear. unfold occurs. cbn [says]. split.
  - intros (u & v & x & -> & u1 & v1 & -> & [-> B] & u2 & v2 & -> & H & _). destruct u; [|discriminate]. apply version_says in H as (a & b & c & A & B' & C & ->). cbn [append].
    destruct (some_prefix a b c (v2 +s+ x) A B' C) as (p & q & M). repeat first [rewrite app_assoc_s|progress cbn [append]]. repeat first [rewrite app_assoc_s in M|progress cbn [append] in M]. rewrite M. reflexivity.
  - destruct (match_version s) as [[p q]|] eqn:M; [|discriminate]. intros _. apply match_version_iff in M as (a & b & c & A & B & C & -> & -> & _).
    exists "", (a +s+ "." +s+ b +s+ "." +s+ c), q. split; [reflexivity|]. exists "", (a +s+ "." +s+ b +s+ "." +s+ c). split; [reflexivity|]. split; [auto|].
    exists (a +s+ "." +s+ b +s+ "." +s+ c), "". rewrite app_nil_s. split; [reflexivity|]. split; [apply version_says; exists a, b, c; auto|].
    exists 0%nat. cbn. auto.
Qed.

(** ** The documented patterns *)

Definition letter (c : chr) : bool := has_kind Alpha c.
Definition email_re : re :=
  let some := Rep (Bracket false false [Range Plain "a" Plain "z"; Range Plain "A" Plain "Z"] false) Many false in
  Seq some (Seq (Lit Plain "@") (Seq some (Seq (Lit Slash ".") (Seq (Lit Plain "c") (Seq (Lit Plain "o") (Lit Plain "m")))))).
Ltac lits := repeat match goal with H : says (Lit _ _) _ _ ?x |- _ => cbn [says] in H; try subst x; try clear H end.
Theorem email_match s : regex_match "[a-zA-Z]+@[a-zA-Z]+\.com" s = Fine true <->
  exists u v, u <> "" /\ v <> "" /\ sall letter u = true /\ sall letter v = true /\ s = u +s+ "@" +s+ v +s+ ".com".
Proof.
  change "[a-zA-Z]+@[a-zA-Z]+\.com" with (pattern email_re). rewrite match_iff by (reflexivity || (vm_compute; discriminate)).
  assert (S : simple (Bracket false false [Range Plain "a" Plain "z"; Range Plain "A" Plain "Z"] false) letter) by (apply simple_bracket; intros c; each_char c; vm_compute; reflexivity).
  assert (R : forall b e w, says (Rep (Bracket false false [Range Plain "a" Plain "z"; Range Plain "A" Plain "Z"] false) Many false) b e w <-> w <> "" /\ sall letter w = true).
  { intros b e w. rewrite (says_repeat _ _ Many false _ _ _ S), many_nonempty. reflexivity. }
  unfold email_re. cbn zeta. split.
  - intros (u & v1 & -> & U & x & v2 & -> & -> & v & v3 & -> & V & d & v4 & -> & -> & c & v5 & -> & -> & o & m & -> & -> & ->). lits. apply R in U as [U1 U2]. apply R in V as [V1 V2]. exists u, v. repeat (split; [assumption|]). reflexivity.
  - intros (u & v & U1 & V1 & U2 & V2 & ->). exists u, ("@" +s+ v +s+ ".com"). split; [reflexivity|]. split; [apply R; auto|].
    exists "@", (v +s+ ".com"). split; [reflexivity|]. split; [reflexivity|]. exists v, ".com". split; [reflexivity|]. split; [apply R; auto|].
    exists ".", "com". split; [reflexivity|]. split; [reflexivity|]. exists "c", "om". split; [reflexivity|]. split; [reflexivity|]. exists "o", "m". repeat split.
Qed.

Lemma dots_says q lazy b e w : says (Rep Dot q lazy) b e w <-> allowed q (String.length w) /\ sall no_break w = true.
Proof. apply says_repeat. apply simple_dot. Qed.
Theorem any_match s : regex_match ".*" s = Fine (sall no_break s).
Proof.
  change ".*" with (pattern (Rep Dot Any false)). apply match_fine; [reflexivity|vm_compute; discriminate|]. rewrite dots_says. cbn. tauto.
Qed.
Theorem inside_match t s : t <> "" -> sall (fun c => literal Plain c) t = true -> (String.length t <= 2300)%nat ->
  (regex_match (".*" +s+ t +s+ ".*") s = Fine true <-> exists u v, sall no_break u = true /\ sall no_break v = true /\ s = u +s+ t +s+ v).
Proof.
  intros N F L. set (r := Seq (Rep Dot Any false) (Seq (spelled (fun _ => Plain) t) (Rep Dot Any false))).
  assert (E : ".*" +s+ t +s+ ".*" = pattern r).
  { unfold pattern, r. cbn [write]. rewrite spelled_write by discriminate. rewrite quoted_none. reflexivity. }
  rewrite E, match_iff.
  - unfold r. split.
    + intros (u & w & -> & U & t' & v & -> & T & V). apply dots_says in U as [_ U]. apply dots_says in V as [_ V]. apply spelled_says in T. subst t'. exists u, v. auto.
    + intros (u & v & U & V & ->). exists u, (t +s+ v). split; [reflexivity|]. split; [apply dots_says; cbn; auto|]. exists t, v. split; [reflexivity|]. split; [now apply spelled_says|apply dots_says; cbn; auto].
  - unfold r. cbn [fits]. rewrite (spelled_fits (fun _ => Plain) t F). reflexivity.
  - unfold r. cbn [load]. rewrite spelled_load. unfold load_limit. lia.
Qed.
Theorem seasons_match s : regex_match ".*seasons\..+$" s = Fine true <->
  exists u v, sall no_break u = true /\ sall no_break v = true /\ v <> "" /\ s = u +s+ "seasons." +s+ v.
Proof.
  set (r := Seq (Rep Dot Any false) (Seq (spelled (fun c => if Ascii.eqb c "." then Slash else Plain) "seasons.") (Seq (Rep Dot Many false) Eol))).
  change ".*seasons\..+$" with (pattern r). rewrite match_iff by (reflexivity || (vm_compute; discriminate)). unfold r. split.
  - intros (u & w & -> & U & t' & x & -> & T & v & z & -> & V & [-> _]). apply dots_says in U as [_ U]. apply dots_says in V as [V1 V2]. apply many_nonempty in V1. apply spelled_says in T. subst t'. exists u, v. rewrite app_nil_s. auto.
  - intros (u & v & U & V & V1 & ->). exists u, ("seasons." +s+ v). split; [reflexivity|]. split; [apply dots_says; cbn; auto|]. exists "seasons.", v. split; [reflexivity|]. split; [now apply spelled_says|].
    exists v, "". rewrite app_nil_s. split; [reflexivity|]. split; [|cbn; auto]. apply dots_says. split; [now apply many_nonempty|exact V].
Qed.

(** a path from the root whose last component has an extension *)
Definition path_re : re :=
  Seq (Rep (Seq (Lit Plain "/") (Rep (Bracket true false [One Plain "/"] false) Many false)) Many false)
      (Seq (Lit Plain "/") (Seq (Rep Dot Any false) (Seq (Lit Slash ".") (Seq (Rep (Bracket true false [One Plain "/"; One Slash "."] false) Many false) Eol)))).
Definition component (d : string) : Prop := d <> "" /\ scontains "/" d = false.
Theorem path_match s : regex_match "(/[^/]+)+/.*\.[^/\.]+$" s = Fine true <->
  exists ds x y, ds <> [] /\ Forall component ds /\ sall no_break x = true /\ y <> "" /\ scontains "/" y = false /\ scontains "." y = false /\
    s = sconcat (map (String "/") ds) +s+ "/" +s+ x +s+ "." +s+ y.
Proof.
  change "(/[^/]+)+/.*\.[^/\.]+$" with (pattern path_re). rewrite match_iff by (reflexivity || (vm_compute; discriminate)).
  assert (N : forall c s, sall (fun d => negb (Ascii.eqb d c)) s = true <-> scontains c s = false).
  { intros c w. induction w as [|d w IH]; cbn; [tauto|]. rewrite andb_true_iff, orb_false_iff, IH, negb_true_iff, Ascii.eqb_sym. tauto. }
  assert (S1 : simple (Bracket true false [One Plain "/"] false) (fun d => negb (Ascii.eqb d "/"))) by (apply simple_bracket; intros c; each_char c; vm_compute; reflexivity).
  assert (S2 : simple (Bracket true false [One Plain "/"; One Slash "."] false) (fun d => negb (Ascii.eqb d "/") && negb (Ascii.eqb d "."))) by (apply simple_bracket; intros c; each_char c; vm_compute; reflexivity).
  assert (A : forall f g w, sall (fun d => f d && g d) w = true <-> sall f w = true /\ sall g w = true).
  { intros f g w. induction w as [|d w IH]; cbn; [tauto|]. rewrite !andb_true_iff, IH. tauto. }
  assert (R1 : forall b e w, says (Rep (Bracket true false [One Plain "/"] false) Many false) b e w <-> component w).
  { intros b e w. rewrite (says_repeat _ _ Many false _ _ _ S1), many_nonempty, N. reflexivity. }
  assert (R2 : forall b e w, says (Rep (Bracket true false [One Plain "/"; One Slash "."] false) Many false) b e w <-> w <> "" /\ scontains "/" w = false /\ scontains "." w = false).
  { intros b e w. rewrite (says_repeat _ _ Many false _ _ _ S2), many_nonempty, A, !N. reflexivity. }
  set (dir := Seq (Lit Plain "/") (Rep (Bracket true false [One Plain "/"] false) Many false)).
  assert (D : forall b e w, says dir b e w <-> exists d, component d /\ w = String "/" d).
  { intros b e w. unfold dir. split.
    - intros (u & d & -> & -> & H). lits. apply R1 in H. exists d. split; [exact H|reflexivity].
    - intros (d & H & ->). exists "/", d. split; [reflexivity|]. split; [reflexivity|now apply R1]. }
  assert (P : forall n b e w, pieces (says dir) n b e w <-> exists ds, List.length ds = n /\ Forall component ds /\ w = sconcat (map (String "/") ds)).
  { induction n as [|n IH]; intros b e w; cbn [pieces].
    - split; [intros ->; exists []; auto|intros ([|d ds] & L & _ & ->); [reflexivity|discriminate]].
    - split.
      + intros (u & v & -> & U & V). apply D in U as (d & C & ->). apply IH in V as (ds & L & Fa & ->). exists (d :: ds). split; [cbn; lia|]. split; [now constructor|reflexivity].
      + intros ([|d ds] & L & Fa & ->); [discriminate|]. inversion Fa; subst. exists (String "/" d), (sconcat (map (String "/") ds)). split; [reflexivity|]. split; [apply D; eauto|]. apply IH. exists ds. split; [cbn in L; lia|auto]. }
  unfold path_re. split.
  - intros (u & v1 & -> & (n & Nn & U) & sl & v2 & -> & -> & x & v3 & -> & X & d & v4 & -> & -> & y & z & -> & Y & [-> _]).
    lits. apply P in U as (ds & L & Fa & ->). apply dots_says in X as [_ X]. apply R2 in Y as (Y1 & Y2 & Y3). exists ds, x, y. rewrite app_nil_s. split; [intros ->; cbn in *; lia|]. repeat (split; [assumption|]). reflexivity.
  - intros (ds & x & y & Ds & Fa & X & Y1 & Y2 & Y3 & ->). exists (sconcat (map (String "/") ds)), ("/" +s+ x +s+ "." +s+ y). split; [reflexivity|]. split.
    { exists (List.length ds). split; [destruct ds; [contradiction|cbn; lia]|]. apply P. exists ds. auto. }
    exists "/", (x +s+ "." +s+ y). split; [reflexivity|]. split; [reflexivity|]. exists x, ("." +s+ y). split; [reflexivity|]. split; [apply dots_says; cbn; auto|].
    exists ".", y. split; [reflexivity|]. split; [reflexivity|]. exists y, "". rewrite app_nil_s. split; [reflexivity|]. split; [now apply R2|cbn; auto].
Qed.

(** ** regex_validator *)

Theorem validator_exact other r f v : fits r = true -> (load r <= load_limit)%N -> forall f' o,
  regex_validator (pattern r) (std_regex other (pattern r)) f (VStr v) = (f', o) ->
  f' = f /\ (says r true true v /\ o = VOk \/ ~ says r true true v /\ o = VThrow ("Value " +s+ v +s+ " did not match the pattern " +s+ pattern r +s+ ".")).
Proof.
  intros F L f' o. unfold regex_validator, by_elements, lift_range, pure_validator, regex1, std_regex. destruct (match_pattern r v F L) as (b & -> & B). intros E. injection E as <- <-. split; [reflexivity|].
  destruct b; [left; split; [now apply B|reflexivity]|right; split; [intros H; apply B in H; discriminate|reflexivity]].
Qed.
Theorem validator_list other r f vs : fits r = true -> (load r <= load_limit)%N ->
  (snd (regex_validator (pattern r) (std_regex other (pattern r)) f (VList (map VStr vs))) = VOk <-> Forall (says r true true) vs).
Proof.
  intros F L. unfold regex_validator, by_elements, lift_range. induction vs as [|v vs IH]; cbn [map for_each]; [split; auto|].
  destruct (match_pattern r v F L) as (b & E & B). unfold pure_validator at 1, regex1 at 1, std_regex at 1. rewrite E. destruct b.
  - rewrite IH. split; [intros H; constructor; [now apply B|exact H]|intros H; inversion H; assumption].
  - split; [discriminate|intros H; inversion H; subst]. assert (X : false = true) by now apply B. discriminate.
Qed.
Theorem validator_malformed other p f v : regex_match p v = Malformed -> regex_validator p (std_regex other p) f (VStr v) = (f, VThrow "regex_error").
Proof. intros E. unfold regex_validator, by_elements, lift_range, pure_validator, regex1, std_regex. rewrite E. reflexivity. Qed.

(** ** test/unit/parser/format_parse_validators_test.cpp 847 *)

Theorem chr_match s : regex_match "^chr[0-9]+" s = Fine true <-> exists d, digits d /\ s = "chr" +s+ d.
Proof.
  set (r := Seq Bol (Seq (Lit Plain "c") (Seq (Lit Plain "h") (Seq (Lit Plain "r") (Rep (Bracket false false [Range Plain "0" Plain "9"] false) Many false))))).
  change "^chr[0-9]+" with (pattern r). rewrite match_iff by (reflexivity || (vm_compute; discriminate)). unfold r.
  assert (S : simple (Bracket false false [Range Plain "0" Plain "9"] false) is_digit) by (apply simple_bracket; intros c; each_char c; vm_compute; reflexivity).
  assert (R : forall b e w, says (Rep (Bracket false false [Range Plain "0" Plain "9"] false) Many false) b e w <-> digits w).
  { intros b e w. rewrite (says_repeat _ _ Many false _ _ _ S), many_nonempty. reflexivity. }
  split.
  - intros (u & v & -> & [-> _] & c & v1 & -> & C & h & v2 & -> & H & x & d & -> & X & D). lits. apply R in D. exists d. split; [exact D|reflexivity].
  - intros (d & D & ->). exists "", ("chr" +s+ d). split; [reflexivity|]. split; [cbn; auto|]. exists "c", ("hr" +s+ d). split; [reflexivity|]. split; [reflexivity|].
    exists "h", ("r" +s+ d). split; [reflexivity|]. split; [reflexivity|]. exists "r", d. split; [reflexivity|]. split; [reflexivity|now apply R].
Qed.

(** ** The whole parser with one option *)
From Verif Require Import FormatParse Invocation InvocationProofs InvocationCorollaries ValuesRun.

Lemma one_text ndebug x c i s vs f : wf_decls [DOption x (Scalar TString) c] = true -> In i (config_idents c) -> s <> "" ->
  okind_of (snd (parse_args ndebug [DOption x (Scalar TString) c] (one_arg i s) vs f)) =
  match snd (c_validator c f (VStr s)) with VOk => ORet | VThrow _ => OThrow KValidation | VAssert => OAssert | VUB => OUB end.
Proof.
  intros Hd Hi Hs. change (one_arg i s) with (render (one_inv i s)).
  destruct (parse_args_refines ndebug _ (one_inv i s) vs f Hd (one_wf x (Scalar TString) c i s Hi Hs)) as (_ & _ & A).
  rewrite A, one_eval by exact Hi. unfold s_values. cbn [is_container s_scalar s_given]. unfold bind.
  rewrite (s_assign_means ndebug x TString s {| s_vars := vs; s_fs := f |} (VStr s) Logic.I eq_refl).
  unfold s_validate, set_var. cbn [s_vars s_fs ret]. rewrite Nat.eqb_refl. destruct (c_validator c f (VStr s)) as [f' []]; reflexivity.
Qed.
Theorem one_matched ndebug other r x c i s vs f : fits r = true -> (load r <= load_limit)%N ->
  wf_decls [DOption x (Scalar TString) c] = true -> In i (config_idents c) -> s <> "" -> c_validator c = regex_validator (pattern r) (std_regex other (pattern r)) ->
  let o := okind_of (snd (parse_args ndebug [DOption x (Scalar TString) c] (one_arg i s) vs f)) in
  (o = ORet <-> says r true true s) /\ (o = OThrow KValidation <-> ~ says r true true s).
Proof.
  intros F L Hd Hi Hs Hv o. unfold o. rewrite one_text by assumption. rewrite Hv.
  destruct (regex_validator (pattern r) (std_regex other (pattern r)) f (VStr s)) as [f' v] eqn:E. destruct (validator_exact other r f s F L f' v E) as (_ & [[S ->]|[S ->]]); cbn [snd];
    (split; split; intros H; try discriminate; try tauto; reflexivity).
Qed.
