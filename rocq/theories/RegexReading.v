(** std::regex reads what RegexSpec.v writes. *)
From Verif Require Import Base StrLib Values ValuesSpec ValuesProofs Regex RegexSpec RegexProofs.
Open Scope N_scope.

(** ** Tokens of written expressions *)

Definition short_char (k : short) (other : bool) : chr :=
  match k, other with
  | SDigit, false => "d" | SDigit, true => "D" | SWord, false => "w" | SWord, true => "W" | SSpace, false => "s" | SSpace, true => "S"
  end.
Definition entry_tokens (i : entry) : list token :=
  match i with
  | One _ c => [TChar c]
  | Range _ x _ y => [TChar x; TDash; TChar y]
  | Named k => [TClassName (kind_name k)]
  | Short k other => [TQuoted (short_char k other)]
  end.
Definition often_tokens (q : often) : list token :=
  match q with
  | Any => [TStar] | Many => [TPlus] | Maybe => [TOpt]
  | Exactly n => [TBrace; TCount (N.of_nat n); TBraceEnd]
  | AtLeast n => [TBrace; TCount (N.of_nat n); TComma; TBraceEnd]
  | Between n m => [TBrace; TCount (N.of_nat n); TComma; TCount (N.of_nat m); TBraceEnd]
  end.
Definition group_tokens (ts : list token) : list token := TOpen :: ts ++ [TClose].
Fixpoint tokens (p : place) (r : re) : list token :=
  match r with
  | Nothing => match p with Atom => group_tokens [] | _ => [] end
  | Lit _ c => [TChar c]
  | Dot => [TAny]
  | Class k other => [TQuoted (short_char k other)]
  | Bracket neg front l dash => TBracket neg :: (if front then [TDash] else []) ++ flat_map entry_tokens l ++ (if dash then [TDash] else []) ++ [TBracketEnd]
  | Bol => match p with Atom => group_tokens [TBegin] | _ => [TBegin] end
  | Eol => match p with Atom => group_tokens [TEnd] | _ => [TEnd] end
  | Seq r1 r2 => match p with Atom => group_tokens (tokens Part r1 ++ tokens Part r2) | _ => tokens Part r1 ++ tokens Part r2 end
  | Alt r1 r2 => match p with Whole => tokens Whole r1 ++ TOr :: tokens Whole r2 | _ => group_tokens (tokens Whole r1 ++ TOr :: tokens Whole r2) end
  | Rep r q lazy => let ts := tokens Atom r ++ often_tokens q ++ (if lazy then [TOpt] else []) in match p with Atom => group_tokens ts | _ => ts end
  | Quiet r => group_tokens (tokens Whole r)
  end.

(** ** Scanning *)

Definition step (st : scan_state) : chr -> string -> option (token * scan_state * string) :=
  match st with SNormal => scan_normal | SBracket => scan_bracket | SBrace => scan_brace end.
Definition scans (st : scan_state) (s : string) (ts : list token) (st' : scan_state) : Prop :=
  forall rest fuel, (String.length (s +s+ rest) <= fuel)%nat ->
  exists fuel', (String.length rest <= fuel')%nat /\ scan fuel st (s +s+ rest) = option_map (app ts) (scan fuel' st' rest).

Lemma option_map_nil {A} (o : option (list A)) : o = option_map (app []) o.
Proof. destruct o; reflexivity. Qed.
Lemma scans_nil st : scans st "" [] st.
Proof. intros rest fuel L. exists fuel. split; [exact L|apply option_map_nil]. Qed.
Lemma scans_app st s1 t1 st1 s2 t2 st2 : scans st s1 t1 st1 -> scans st1 s2 t2 st2 -> scans st (s1 +s+ s2) (t1 ++ t2) st2.
Proof.
  intros H1 H2 rest fuel L. rewrite app_assoc_s in *. destruct (H1 _ _ L) as (f1 & L1 & ->). destruct (H2 _ _ L1) as (f2 & L2 & ->). exists f2. split; [exact L2|].
  destruct (scan f2 st2 rest); cbn; [rewrite app_assoc|]; reflexivity.
Qed.
Lemma scans_step st c s t st' : (forall rest, step st c (s +s+ rest) = Some (t, st', rest)) -> scans st (String c s) [t] st'.
Proof.
  intros H rest fuel L. cbn in L. rewrite length_app_s in L. destruct fuel as [|fuel]; [lia|]. exists fuel. split; [lia|]. cbn [append scan].
  specialize (H rest). destruct st; cbn [step] in H; rewrite H; destruct (scan fuel st' rest); reflexivity.
Qed.
Lemma scans_cons st c s t st1 s2 ts st2 :
  (forall rest, step st c (s +s+ s2 +s+ rest) = Some (t, st1, s2 +s+ rest)) -> scans st1 s2 ts st2 -> scans st (String c (s +s+ s2)) (t :: ts) st2.
Proof.
  intros H1 H2 rest fuel L. cbn in L. rewrite !length_app_s in L. destruct fuel as [|fuel]; [lia|]. cbn [append scan]. rewrite app_assoc_s.
  specialize (H1 rest). destruct (H2 rest fuel) as (f & L' & E); [rewrite length_app_s; lia|].
  exists f. split; [exact L'|]. destruct st; cbn [step] in H1; rewrite H1, E; destruct (scan f st2 rest); reflexivity.
Qed.
Lemma scan_whole s ts : scans SNormal s ts SNormal -> scan (String.length s) SNormal s = Some ts.
Proof.
  intros H. destruct (H "" (String.length s)) as (f & _ & E); [rewrite app_nil_s; lia|]. rewrite app_nil_s in E. rewrite E.
  destruct f; cbn; rewrite app_nil_r; reflexivity.
Qed.

Ltac each_char c := destruct c as [[] [] [] [] [] [] [] []].

Lemma scans_lit e c : literal e c = true -> scans SNormal (write_char e c) [TChar c] SNormal.
Proof.
  intros H. destruct e; cbn [write_char].
  - change (str1 c) with (String c ""). apply scans_step. intros rest. revert H. each_char c; vm_compute; (reflexivity || discriminate).
  - apply scans_step. intros rest. revert H. each_char c; vm_compute; (reflexivity || discriminate).
  - apply scans_step. intros rest. revert H. each_char c; vm_compute; (reflexivity || discriminate).
  - apply scans_step. intros rest. clear H. destruct capital; each_char c; vm_compute; reflexivity.
  - apply scans_step. intros rest. clear H. destruct capital; each_char c; vm_compute; reflexivity.
Qed.
Lemma scans_bracketed e c : bracketed e c = true -> scans SBracket (write_char e c) [TChar c] SBracket.
Proof.
  intros H. destruct e; cbn [write_char].
  - change (str1 c) with (String c ""). apply scans_step. intros rest. revert H. each_char c; vm_compute; (reflexivity || discriminate).
  - apply scans_step. intros rest. revert H. each_char c; vm_compute; (reflexivity || discriminate).
  - apply scans_step. intros rest. revert H. each_char c; vm_compute; (reflexivity || discriminate).
  - apply scans_step. intros rest. clear H. destruct capital; each_char c; vm_compute; reflexivity.
  - apply scans_step. intros rest. clear H. destruct capital; each_char c; vm_compute; reflexivity.
Qed.
Lemma scans_dash : scans SBracket "-" [TDash] SBracket.
Proof. apply scans_step. intros rest. reflexivity. Qed.
Lemma scans_short st k other : st = SNormal \/ st = SBracket -> scans st (short_text k other) [TQuoted (short_char k other)] st.
Proof. intros [-> | ->]; destruct k, other; apply scans_step; intros rest; reflexivity. Qed.
Lemma scans_named k : scans SBracket ("[:" +s+ kind_name k +s+ ":]") [TClassName (kind_name k)] SBracket.
Proof. destruct k; apply scans_step; intros rest; reflexivity. Qed.
Lemma scans_entry i : entry_fits i = true -> scans SBracket (write_entry i) (entry_tokens i) SBracket.
Proof.
  destruct i as [e c|e1 x e2 y|k|k other]; cbn [entry_fits write_entry entry_tokens]; intros H.
  - now apply scans_bracketed.
  - apply andb_true_iff in H as [H _]. apply andb_true_iff in H as [H1 H2].
    change [TChar x; TDash; TChar y] with ([TChar x] ++ [TDash] ++ [TChar y]).
    eapply scans_app; [apply scans_bracketed; exact H1|]. eapply scans_app; [apply scans_dash|apply scans_bracketed; exact H2].
  - apply scans_named.
  - apply scans_short. now right.
Qed.
Lemma scans_entries l : forallb entry_fits l = true -> scans SBracket (sconcat (map write_entry l)) (flat_map entry_tokens l) SBracket.
Proof.
  induction l as [|i l IH]; cbn; intros H; [apply scans_nil|]. apply andb_true_iff in H as [H1 H2]. eapply scans_app; [apply scans_entry; exact H1|exact (IH H2)].
Qed.
(** what is written between brackets does not begin with "^" *)
Lemma bracketed_first e c rest d s : bracketed e c = true -> write_char e c +s+ rest = String d s -> Ascii.eqb d "^" = false.
Proof.
  intros H. destruct e; cbn; intros E; injection E as <- _; [|reflexivity|reflexivity|reflexivity|reflexivity]. revert H. each_char c; vm_compute; (reflexivity || discriminate).
Qed.
Lemma entries_first l rest d s : forallb entry_fits l = true -> (forall d s, rest = String d s -> Ascii.eqb d "^" = false) ->
  sconcat (map write_entry l) +s+ rest = String d s -> Ascii.eqb d "^" = false.
Proof.
  intros H R E. destruct l as [|i l]; cbn in *; [eapply R; exact E|]. apply andb_true_iff in H as [H _].
  destruct i as [e c|e1 x e2 y|k|k other]; cbn in *; rewrite ?app_assoc_s in E.
  - eapply bracketed_first; eassumption.
  - apply andb_true_iff in H as [H _]. apply andb_true_iff in H as [H _]. eapply bracketed_first; eassumption.
  - injection E as <- _. reflexivity.
  - destruct k, other; injection E as <- _; reflexivity.
Qed.
Lemma open_bracket_step s : (forall d q, s = String d q -> Ascii.eqb d "^" = false) -> s <> "" -> step SNormal "[" s = Some (TBracket false, SBracket, s).
Proof.
  intros H N. destruct s as [|d q]; [contradiction|]. specialize (H d q eq_refl). revert H. cbn [step].
  assert (E : forall q, (Ascii.eqb d "^" = false) -> scan_normal "[" (String d q) = Some (TBracket false, SBracket, String d q)); [|apply E].
  clear. intros q. each_char d; vm_compute; (reflexivity || discriminate).
Qed.
Lemma scans_bracket (neg front : bool) l (dash : bool) : forallb entry_fits l = true ->
  scans SNormal ("[" +s+ (if neg then "^" else "") +s+ (if front then "-" else "") +s+ sconcat (map write_entry l) +s+ (if dash then "-" else "") +s+ "]")
        (TBracket neg :: (if front then [TDash] else []) ++ flat_map entry_tokens l ++ (if dash then [TDash] else []) ++ [TBracketEnd]) SNormal.
Proof.
  intros H. set (body := (if front then "-" else "") +s+ sconcat (map write_entry l) +s+ (if dash then "-" else "") +s+ "]").
  assert (S1 : scans SBracket body ((if front then [TDash] else []) ++ flat_map entry_tokens l ++ (if dash then [TDash] else []) ++ [TBracketEnd]) SNormal).
  { eapply scans_app; [destruct front; [apply scans_dash|apply scans_nil]|]. eapply scans_app; [apply scans_entries; exact H|]. eapply scans_app; [destruct dash; [apply scans_dash|apply scans_nil]|]. apply scans_step. intros rest. reflexivity. }
  change ("[" +s+ (if neg then "^" else "") +s+ body) with (String "[" ((if neg then "^" else "") +s+ body)).
  apply scans_cons with (st1 := SBracket); [|exact S1]. intros rest. destruct neg.
  - reflexivity.
  - cbn [append]. apply open_bracket_step.
    + intros d q E. unfold body in E. destruct front; [injection E as <- _; reflexivity|]. cbn [append] in E. rewrite app_assoc_s in E. eapply entries_first; [exact H| |exact E]. intros d' q' E'. destruct dash; injection E' as <- _; reflexivity.
    + unfold body. destruct front, (sconcat (map write_entry l)), dash; discriminate.
Qed.

(** *** Counts *)
Lemma eat_digits_app d : forall v rest, sall is_digit d = true -> starts_digit rest = false ->
  eat_digits v (d +s+ rest) = (Z.to_N (Z.of_N v * 10 ^ Z.of_nat (String.length d) + weight d), rest).
Proof.
  induction d as [|c d IH]; intros v rest H R; cbn [append sall weight String.length] in *.
  - assert (E : eat_digits v rest = (v, rest)) by (destruct rest as [|c rest]; [reflexivity|cbn in *; rewrite R; reflexivity]). rewrite E. f_equal. cbn. lia.
  - apply andb_true_iff in H as [Hc H]. cbn [eat_digits]. rewrite Hc, IH by assumption. f_equal. f_equal.
    assert (C : Z.of_N (code c - 48) = digit_val c). { unfold digit_val. unfold is_digit, in_range in Hc. apply andb_true_iff in Hc as [L _]. apply N.leb_le in L. change (code "0") with 48 in L. lia. }
    rewrite N2Z.inj_add, N2Z.inj_mul, C, Nat2Z.inj_succ, Z.pow_succ_r by lia. ring.
Qed.
Lemma nat_digits n : digits (nat_to_string n) /\ weight (nat_to_string n) = Z.of_nat n.
Proof.
  unfold nat_to_string. pose proof (Z_to_string_numeral false (Z.of_nat n) ltac:(right; lia)) as N. remember (Z_to_string (Z.of_nat n)) as s eqn:Es. clear Es.
  remember (Z.of_nat n) as z. clear Heqz. destruct N as [s D|s D _]; [split; [exact D|reflexivity]|discriminate].
Qed.
Lemma scans_count n c ts st s : scans SBrace (String c s) ts st -> is_digit c = false -> scans SBrace (nat_to_string n +s+ String c s) (TCount (N.of_nat n) :: ts) st.
Proof.
  intros H C. destruct (nat_digits n) as [[Ne D] W]. destruct (nat_to_string n) as [|d ds] eqn:E; [contradiction|]. cbn [append].
  apply scans_cons with (st1 := SBrace); [|exact H]. intros rest. cbn [step]. unfold scan_brace. cbn [sall] in D. apply andb_true_iff in D as [D1 D2]. rewrite D1.
  cbn [append]. rewrite eat_digits_app by (assumption || exact C). f_equal. f_equal. f_equal. f_equal. cbn [weight] in W.
  assert (V : Z.of_N (code d - 48) = digit_val d). { unfold digit_val. unfold is_digit, in_range in D1. apply andb_true_iff in D1 as [L _]. apply N.leb_le in L. change (code "0") with 48 in L. lia. }
  rewrite V, W. lia.
Qed.
Lemma scans_often q : scans SNormal (write_often q) (often_tokens q) SNormal.
Proof.
  assert (B : forall s ts, scans SBrace s ts SNormal -> scans SNormal (String "{" s) (TBrace :: ts) SNormal).
  { intros s ts H. apply (scans_cons SNormal "{" "" TBrace SBrace s ts SNormal); [reflexivity|exact H]. }
  assert (C : scans SBrace "}" [TBraceEnd] SNormal) by (apply scans_step; reflexivity).
  assert (D : forall s ts, scans SBrace s ts SNormal -> scans SBrace (String "," s) (TComma :: ts) SNormal).
  { intros s ts H. apply (scans_cons SBrace "," "" TComma SBrace s ts SNormal); [reflexivity|exact H]. }
  destruct q; cbn [write_often often_tokens].
  - apply scans_step; reflexivity.
  - apply scans_step; reflexivity.
  - apply scans_step; reflexivity.
  - apply B. apply scans_count; [exact C|reflexivity].
  - apply B. apply scans_count; [apply D; exact C|reflexivity].
  - apply B. apply scans_count; [apply D; apply scans_count; [exact C|reflexivity]|reflexivity].
Qed.

(** *** Groups *)
Definition no_question (s : string) : Prop := forall q, s <> String "?" q.
Lemma open_step s : no_question s -> step SNormal "(" s = Some (TOpen, SNormal, s).
Proof.
  intros H. destruct s as [|d q]; [reflexivity|]. cbn [step]. destruct (Ascii.eqb_spec d "?") as [->|N]; [destruct (H q eq_refl)|]. clear H.
  assert (E : Ascii.eqb d "?" = false) by now apply Ascii.eqb_neq. clear N. revert E. each_char d; vm_compute; (reflexivity || discriminate).
Qed.
Lemma scans_close : scans SNormal ")" [TClose] SNormal.
Proof. apply scans_step. reflexivity. Qed.
Lemma scans_group s ts : (forall q, no_question (s +s+ String ")" q)) -> scans SNormal s ts SNormal -> scans SNormal (grouped s) (group_tokens ts) SNormal.
Proof.
  intros Q H. unfold grouped, group_tokens. cbn [append]. apply (scans_cons SNormal "(" "" TOpen SNormal (s +s+ ")") (ts ++ [TClose]) SNormal).
  - intros rest. cbn [append]. apply open_step. rewrite app_assoc_s. apply Q.
  - eapply scans_app; [exact H|apply scans_close].
Qed.
Lemma write_first r : fits r = true -> forall p rest, no_question rest -> no_question (write p r +s+ rest).
Proof.
  assert (C : forall e c rest, literal e c = true -> no_question (write_char e c +s+ rest)).
  { intros e c rest H q E. destruct e; cbn in E; try discriminate E. injection E as -> _. discriminate H. }
  induction r; intros F p rest R; cbn [fits write] in *.
  - destruct p; [exact R|exact R|intros q; discriminate].
  - now apply C.
  - intros q; discriminate.
  - intros q. destruct k, other; discriminate.
  - intros q; discriminate.
  - destruct p; intros q; discriminate.
  - destruct p; intros q; discriminate.
  - apply andb_true_iff in F as [F1 F2]. destruct p; [| |intros q; discriminate]; rewrite app_assoc_s; apply IHr1; auto; apply IHr2; auto.
  - apply andb_true_iff in F as [F1 F2]. destruct p; [|intros q; discriminate|intros q; discriminate]. rewrite app_assoc_s. apply IHr1; auto. intros q; discriminate.
  - apply andb_true_iff in F as [F1 F2].
    assert (A : forall s, no_question (write Atom r +s+ s)).
    { clear IHr p rest R F2. intros s. destruct r; cbn [write fits] in *; try (intros x; discriminate).
      - now apply C.
      - intros x. destruct k, other; discriminate. }
    destruct p; [| |intros x; discriminate]; rewrite app_assoc_s; apply A.
  - intros x; discriminate.
Qed.
Lemma scans_re r : fits r = true -> forall p, scans SNormal (write p r) (tokens p r) SNormal.
Proof.
  induction r; intros F p; cbn [fits] in F; cbn [write tokens].
  - destruct p; [apply scans_nil|apply scans_nil|]. apply scans_group; [intros q q'; discriminate|apply scans_nil].
  - now apply scans_lit.
  - apply scans_step. reflexivity.
  - apply scans_short. now left.
  - now apply scans_bracket.
  - assert (S1 : scans SNormal "^" [TBegin] SNormal) by (apply scans_step; reflexivity). destruct p; [exact S1|exact S1|]. apply scans_group; [intros q q'; discriminate|exact S1].
  - assert (S1 : scans SNormal "$" [TEnd] SNormal) by (apply scans_step; reflexivity). destruct p; [exact S1|exact S1|]. apply scans_group; [intros q q'; discriminate|exact S1].
  - assert (F0 := F). apply andb_true_iff in F as [F1 F2].
    assert (S1 : scans SNormal (write Part r1 +s+ write Part r2) (tokens Part r1 ++ tokens Part r2) SNormal) by (eapply scans_app; auto).
    destruct p; [exact S1|exact S1|]. apply scans_group; [|exact S1]. intros q. rewrite app_assoc_s. apply write_first; [exact F1|]. apply write_first; [exact F2|]. intros q'; discriminate.
  - assert (F0 := F). apply andb_true_iff in F as [F1 F2].
    assert (S1 : scans SNormal (write Whole r1 +s+ "|" +s+ write Whole r2) (tokens Whole r1 ++ TOr :: tokens Whole r2) SNormal).
    { eapply scans_app; [apply IHr1; exact F1|]. change (TOr :: tokens Whole r2) with ([TOr] ++ tokens Whole r2). eapply scans_app; [apply scans_step; reflexivity|apply IHr2; exact F2]. }
    assert (Q : forall q, no_question ((write Whole r1 +s+ "|" +s+ write Whole r2) +s+ String ")" q)).
    { intros q. rewrite app_assoc_s. apply write_first; [exact F1|]. intros q'; discriminate. }
    destruct p; [exact S1| |]; apply scans_group; assumption.
  - assert (F0 := F). apply andb_true_iff in F as [F1 F2].
    assert (S1 : scans SNormal (write Atom r +s+ write_often q +s+ (if lazy then "?" else "")) (tokens Atom r ++ often_tokens q ++ (if lazy then [TOpt] else [])) SNormal).
    { eapply scans_app; [apply IHr; exact F1|]. eapply scans_app; [apply scans_often|]. destruct lazy; [apply scans_step; reflexivity|apply scans_nil]. }
    destruct p; [exact S1|exact S1|]. apply scans_group; [|exact S1]. intros q0.
    apply (write_first (Rep r q lazy) F0 Whole). intros q'; discriminate.
  - cbn [append]. change (group_tokens (tokens Whole r)) with (TOpen :: (tokens Whole r ++ [TClose])). apply (scans_cons SNormal "(" "?:" TOpen SNormal (write Whole r +s+ ")") (tokens Whole r ++ [TClose]) SNormal).
    + intros rest. reflexivity.
    + eapply scans_app; [apply IHr; exact F|apply scans_close].
Qed.

(** ** Compiling *)

Lemma run_app t1 : forall t2 a, compiler_run (t1 ++ t2) a = match compiler_run t1 a with Fine a' => compiler_run t2 a' | Malformed => Malformed | Unknown => Unknown end.
Proof. induction t1 as [|t t1 IH]; intros t2 a; cbn; [reflexivity|]. destruct (compiler_step t a); [apply IH|reflexivity|reflexivity]. Qed.
Lemma run_step t ts a a' : compiler_step t a = Fine a' -> compiler_run (t :: ts) a = compiler_run ts a'.
Proof. intros H. cbn. rewrite H. reflexivity. Qed.
Lemma spend_fine n l o m a : a_used a + n <= state_limit -> spend n l o m a = Fine {| a_level := l; a_outer := o; a_mode := m; a_used := a_used a + n |}.
Proof. intros H. unfold spend. destruct (N.ltb_spec state_limit (a_used a + n)); [lia|reflexivity]. Qed.

(** *** Sets of characters *)
Definition cls_of (k : kind) : cls :=
  match k with
  | Digit => KDigit | Word => KWord | Space => KSpace | Alnum => KAlnum | Alpha => KAlpha | Blank => KBlank | Cntrl => KCntrl
  | Graph => KGraph | Lower => KLower | Print => KPrint | Punct => KPunct | Upper => KUpper | Xdigit => KXdigit
  end.
Lemma lookup_name k : lookup_class (kind_name k) = Some (cls_of k).
Proof. destruct k; reflexivity. Qed.
Lemma lookup_short k other : lookup_class (str1 (short_char k other)) = Some (cls_of (short_kind k)).
Proof. destruct k, other; reflexivity. Qed.
Lemma upper_short k other : is_upper (short_char k other) = other.
Proof. destruct k, other; reflexivity. Qed.
Lemma cls_kind k c : is_cls (cls_of k) c = has_kind k c.
Proof. destruct k; each_char c; vm_compute; reflexivity. Qed.
Lemma value_rank c : char_value c = (Z.of_nat (rank c) - 128)%Z.
Proof. each_char c; vm_compute; reflexivity. Qed.

Definition member (b : bracket) (c : chr) : bool :=
  existsb (Ascii.eqb c) (b_chars b)
  || existsb (fun r => (char_value (fst r) <=? char_value c)%Z && (char_value c <=? char_value (snd r))%Z) (b_ranges b)
  || existsb (fun k => is_cls k c) (b_classes b)
  || existsb (fun k => negb (is_cls k c)) (b_others b).
Lemma in_set_member b c : in_set (CBracket b) c = xorb (member b c) (b_neg b).
Proof. reflexivity. Qed.
Lemma member_char x b c : member (add_char x b) c = Ascii.eqb c x || member b c.
Proof. unfold member. cbn [add_char b_chars b_ranges b_classes b_others existsb]. rewrite !orb_assoc. reflexivity. Qed.
Lemma member_range x y b c : member (add_range x y b) c = ((rank x <=? rank c)%nat && (rank c <=? rank y)%nat) || member b c.
Proof.
  unfold member. cbn [add_range b_chars b_ranges b_classes b_others existsb fst snd]. rewrite !value_rank.
  assert (L : forall n m, (Z.of_nat n - 128 <=? Z.of_nat m - 128)%Z = (n <=? m)%nat) by (intros n m; destruct (Nat.leb_spec n m); [apply Z.leb_le|apply Z.leb_gt]; lia).
  rewrite !L. destruct (existsb (Ascii.eqb c) (b_chars b)), ((rank x <=? rank c)%nat && (rank c <=? rank y)%nat); reflexivity.
Qed.
Lemma member_class k b c : member (add_class (cls_of k) b) c = has_kind k c || member b c.
Proof. unfold member. cbn [add_class b_chars b_ranges b_classes b_others existsb]. rewrite cls_kind. destruct (has_kind k c), (existsb (Ascii.eqb c) (b_chars b)), (existsb (fun r => (char_value (fst r) <=? char_value c)%Z && (char_value c <=? char_value (snd r))%Z) (b_ranges b)); reflexivity. Qed.
Lemma member_other k b c : member (add_other (cls_of k) b) c = negb (has_kind k c) || member b c.
Proof. unfold member. cbn [add_other b_chars b_ranges b_classes b_others existsb]. rewrite cls_kind. destruct (negb (has_kind k c)); [|reflexivity]. cbn. rewrite orb_true_r. reflexivity. Qed.

Definition in_bracket (a : compiler) (b : bracket) (last : last_char) : Prop :=
  a_mode a = MBracket b last BMiddle \/ (a_mode a = MBracket b last BStart /\ last = LNone).
(** [a'] is [a] with more characters *)
Definition extended (a a' : compiler) (b : bracket) (last : last_char) (f : chr -> bool) : Prop :=
  a_level a' = a_level a /\ a_outer a' = a_outer a /\ a_used a' = a_used a /\
  exists b' last', in_bracket a' b' last' /\ b_neg b' = b_neg b /\ forall c, member (flush last' b') c = f c || member (flush last b) c.

Lemma flush_neg last b : b_neg (flush last b) = b_neg b.
Proof. destruct last; reflexivity. Qed.
Ltac set_mode A := unfold compiler_step; rewrite A; cbn [bracket_step bracket_term].
Lemma entry_run i a b last : entry_fits i = true -> in_bracket a b last ->
  exists a', compiler_run (entry_tokens i) a = Fine a' /\ extended a a' b last (fun c => in_entry c i).
Proof.
  assert (CH : forall c a b last, in_bracket a b last -> compiler_step (TChar c) a = Fine {| a_level := a_level a; a_outer := a_outer a; a_mode := MBracket (flush last b) (LChar c) BMiddle; a_used := a_used a |}).
  { clear. intros c a b last [A|[A ->]]; set_mode A; reflexivity. }
  intros F A. destruct i as [e c|e1 x e2 y|k|k other]; cbn [entry_tokens entry_fits] in *.
  - eexists. split; [rewrite (run_step _ _ _ _ (CH c a b last A)); reflexivity|]. repeat split. exists (flush last b), (LChar c). split; [left; reflexivity|]. split; [apply flush_neg|].
    intros d. cbn [flush in_entry]. apply member_char.
  - apply andb_true_iff in F as [_ F]. eexists. split.
    + rewrite (run_step _ _ _ _ (CH x a b last A)). cbn [compiler_run]. unfold compiler_step at 1. cbn [a_mode bracket_step bracket_term]. cbn [compiler_run]. unfold compiler_step. cbn [a_mode bracket_step].
      unfold make_range. rewrite !value_rank. destruct (Z.ltb_spec (Z.of_nat (rank y) - 128) (Z.of_nat (rank x) - 128)); [apply Nat.leb_le in F; lia|]. reflexivity.
    + repeat split. eexists _, _. split; [left; reflexivity|]. split; [apply flush_neg|]. intros d. cbn [flush in_entry]. apply member_range.
  - eexists. split.
    + cbn [compiler_run]. instantiate (1 := {| a_level := a_level a; a_outer := a_outer a; a_mode := MBracket (add_class (cls_of k) (flush last b)) LClass BMiddle; a_used := a_used a |}).
      destruct A as [A|[A ->]]; set_mode A; rewrite lookup_name; reflexivity.
    + repeat split. eexists _, _. split; [left; reflexivity|]. split; [apply flush_neg|]. intros d. cbn [flush in_entry]. apply member_class.
  - eexists. split.
    + cbn [compiler_run]. instantiate (1 := {| a_level := a_level a; a_outer := a_outer a; a_mode := MBracket ((if other then add_other else add_class) (cls_of (short_kind k)) (flush last b)) LClass BMiddle; a_used := a_used a |}).
      destruct A as [A|[A ->]]; set_mode A; rewrite lookup_short, upper_short; reflexivity.
    + repeat split. eexists _, _. split; [left; reflexivity|]. split; [destruct other; apply flush_neg|]. intros d. cbn [flush in_entry]. destruct other; cbn [xorb]; [rewrite member_other|rewrite member_class]; destruct (has_kind (short_kind k) d); reflexivity.
Qed.
Lemma entries_run l : forall a b last, forallb entry_fits l = true -> in_bracket a b last ->
  exists a', compiler_run (flat_map entry_tokens l) a = Fine a' /\ extended a a' b last (fun c => existsb (in_entry c) l).
Proof.
  induction l as [|i l IH]; cbn; intros a b last F A.
  - exists a. split; [reflexivity|]. repeat split. exists b, last. auto.
  - apply andb_true_iff in F as [F1 F2]. destruct (entry_run i a b last F1 A) as (a1 & R1 & L1 & O1 & U1 & b1 & last1 & A1 & N1 & M1).
    destruct (IH a1 b1 last1 F2 A1) as (a2 & R2 & L2 & O2 & U2 & b2 & last2 & A2 & N2 & M2). exists a2. rewrite run_app, R1. split; [exact R2|]. repeat split; try congruence.
    exists b2, last2. split; [exact A2|]. split; [congruence|]. intros c. rewrite M2, M1. destruct (in_entry c i), (existsb (in_entry c) l); reflexivity.
Qed.

(** *** Whole expressions *)
Definition normal (a : compiler) : Prop := exists q, a_mode a = MNormal q.
Definition denotes (x : rx) (r : re) : Prop := forall b e w, means x b e w <-> says r b e w.
Definition moved (a a' : compiler) (n : N) : Prop := normal a' /\ a_outer a' = a_outer a /\ a_used a' <= a_used a + n.
Definition as_part (r : re) (n : N) (a a' : compiler) : Prop :=
  l_alts (a_level a') = l_alts (a_level a) /\
  exists x, denotes x r /\ same (terms (a_level a')) (RSeq (terms (a_level a)) x) /\ states (terms (a_level a')) <= states (terms (a_level a)) + n.
Definition as_atom (r : re) (n : N) (a a' : compiler) : Prop :=
  a_mode a' = MNormal false /\ l_alts (a_level a') = l_alts (a_level a) /\ l_terms (a_level a') = terms (a_level a) /\
  exists x, l_last (a_level a') = Some x /\ denotes x r /\ states x <= n.
Definition blank (l : level) : Prop := l_terms l = REmpty /\ l_last l = None.
Definition as_whole (r : re) (n : N) (a a' : compiler) : Prop :=
  blank (a_level a) -> exists x, denotes x r /\ same (whole (a_level a')) (match l_alts (a_level a) with Some y => RAlt y x | None => x end) /\
                                 states (whole (a_level a')) <= states (whole (a_level a)) + n.
Definition gets (ts : list token) (P : compiler -> compiler -> Prop) (n : N) : Prop :=
  forall a, normal a -> a_used a + n <= state_limit -> exists a', compiler_run ts a = Fine a' /\ moved a a' n /\ P a a'.

Lemma gets_weaken ts (P Q : compiler -> compiler -> Prop) n m : gets ts P n -> n <= m -> (forall a a', P a a' -> Q a a') -> gets ts Q m.
Proof.
  intros G L W a N U. destruct (G a N ltac:(lia)) as (a' & R & (N' & O & B) & H). exists a'. split; [exact R|]. split; [split; [exact N'|split; [exact O|lia]]|]. apply W, H.
Qed.
Lemma atom_part r n a a' : as_atom r n a a' -> as_part r (2 + n) a a'.
Proof.
  intros (_ & A & T & x & X & D & S). split; [exact A|]. exists x. split; [exact D|]. unfold terms at 1 3. rewrite X, T. split; [apply same_refl|]. cbn [states]. lia.
Qed.
Lemma part_whole r n a a' : as_part r n a a' -> as_whole r n a a'.
Proof.
  intros (A & x & D & S & C) [B1 B2]. exists x. split; [exact D|].
  assert (T : terms (a_level a) = REmpty) by (unfold terms; rewrite B2; exact B1). rewrite T in S. assert (S' : same (terms (a_level a')) x) by (eapply same_trans; [exact S|apply empty_seq]).
  unfold whole at 1 2 3. rewrite A. destruct (l_alts (a_level a)) as [y|].
  - split; [apply same_alt; [apply same_refl|exact S']|]. cbn [states]. lia.
  - split; [exact S'|exact C].
Qed.
Lemma part_more r n m a a' : n <= m -> as_part r n a a' -> as_part r m a a'.
Proof. intros L (A & x & D & S & C). split; [exact A|]. exists x. repeat split; [apply D|apply D|apply S|apply S|lia]. Qed.
Lemma atom_more r n m a a' : n <= m -> as_atom r n a a' -> as_atom r m a a'.
Proof. intros L (Q & A & T & x & X & D & C). split; [exact Q|]. split; [exact A|]. split; [exact T|]. exists x. split; [exact X|]. split; [exact D|lia]. Qed.
Lemma whole_more r n m a a' : n <= m -> as_whole r n a a' -> as_whole r m a a'.
Proof. intros L H B. destruct (H B) as (x & D & S & C). exists x. split; [exact D|]. split; [exact S|lia]. Qed.

Lemma leaf_gets t x r : (forall a, normal a -> compiler_step t a = spend 2 (with_atom x (a_level a)) (a_outer a) (MNormal false) a) ->
  denotes x r -> states x = 2 -> gets [t] (as_atom r 2) 2.
Proof.
  intros H D S a N U. rewrite (run_step _ _ _ _ (eq_trans (H a N) (spend_fine _ _ _ _ _ U))). eexists. split; [reflexivity|]. split.
  - split; [exists false; reflexivity|]. split; [reflexivity|]. cbn [a_used states]. lia.
  - repeat split. exists x. repeat split; [apply D|apply D|lia].
Qed.
Lemma assertion_gets t x r : (forall a, normal a -> compiler_step t a = spend 2 (with_assertion x (a_level a)) (a_outer a) (MNormal false) a) ->
  denotes x r -> states x = 2 -> gets [t] (as_part r 4) 2.
Proof.
  intros H D S a N U. rewrite (run_step _ _ _ _ (eq_trans (H a N) (spend_fine _ _ _ _ _ U))). eexists. split; [reflexivity|]. split.
  - split; [exists false; reflexivity|]. split; [reflexivity|]. cbn [a_used states]. lia.
  - repeat split. exists x. split; [exact D|]. split; [apply same_refl|]. cbn [a_level]. change (terms (with_assertion x (a_level a))) with (RSeq (terms (a_level a)) x). cbn [states]. lia.
Qed.
Lemma nothing_gets : gets [] (as_part Nothing 0) 0.
Proof.
  intros a N U. exists a. split; [reflexivity|]. split; [split; [exact N|split; [reflexivity|lia]]|]. split; [reflexivity|]. exists REmpty. split; [intros b e w; reflexivity|].
  split; [apply same_sym, seq_empty|lia].
Qed.
Lemma group_gets ts r n : gets ts (as_whole r n) n -> gets (group_tokens ts) (as_atom r (2 + n)) (4 + n).
Proof.
  intros G a [q Q] U. unfold group_tokens.
  set (a0 := {| a_level := level0; a_outer := a_level a :: a_outer a; a_mode := MNormal false; a_used := a_used a + 3 |}).
  assert (S0 : compiler_step TOpen a = Fine a0) by (unfold compiler_step; rewrite Q; apply spend_fine; lia).
  rewrite (run_step _ _ _ _ S0), run_app. destruct (G a0) as (a1 & R1 & ([q1 Q1] & O1 & U1) & H1); [exists false; reflexivity|unfold a0; cbn [a_used]; lia|]. rewrite R1.
  destruct H1 as (x & D & S & C); [split; reflexivity|]. cbn [a0 a_level level0 l_alts] in *. unfold a0 in U1. cbn [a_used] in U1.
  assert (S1 : compiler_step TClose a1 = Fine {| a_level := with_atom (whole (a_level a1)) (a_level a); a_outer := a_outer a; a_mode := MNormal false; a_used := a_used a1 + 1 |}).
  { unfold compiler_step. rewrite Q1, O1. cbn [a0 a_outer]. apply spend_fine. lia. }
  rewrite (run_step _ _ _ _ S1). eexists. split; [reflexivity|]. split.
  - split; [exists false; reflexivity|]. split; [reflexivity|]. cbn [a_used states]. lia.
  - repeat split. exists (whole (a_level a1)). split; [reflexivity|]. split; [intros b e w; rewrite (S b e w); apply D|]. change (states (whole level0)) with 2 in C. lia.
Qed.
Lemma seq_gets t1 t2 r1 r2 n1 n2 : gets t1 (as_part r1 n1) n1 -> gets t2 (as_part r2 n2) n2 -> gets (t1 ++ t2) (as_part (Seq r1 r2) (n1 + n2)) (n1 + n2).
Proof.
  intros G1 G2 a N U. destruct (G1 a N ltac:(lia)) as (a1 & R1 & (N1 & O1 & U1) & A1 & x1 & D1 & S1 & C1).
  destruct (G2 a1 N1 ltac:(lia)) as (a2 & R2 & (N2 & O2 & U2) & A2 & x2 & D2 & S2 & C2). exists a2. rewrite run_app, R1. split; [exact R2|]. split.
  - split; [exact N2|]. split; [congruence|lia].
  - split; [congruence|]. exists (RSeq x1 x2). split.
    + intros b e w. cbn. split; intros (u & v & E & P & Q); exists u, v; (split; [exact E|split; [apply D1|apply D2]; assumption]).
    + split; [|lia]. eapply same_trans; [exact S2|]. eapply same_trans; [apply same_seq; [exact S1|apply same_refl]|apply seq_assoc].
Qed.
Lemma alt_gets t1 t2 r1 r2 n1 n2 : gets t1 (as_whole r1 n1) n1 -> gets t2 (as_whole r2 n2) n2 ->
  gets (t1 ++ TOr :: t2) (as_whole (Alt r1 r2) (4 + n1 + n2)) (4 + n1 + n2).
Proof.
  intros G1 G2 a N U. destruct (G1 a N ltac:(lia)) as (a1 & R1 & ([q1 Q1] & O1 & U1) & H1).
  set (a1' := {| a_level := with_or (a_level a1); a_outer := a_outer a1; a_mode := MNormal false; a_used := a_used a1 + 2 |}).
  assert (S0 : compiler_step TOr a1 = Fine a1') by (unfold compiler_step; rewrite Q1; apply spend_fine; lia).
  destruct (G2 a1') as (a2 & R2 & (N2 & O2 & U2) & H2); [exists false; reflexivity|unfold a1'; cbn [a_used]; lia|]. exists a2. rewrite run_app, R1, (run_step _ _ _ _ S0). split; [exact R2|]. unfold a1' in U2. cbn [a_used] in U2. split.
  - split; [exact N2|]. split; [rewrite O2; exact O1|lia].
  - intros B. destruct (H1 B) as (x1 & D1 & S1 & C1). destruct (H2 (conj eq_refl eq_refl)) as (x2 & D2 & S2 & C2). cbn [a1' a_level with_or l_alts] in S2.
    exists (RAlt x1 x2). split; [intros b e w; cbn; rewrite (D1 b e w), (D2 b e w); reflexivity|]. split.
    + eapply same_trans; [exact S2|]. eapply same_trans; [apply same_alt; [exact S1|apply same_refl]|]. destruct (l_alts (a_level a)); [apply alt_assoc|apply same_refl].
    + change (states (whole (a_level a1'))) with (2 + states (whole (a_level a1)) + 2) in C2. lia.
Qed.
Lemma bracket_gets (neg front : bool) l (dash : bool) : forallb entry_fits l = true ->
  gets (TBracket neg :: (if front then [TDash] else []) ++ flat_map entry_tokens l ++ (if dash then [TDash] else []) ++ [TBracketEnd]) (as_atom (Bracket neg front l dash) 2) 3.
Proof.
  intros F a [q Q] U.
  set (a0 := {| a_level := a_level a; a_outer := a_outer a; a_mode := MBracket {| b_neg := neg; b_chars := []; b_ranges := []; b_classes := []; b_others := [] |} LNone BStart; a_used := a_used a + 2 |}).
  assert (S0 : compiler_step (TBracket neg) a = Fine a0) by (unfold compiler_step; rewrite Q; apply spend_fine; lia).
  rewrite (run_step _ _ _ _ S0), run_app.
  set (b0 := {| b_neg := neg; b_chars := []; b_ranges := []; b_classes := []; b_others := [] |}).
  assert (FR : exists a0' last0, compiler_run (if front then [TDash] else []) a0 = Fine a0' /\ in_bracket a0' b0 last0 /\ a_level a0' = a_level a0 /\ a_outer a0' = a_outer a0 /\ a_used a0' = a_used a0 /\
                          forall c, member (flush last0 b0) c = front && Ascii.eqb c "-").
  { destruct front.
    - exists {| a_level := a_level a0; a_outer := a_outer a0; a_mode := MBracket b0 (LChar "-") BMiddle; a_used := a_used a0 |}, (LChar "-"). split; [reflexivity|]. split; [left; reflexivity|]. repeat split.
      intros c. cbn [flush]. rewrite member_char. change (member b0 c) with false. apply orb_false_r.
    - exists a0, LNone. split; [reflexivity|]. split; [right; split; reflexivity|]. repeat split. }
  destruct FR as (a0' & last0 & R0 & A0 & L0 & O0 & U0 & M0). rewrite R0, run_app.
  destruct (entries_run l a0' _ _ F A0) as (a1 & R1 & L1 & O1 & U1 & b1 & last1 & A1 & N1 & M1). rewrite R1. rewrite L0 in L1. rewrite O0 in O1. rewrite U0 in U1. unfold a0 in L1, O1, U1. cbn [a_level a_outer a_used] in L1, O1, U1.
  assert (E : exists b2, compiler_run ((if dash then [TDash] else []) ++ [TBracketEnd]) a1
                = Fine {| a_level := with_atom (RSet (CBracket b2)) (a_level a); a_outer := a_outer a; a_mode := MNormal false; a_used := a_used a + 2 + 1 |}
              /\ b_neg b2 = neg /\ forall c, member b2 c = (dash && Ascii.eqb c "-") || member (flush last1 b1) c).
  { destruct dash; cbn [app andb].
    - destruct A1 as [A1|[A1 ->]].
      + exists (add_char "-" (flush last1 b1)). split; [|split; [cbn; rewrite flush_neg; exact N1|intros c; apply member_char]].
        cbn [compiler_run]. unfold compiler_step at 1. rewrite A1. cbn [bracket_step bracket_term]. cbn [compiler_run]. unfold compiler_step. cbn [a_mode bracket_step]. rewrite spend_fine by (cbn [a_used states]; lia). cbn [a_level a_outer a_used]. rewrite L1, O1, U1. reflexivity.
      + exists (add_char "-" b1). split; [|split; [exact N1|intros c; apply member_char]].
        cbn [compiler_run]. unfold compiler_step at 1. rewrite A1. cbn [bracket_step bracket_term]. cbn [compiler_run]. unfold compiler_step. cbn [a_mode bracket_step bracket_term flush]. rewrite spend_fine by (cbn [a_used states]; lia). cbn [a_level a_outer a_used]. rewrite L1, O1, U1. reflexivity.
    - exists (flush last1 b1). split; [|split; [rewrite flush_neg; exact N1|intros c; reflexivity]].
      cbn [compiler_run]. destruct A1 as [A1|[A1 ->]]; unfold compiler_step; rewrite A1; cbn [bracket_step bracket_term]; rewrite spend_fine by (cbn [a_used states]; lia); rewrite L1, O1, U1; reflexivity. }
  destruct E as (b2 & E & N2 & M2). rewrite E. eexists. split; [reflexivity|]. split.
  - split; [exists false; reflexivity|]. split; [reflexivity|]. cbn [a_used states]. lia.
  - repeat split. exists (RSet (CBracket b2)). split; [reflexivity|]. split; [|cbn [a_used states]; lia]. intros b e w. cbn [means says]. unfold one_of.
    assert (H : forall c, in_set (CBracket b2) c = xorb neg (existsb (in_entry c) l || (front || dash) && Ascii.eqb c "-")).
    { intros c. rewrite in_set_member, N2, M2, M1, M0. destruct neg, front, dash, (Ascii.eqb c "-"), (existsb (in_entry c) l); reflexivity. }
    split; intros (c & E1 & E2); exists c; (split; [exact E1|]); [rewrite <- H|rewrite H]; exact E2.
Qed.

(** *** Quantifiers *)
Lemma denotes_pieces x r : denotes x r -> forall n b e w, pieces (means x) n b e w <-> pieces (says r) n b e w.
Proof. intros D. apply pieces_iff. exact D. Qed.
Lemma rep_denotes x y r q lazy : denotes x r -> (forall b e w, means y b e w <-> exists k, allowed q k /\ pieces (means x) k b e w) -> denotes y (Rep r q lazy).
Proof. intros D H b e w. rewrite H. cbn. split; intros (k & A & P); exists k; (split; [exact A|apply (denotes_pieces x r D); exact P]). Qed.

(** the quantifier and the "?" behind it *)
Definition quantified (x y : rx) (q : often) (n : N) : Prop :=
  forall a, a_mode a = MNormal false -> l_last (a_level a) = Some x -> a_used a + n <= state_limit ->
  exists u, compiler_run (often_tokens q) a = Fine {| a_level := with_last y (a_level a); a_outer := a_outer a; a_mode := MNormal true; a_used := u |} /\ u <= a_used a + n.
Lemma rep_gets ts r q (lazy : bool) n k s : gets ts (as_atom r s) n ->
  (forall x, denotes x r -> states x <= s -> exists y, quantified x y q k /\ (forall b e w, means y b e w <-> exists j, allowed q j /\ pieces (means x) j b e w) /\ states y <= k) ->
  gets (ts ++ often_tokens q ++ (if lazy then [TOpt] else [])) (as_part (Rep r q lazy) (2 + k)) (2 + n + k).
Proof.
  intros G Hq a N U. destruct (G a N ltac:(lia)) as (a1 & R1 & (_ & O1 & U1) & N1 & A1 & T1 & x & X & D & S). rewrite run_app, R1.
  destruct (Hq x D S) as (y & Q & M & C). destruct (Q a1 N1 X ltac:(lia)) as (u & R2 & Uu). rewrite run_app, R2.
  assert (E : exists q', compiler_run (if lazy then [TOpt] else []) {| a_level := with_last y (a_level a1); a_outer := a_outer a1; a_mode := MNormal true; a_used := u |}
    = Fine {| a_level := with_last y (a_level a1); a_outer := a_outer a1; a_mode := MNormal q'; a_used := u + (if lazy then 2 else 0) |}).
  { destruct lazy; [exists false|exists true; cbn; rewrite N.add_0_r; reflexivity]. cbn [compiler_run]. unfold compiler_step. cbn [a_mode]. rewrite spend_fine by (cbn [a_used states]; lia). reflexivity. }
  destruct E as (q' & E). rewrite E. eexists. split; [reflexivity|]. split.
  - split; [exists q'; reflexivity|]. split; [exact O1|]. cbn [a_used]. destruct lazy; lia.
  - split; [exact A1|]. exists y. split; [eapply rep_denotes; eassumption|]. cbn [a_level].
    assert (T : terms (with_last y (a_level a1)) = RSeq (terms (a_level a)) y) by (unfold terms at 1; cbn [with_last l_last l_terms]; rewrite T1; reflexivity).
    rewrite T. split; [apply same_refl|]. cbn [states]. lia.
Qed.
Lemma simple_quantified t q x y : often_tokens q = [t] ->
  (forall a, a_mode a = MNormal false -> l_last (a_level a) = Some x -> compiler_step t a = spend 2 (with_last y (a_level a)) (a_outer a) (MNormal true) a) -> quantified x y q 2.
Proof.
  intros E H a B X U. exists (a_used a + 2). rewrite E. split; [|lia]. rewrite (run_step _ _ _ _ (eq_trans (H a B X) (spend_fine _ _ _ _ _ U))). reflexivity.
Qed.

Lemma states_repeated n x : states (repeated n x) = 2 + N.of_nat n * (2 + states x).
Proof. induction n as [|n IH]; [reflexivity|]. cbn [repeated states]. rewrite IH, Nat2N.inj_succ. lia. Qed.
Lemma states_up_to n x : states (up_to n x) = 2 + N.of_nat n * (6 + states x).
Proof. induction n as [|n IH]; [reflexivity|]. cbn [up_to states]. rewrite IH, Nat2N.inj_succ. lia. Qed.

(** the mode inside braces *)
Definition braced (a : compiler) (m : mode) (used : N) : compiler := {| a_level := a_level a; a_outer := a_outer a; a_mode := m; a_used := used |}.
Lemma interval_fine x a n m used : l_last (a_level a) = Some x ->
  used + (2 + n + match m with Some e => e | None => 1 end) * (2 + states x) <= state_limit -> forall mo,
  interval n m (braced a mo used)
  = Fine {| a_level := with_last (RSeq (repeated (N.to_nat n) x) (match m with Some e => up_to (N.to_nat e) x | None => RStar x end)) (a_level a);
            a_outer := a_outer a; a_mode := MNormal true; a_used := used + (2 + n + match m with Some e => e | None => 1 end) * (2 + states x) |}.
Proof.
  intros X U mo. unfold interval. cbn [braced a_level a_outer a_used]. rewrite X. destruct (N.ltb_spec state_limit (used + (2 + n + match m with Some e => e | None => 1 end) * (2 + states x))); [lia|reflexivity].
Qed.
Lemma brace_step x a : a_mode a = MNormal false -> l_last (a_level a) = Some x -> a_used a + 2 <= state_limit -> compiler_step TBrace a = Fine (braced a MBrace (a_used a + 2)).
Proof. intros B X U. unfold compiler_step. rewrite B, X. apply spend_fine. exact U. Qed.
Lemma count_step a used n : n <= int_limit -> compiler_step (TCount n) (braced a MBrace used) = Fine (braced a (MMin n) used).
Proof. intros L. unfold compiler_step. cbn [braced a_mode]. destruct (N.ltb_spec int_limit n); [lia|reflexivity]. Qed.
Lemma count2_step a used n m : m <= int_limit -> compiler_step (TCount m) (braced a (MComma n) used) = Fine (braced a (MMax n m) used).
Proof. intros L. unfold compiler_step. cbn [braced a_mode]. destruct (N.ltb_spec int_limit m); [lia|reflexivity]. Qed.
Lemma comma_step a used n : compiler_step TComma (braced a (MMin n) used) = Fine (braced a (MComma n) used).
Proof. reflexivity. Qed.

Definition often_fits (q : often) : bool := match q with Between n m => (n <=? m)%nat | _ => true end.
Definition often_load (q : often) (s : N) : N :=
  match q with Exactly n | AtLeast n | Between _ n => 10 + (N.of_nat n + 3) * (6 + s) | _ => 10 + 2 * s end.
Lemma often_quantified x q : often_fits q = true -> often_load q (states x) <= state_limit ->
  exists y, quantified x y q (often_load q (states x)) /\ (forall b e w, means y b e w <-> exists j, allowed q j /\ pieces (means x) j b e w) /\ states y <= often_load q (states x).
Proof.
  assert (W : forall y n m, quantified x y q n -> n <= m -> quantified x y q m).
  { intros y n m Q L a B X U. destruct (Q a B X ltac:(lia)) as (u & R & H). exists u. split; [exact R|lia]. }
  assert (IL : state_limit <= int_limit) by (vm_compute; discriminate).
  intros F L. destruct q as [| | |n|n|n m].
  - exists (RStar x). split; [|split; [apply any_means|cbn [states often_load]; lia]]. apply W with 2; [|cbn [often_load]; lia]. apply simple_quantified with TStar; [reflexivity|]. intros a B X. unfold compiler_step. rewrite B, X. reflexivity.
  - exists (RSeq x (RStar x)). split; [|split; [apply many_means|cbn [states often_load]; lia]]. apply W with 2; [|cbn [often_load]; lia]. apply simple_quantified with TPlus; [reflexivity|]. intros a B X. unfold compiler_step. rewrite B, X. reflexivity.
  - exists (RAlt x REmpty). split; [|split; [apply maybe_means|cbn [states often_load]; lia]]. apply W with 2; [|cbn [often_load]; lia]. apply simple_quantified with TOpt; [reflexivity|]. intros a B X. unfold compiler_step. rewrite B, X. reflexivity.
  - cbn [often_load] in *. exists (RSeq (repeated n x) REmpty). split; [|split; [apply exactly_means|cbn [states]; rewrite states_repeated; nia]].
    intros a B X U. cbn [often_tokens]. assert (NL : N.of_nat n <= int_limit) by nia. rewrite (run_step _ _ _ _ (brace_step x a B X ltac:(nia))), (run_step _ _ _ _ (count_step a _ _ NL)). cbn [compiler_run].
    assert (E : compiler_step TBraceEnd (braced a (MMin (N.of_nat n)) (a_used a + 2)) = interval (N.of_nat n) (Some 0) (braced a (MMin (N.of_nat n)) (a_used a + 2))) by reflexivity.
    rewrite E, (interval_fine x) by (auto; nia). rewrite Nat2N.id. change (up_to (N.to_nat 0) x) with REmpty. eexists. split; [reflexivity|nia].
  - cbn [often_load] in *. exists (RSeq (repeated n x) (RStar x)). split; [|split; [apply at_least_means|cbn [states]; rewrite states_repeated; nia]].
    intros a B X U. cbn [often_tokens]. assert (NL : N.of_nat n <= int_limit) by nia. rewrite (run_step _ _ _ _ (brace_step x a B X ltac:(nia))), (run_step _ _ _ _ (count_step a _ _ NL)), (run_step _ _ _ _ (comma_step a _ _)). cbn [compiler_run].
    assert (E : compiler_step TBraceEnd (braced a (MComma (N.of_nat n)) (a_used a + 2)) = interval (N.of_nat n) None (braced a (MComma (N.of_nat n)) (a_used a + 2))) by reflexivity.
    rewrite E, (interval_fine x) by (auto; nia). rewrite Nat2N.id. eexists. split; [reflexivity|nia].
  - cbn [often_load often_fits] in *. apply Nat.leb_le in F. assert (M : (N.of_nat m - N.of_nat n) = N.of_nat (m - n)) by lia.
    assert (ML : N.of_nat m <= int_limit) by nia. assert (NM : N.of_nat n <= N.of_nat m) by lia.
    exists (RSeq (repeated n x) (up_to (m - n) x)). split; [|split; [intros; apply between_means; exact F|cbn [states]; rewrite states_repeated, states_up_to; nia]].
    intros a B X U. cbn [often_tokens]. assert (NL : N.of_nat n <= int_limit) by lia. rewrite (run_step _ _ _ _ (brace_step x a B X ltac:(nia))), (run_step _ _ _ _ (count_step a _ _ NL)), (run_step _ _ _ _ (comma_step a _ _)), (run_step _ _ _ _ (count2_step a _ _ _ ML)). cbn [compiler_run].
    assert (E : compiler_step TBraceEnd (braced a (MMax (N.of_nat n) (N.of_nat m)) (a_used a + 2)) = interval (N.of_nat n) (Some (N.of_nat (m - n))) (braced a (MMax (N.of_nat n) (N.of_nat m)) (a_used a + 2))).
    { unfold compiler_step. cbn [braced a_mode]. destruct (N.ltb_spec (N.of_nat m) (N.of_nat n)); [lia|]. rewrite M. reflexivity. }
    rewrite E, (interval_fine x) by (auto; nia). rewrite !Nat2N.id. eexists. split; [reflexivity|nia].
Qed.

(** *** All expressions *)
Definition slack (p : place) (n : N) : N := match p with Atom => n - 4 | _ => n - 8 end.
Definition as_place (p : place) (r : re) (n : N) : compiler -> compiler -> Prop := match p with Whole => as_whole r n | Part => as_part r n | Atom => as_atom r n end.
Lemma load_pos r : 20 <= load r.
Proof. induction r; cbn [load]; try lia. destruct q; lia. Qed.

(** from an atom of its own *)
Lemma atom_places p ts r s n m : gets ts (as_atom r s) n -> s <= n -> 10 + n <= m -> gets ts (as_place p r (slack p m)) (slack p m).
Proof.
  intros G S L. destruct p; cbn [slack as_place]; (eapply gets_weaken; [exact G|lia|]); intros a a' H.
  - apply part_whole, (part_more _ (2 + s)); [lia|]. apply atom_part, H.
  - apply (part_more _ (2 + s)); [lia|]. apply atom_part, H.
  - revert H. apply atom_more. lia.
Qed.
(** from a part, in a group if an atom is needed *)
Lemma part_places p ts r n m : gets ts (as_part r n) n -> 8 + n <= m ->
  gets (match p with Atom => group_tokens ts | _ => ts end) (as_place p r (slack p m)) (slack p m).
Proof.
  intros G L. destruct p; cbn [slack as_place].
  - eapply gets_weaken; [exact G|lia|]. intros a a' H. apply part_whole. revert H. apply part_more. lia.
  - eapply gets_weaken; [exact G|lia|]. intros a a' H. revert H. apply part_more. lia.
  - eapply gets_weaken; [apply (group_gets ts r n); eapply gets_weaken; [exact G|lia|apply part_whole]|lia|]. intros a a'. apply atom_more. lia.
Qed.

Lemma re_gets r : fits r = true -> forall p, load r <= state_limit -> gets (tokens p r) (as_place p r (slack p (load r))) (slack p (load r)).
Proof.
  induction r; intros F p L; cbn [fits] in F.
  - apply (part_places p [] Nothing 0); [apply nothing_gets|]. cbn [load]. lia.
  - apply (atom_places p _ _ 2 2); [|lia|cbn [load]; lia]. apply leaf_gets with (RSet (single c)); [intros a [q Q]; unfold compiler_step; rewrite Q; reflexivity| |reflexivity].
    intros b e0 w. cbn [means says]. unfold one_of. cbn [single in_set b_chars b_ranges b_classes b_others b_neg existsb].
    split; [intros (d & -> & H)|intros ->; exists c; split; [reflexivity|]].
    + rewrite !orb_false_r in H. destruct (Ascii.eqb_spec d c); [subst; reflexivity|discriminate].
    + rewrite Ascii.eqb_refl. reflexivity.
  - apply (atom_places p _ _ 2 2); [|lia|cbn [load]; lia]. apply leaf_gets with (RSet CAny); [intros a [q Q]; unfold compiler_step; rewrite Q; reflexivity|intros b e w; reflexivity|reflexivity].
  - apply (atom_places p _ _ 2 2); [|lia|cbn [load]; lia]. apply leaf_gets with (RSet (CBracket {| b_neg := other; b_chars := []; b_ranges := []; b_classes := [cls_of (short_kind k)]; b_others := [] |})).
    + intros a [q Q]. unfold compiler_step. rewrite Q. unfold quoted_set. rewrite lookup_short, upper_short. reflexivity.
    + intros b e w. cbn [means says]. unfold one_of. cbn [in_set b_chars b_ranges b_classes b_others b_neg existsb orb].
      assert (H : forall c, xorb (is_cls (cls_of (short_kind k)) c || false || false) other = xorb other (has_kind (short_kind k) c)).
      { intros c. rewrite !orb_false_r, cls_kind. apply xorb_comm. }
      split; intros (c & E1 & E2); exists c; (split; [exact E1|]); [rewrite <- H|rewrite H]; exact E2.
    + reflexivity.
  - cbn [tokens]. apply (atom_places p _ _ 2 3); [apply bracket_gets; exact F|lia|cbn [load]; lia].
  - apply (part_places p [TBegin] Bol 4); [|cbn [load]; lia]. eapply gets_weaken; [apply (assertion_gets TBegin RBegin Bol); [intros a [q Q]; unfold compiler_step; rewrite Q; reflexivity|intros b e w; reflexivity|reflexivity]|lia|auto].
  - apply (part_places p [TEnd] Eol 4); [|cbn [load]; lia]. eapply gets_weaken; [apply (assertion_gets TEnd REnd Eol); [intros a [q Q]; unfold compiler_step; rewrite Q; reflexivity|intros b e w; reflexivity|reflexivity]|lia|auto].
  - apply andb_true_iff in F as [F1 F2]. cbn [load] in *. pose proof (load_pos r1). pose proof (load_pos r2).
    apply (part_places p (tokens Part r1 ++ tokens Part r2) (Seq r1 r2) ((load r1 - 8) + (load r2 - 8))); [|lia].
    apply seq_gets; [exact (IHr1 F1 Part ltac:(lia))|exact (IHr2 F2 Part ltac:(lia))].
  - apply andb_true_iff in F as [F1 F2]. cbn [load] in *. pose proof (load_pos r1). pose proof (load_pos r2).
    assert (G : gets (tokens Whole r1 ++ TOr :: tokens Whole r2) (as_whole (Alt r1 r2) (4 + (load r1 - 8) + (load r2 - 8))) (4 + (load r1 - 8) + (load r2 - 8))).
    { apply alt_gets; [exact (IHr1 F1 Whole ltac:(lia))|exact (IHr2 F2 Whole ltac:(lia))]. }
    destruct p; cbn [tokens].
    + eapply gets_weaken; [exact G|cbn [slack]; lia|]. cbn [as_place slack]. intros a a'. apply whole_more. lia.
    + apply (atom_places Part _ _ (2 + (4 + (load r1 - 8) + (load r2 - 8))) (4 + (4 + (load r1 - 8) + (load r2 - 8)))); [apply group_gets; exact G|lia|lia].
    + apply (atom_places Atom _ _ (2 + (4 + (load r1 - 8) + (load r2 - 8))) (4 + (4 + (load r1 - 8) + (load r2 - 8)))); [apply group_gets; exact G|lia|lia].
  - apply andb_true_iff in F as [F1 F2]. pose proof (load_pos r).
    assert (Lr : load r <= load (Rep r q lazy) /\ load r + often_load q (load r - 4) + 20 <= load (Rep r q lazy)) by (assert (E : exists s, load r = s + 4) by (exists (load r - 4); lia); destruct E as [s E]; destruct q; cbn [load often_load]; rewrite E, N.add_sub; nia).
    apply (part_places p (tokens Atom r ++ often_tokens q ++ (if lazy then [TOpt] else [])) (Rep r q lazy) (2 + (load r - 4) + often_load q (load r - 4))); [|lia].
    eapply gets_weaken; [apply (rep_gets _ r q lazy (load r - 4) (often_load q (load r - 4)) (load r - 4))|lia|intros a a'; apply part_more; lia].
    + exact (IHr F1 Atom ltac:(lia)).
    + intros x D S. assert (M : often_load q (states x) <= often_load q (load r - 4)) by (destruct q; cbn [often_load]; nia).
      destruct (often_quantified x q) as (y & Q & E & C); [destruct q; auto|lia|]. exists y. split; [|split; [exact E|lia]].
      intros a B X U. destruct (Q a B X ltac:(lia)) as (u & R & Uu). exists u. split; [exact R|lia].
  - cbn [load tokens] in *. pose proof (load_pos r).
    apply (atom_places p _ _ (2 + (load r - 8)) (4 + (load r - 8))); [|lia|lia].
    eapply gets_weaken; [apply (group_gets (tokens Whole r) r (load r - 8)); exact (IHr F Whole ltac:(lia))|lia|]. intros a a' (Q & A & T & x & X & D & C). split; [exact Q|]. split; [exact A|]. split; [exact T|].
    exists x. split; [exact X|]. split; [exact D|exact C].
Qed.

(** ** The reading *)
Theorem compile_pattern r : fits r = true -> load r <= load_limit -> exists x, compile (pattern r) = Fine x /\ denotes x r.
Proof.
  intros F L. unfold compile, pattern. rewrite (scan_whole _ _ (scans_re r F Whole)). pose proof (load_pos r) as LP. assert (IL : load_limit + 1000 = state_limit) by reflexivity.
  destruct (re_gets r F Whole ltac:(lia) compiler0) as (a & R & ([q Q] & O & _) & H); [exists false; reflexivity|cbn [slack]; change (a_used compiler0) with 10; lia|].
  destruct (H (conj eq_refl eq_refl)) as (x & D & S & _). rewrite R, Q, O. eexists. split; [reflexivity|]. intros b e w. rewrite (S b e w). apply D.
Qed.
Theorem match_pattern r s : fits r = true -> load r <= load_limit -> exists v, regex_match (pattern r) s = Fine v /\ (v = true <-> says r true true s).
Proof.
  intros F L. destruct (compile_pattern r F L) as (x & C & D). unfold regex_match. rewrite C. eexists. split; [reflexivity|]. rewrite matched_means. apply D.
Qed.

Theorem search_pattern r s : fits r = true -> load r <= load_limit -> exists v, regex_search (pattern r) s = Fine v /\ (v = true <-> occurs r s).
Proof.
  intros F L. destruct (compile_pattern r F L) as (x & C & D). unfold regex_search. rewrite C. eexists. split; [reflexivity|]. rewrite searched_means. unfold occurs, begins. cbn [andb].
  split; intros (u & v & y & E & H); exists u, v, y; (split; [exact E|]); apply D; exact H.
Qed.
