(** Proofs about the exported pages. *)
From Verif Require Import Base StrLib Fs Values Validators FormatParse Parser HelpBase HelpText HelpExport HelpSpec HelpTextProofs
  HelpPage HelpGood HelpLayout.

(** ** XML *)

Lemma unescape_other c s : c <> "&"%char -> xml_unescape (String c s) = String c (xml_unescape s).
Proof. intros H. cbn [xml_unescape]. now rewrite (proj2 (Ascii.eqb_neq c "&") H). Qed.

Lemma xml_round_trip s : xml_unescape (xml_escape s) = s.
Proof.
  induction s as [|c s IH]; [reflexivity|]. cbn [xml_escape].
  destruct (Ascii.eqb_spec c """") as [->|N1]; [change (String """" (xml_unescape (xml_escape s)) = String """" s); now rewrite IH|].
  destruct (Ascii.eqb_spec c "'") as [->|N2]; [change (String "'" (xml_unescape (xml_escape s)) = String "'" s); now rewrite IH|].
  destruct (Ascii.eqb_spec c "&") as [->|N3]; [change (String "&" (xml_unescape (xml_escape s)) = String "&" s); now rewrite IH|].
  destruct (Ascii.eqb_spec c "<") as [->|N4]; [change (String "<" (xml_unescape (xml_escape s)) = String "<" s); now rewrite IH|].
  destruct (Ascii.eqb_spec c ">") as [->|N5]; [change (String ">" (xml_unescape (xml_escape s)) = String ">" s); now rewrite IH|].
  cbn [str1 String.append]. rewrite unescape_other by exact N3. now rewrite IH.
Qed.

Lemma xml_text_escape s : xml_text (xml_escape s) = true.
Proof.
  induction s as [|c s IH]; [reflexivity|]. cbn [xml_escape].
  assert (R : forall n, In n ["quot;"; "apos;"; "amp;"; "lt;"; "gt;"] -> xml_text ("&" +s+ n +s+ xml_escape s) = true).
  { intros n Hn. cbn [String.append xml_text]. rewrite (proj2 (Ascii.eqb_eq "&" "&") eq_refl).
    apply andb_true_intro. split.
    - apply existsb_exists. exists n. split; [exact Hn|]. apply prefix_iff. now exists (xml_escape s).
    - repeat (destruct Hn as [<-|Hn]; [exact IH|]). destruct Hn. }
  destruct (Ascii.eqb_spec c """") as [->|N1]; [apply (R "quot;"); cbn; auto|].
  destruct (Ascii.eqb_spec c "'") as [->|N2]; [apply (R "apos;"); cbn; auto|].
  destruct (Ascii.eqb_spec c "&") as [->|N3]; [apply (R "amp;"); cbn; auto|].
  destruct (Ascii.eqb_spec c "<") as [->|N4]; [apply (R "lt;"); cbn; auto 10|].
  destruct (Ascii.eqb_spec c ">") as [->|N5]; [apply (R "gt;"); cbn; auto 10|].
  cbn [str1 String.append xml_text existsb]. rewrite (proj2 (Ascii.eqb_neq c "&") N3), (proj2 (Ascii.eqb_neq c _) N1), (proj2 (Ascii.eqb_neq c _) N2),
    (proj2 (Ascii.eqb_neq c _) N4), (proj2 (Ascii.eqb_neq c _) N5). exact IH.
Qed.

Lemma escape_no_tag s : scontains "<" (xml_escape s) = false.
Proof.
  assert (H : forall t, xml_text t = true -> scontains "<" t = false); [|apply H, xml_text_escape].
  induction t as [|c t IH]; [reflexivity|]. cbn [xml_text scontains]. destruct (Ascii.eqb_spec c "&") as [->|].
  - intros H. apply andb_prop in H as [_ H]. now rewrite (IH H).
  - intros H. apply andb_prop in H as [Hc H]. rewrite (IH H), orb_false_r. destruct (Ascii.eqb_spec "<" c) as [<-|]; [discriminate Hc|reflexivity].
Qed.

(** ** HTML: reading tags *)

Lemma scan_app a b st : html_scan (a +s+ b) st = match html_scan a st with Some st' => html_scan b st' | None => None end.
Proof. revert st; induction a as [|c a IH]; intros st; [reflexivity|]. cbn. destruct (html_char c st); [apply IH|reflexivity]. Qed.

Lemma scan_plain s k : scontains "<" s = false -> html_scan s (HText, k) = Some (HText, k).
Proof.
  induction s as [|c s IH]; [reflexivity|]. cbn [scontains html_scan]. intros H. apply orb_false_elim in H as [Hc H].
  unfold html_char. cbn [fst snd]. rewrite Ascii.eqb_sym, Hc. now apply IH.
Qed.

(** [s] is read completely and changes the stack of open elements from [k] to [k'] *)
Definition reads (s : string) (k k' : list string) : Prop := html_scan s (HText, k) = Some (HText, k').

Lemma reads_app a b k1 k2 k3 : reads a k1 k2 -> reads b k2 k3 -> reads (a +s+ b) k1 k3.
Proof. unfold reads. intros A B. rewrite scan_app, A. exact B. Qed.

(** a text that to_html turns into something that opens and closes its own elements, wherever it occurs *)
Definition html_good (nd : bool) (s : string) : Prop := exists r,
  (forall tags b, html_from nd tags (s +s+ b) = lift_res (html_from nd tags b) (fun q => Ret (r +s+ q))) /\ forall k, reads r k k.

Lemma lift_lift {A B C} (r : res A) (f : A -> res B) (g : B -> res C) : lift_res (lift_res r f) g = lift_res r (fun a => lift_res (f a) g).
Proof. now destruct r. Qed.
Lemma lift_ext {A B} (r : res A) (f g : A -> res B) : (forall a, f a = g a) -> lift_res r f = lift_res r g.
Proof. intros H. destruct r; cbn; auto. Qed.

Lemma html_good_app nd a b : html_good nd a -> html_good nd b -> html_good nd (a +s+ b).
Proof.
  intros (ra & A & RA) (rb & B & RB). exists (ra +s+ rb). split; [|intros k; eapply reads_app; eauto].
  intros tags c. rewrite app_assoc_s, A, B, lift_lift. apply lift_ext. intros x. cbn. now rewrite app_assoc_s.
Qed.

Lemma html_plain_step nd c tags s : c <> "\"%char -> html_from nd tags (String c s) = lift_res (html_from nd tags s) (fun q => Ret (String c q)).
Proof. intros H. cbn [html_from]. now rewrite (proj2 (Ascii.eqb_neq c "\") H). Qed.

Lemma html_verbatim nd s : scontains "\" s = false -> forall tags b, html_from nd tags (s +s+ b) = lift_res (html_from nd tags b) (fun q => Ret (s +s+ q)).
Proof.
  induction s as [|c s IH]; intros H tags b; [cbn; now destruct (html_from nd tags b)|].
  cbn [scontains] in H. apply orb_false_elim in H as [Hc H]. apply Ascii.eqb_neq in Hc.
  cbn [String.append]. rewrite html_plain_step by congruence. rewrite (IH H), lift_lift. now apply lift_ext.
Qed.

Lemma html_good_plain nd s : plain_text s = true -> html_good nd s.
Proof.
  intros H. exists s. split.
  - apply html_verbatim. apply (plain_text_not "\" s); [now left|exact H].
  - intros k. apply scan_plain. apply (plain_text_not "<" s); [now right; left|exact H].
Qed.

Lemma html_good_font nd f e s : (f, e) = ("B"%char, "strong") \/ (f, e) = ("I"%char, "em") -> html_good nd s ->
  html_good nd (String "\" (String "f" (str1 f)) +s+ s +s+ "\fP").
Proof.
  intros HF (r & R & K). exists ("<" +s+ e +s+ ">" +s+ r +s+ "</" +s+ e +s+ ">"). split.
  - intros tags b. rewrite !app_assoc_s.
    assert (X : html_from nd (e :: tags) (s +s+ "\fP" +s+ b) = lift_res (html_from nd tags b) (fun q => Ret (r +s+ "</" +s+ e +s+ ">" +s+ q))).
    { rewrite R. change (html_from nd (e :: tags) ("\fP" +s+ b)) with (lift_res (html_from nd tags b) (fun q => Ret ("</" +s+ e +s+ ">" +s+ q))).
      rewrite lift_lift. apply lift_ext. intros q. reflexivity. }
    destruct HF as [HF|HF]; injection HF as -> ->;
    [change (html_from nd tags (String "\" (String "f" (str1 "B")) +s+ s +s+ "\fP" +s+ b)) with
       (lift_res (html_from nd ("strong" :: tags) (s +s+ "\fP" +s+ b)) (fun q => Ret ("<strong>" +s+ q)))
    |change (html_from nd tags (String "\" (String "f" (str1 "I")) +s+ s +s+ "\fP" +s+ b)) with
       (lift_res (html_from nd ("em" :: tags) (s +s+ "\fP" +s+ b)) (fun q => Ret ("<em>" +s+ q)))];
    rewrite X, lift_lift; apply lift_ext; intros q; cbn [lift_res]; cbn [String.append]; rewrite ?app_assoc_s; reflexivity.
  - intros k. destruct HF as [HF|HF]; injection HF as -> ->.
    + apply (reads_app "<strong>" (r +s+ "</strong>") k ("strong" :: k) k); [reflexivity|]. apply (reads_app r "</strong>" _ ("strong" :: k)); [apply K|reflexivity].
    + apply (reads_app "<em>" (r +s+ "</em>") k ("em" :: k) k); [reflexivity|]. apply (reads_app r "</em>" _ ("em" :: k)); [apply K|reflexivity].
Qed.

(** neat texts are good.  [tags]: names of the fonts switched on, last one first *)
Lemma neat_from nd s : forall tags, balanced (List.length tags) s = true -> scontains "<" s = false ->
  Forall (fun t => t = "em" \/ t = "strong") tags ->
  exists r, (forall tags' b, html_from nd (tags ++ tags') (s +s+ b) = lift_res (html_from nd tags' b) (fun q => Ret (r +s+ q)))
    /\ forall k, reads r (tags ++ k) k.
Proof.
  revert s. apply (str_ind_len (fun s => forall tags, balanced (List.length tags) s = true -> scontains "<" s = false ->
    Forall (fun t => t = "em" \/ t = "strong") tags ->
    exists r, (forall tags' b, html_from nd (tags ++ tags') (s +s+ b) = lift_res (html_from nd tags' b) (fun q => Ret (r +s+ q)))
      /\ forall k, reads r (tags ++ k) k)).
  intros [|c s1] IH tags B N T.
  { cbn in B. apply Nat.eqb_eq in B. destruct tags; [|discriminate]. exists "". split; [|reflexivity]. intros tags' b. cbn. now destruct (html_from nd tags' b). }
  cbn [balanced scontains] in *. apply orb_false_elim in N as [Nc N1].
  assert (P : forall (pre : string) s tags2, String.length s < String.length (String c s1) -> balanced (List.length tags2) s = true ->
     scontains "<" s = false -> Forall (fun t => t = "em" \/ t = "strong") tags2 ->
     (forall k, reads pre (tags ++ k) (tags2 ++ k)) ->
     (forall tags' b, html_from nd (tags ++ tags') (String c s1 +s+ b) = lift_res (html_from nd (tags2 ++ tags') (s +s+ b)) (fun q => Ret (pre +s+ q))) ->
     exists r, (forall tags' b, html_from nd (tags ++ tags') (String c s1 +s+ b) = lift_res (html_from nd tags' b) (fun q => Ret (r +s+ q)))
       /\ forall k, reads r (tags ++ k) k).
  { intros pre s tags2 Hl Hb Hn Ht Hp HX. destruct (IH s Hl tags2 Hb Hn Ht) as (r & R & K). exists (pre +s+ r). split.
    - intros tags' b. rewrite HX, R, lift_lift. apply lift_ext. intros q. cbn. now rewrite app_assoc_s.
    - intros k. eapply reads_app; [apply Hp|apply K]. }
  destruct (Ascii.eqb_spec c "\") as [->|Hc].
  2:{ apply (P (str1 c) s1 tags); auto.
      - intros k. apply scan_plain. cbn [str1 scontains]. now rewrite Nc.
      - intros tags' b. cbn [String.append]. now rewrite html_plain_step. }
  destruct s1 as [|d s2]; [discriminate|]. cbn [scontains] in N1. apply orb_false_elim in N1 as [Nd N2].
  destruct (Ascii.eqb_spec d "f") as [->|Hf].
  2:{ destruct (Ascii.eqb_spec d "-") as [->|Hd].
      - apply (P "-" s2 tags); [cbn; lia|exact B|exact N2|exact T| |].
        + intros k. now apply scan_plain.
        + intros tags' b. reflexivity.
      - apply (P (String "\" (str1 d)) s2 tags); [cbn; lia|exact B|exact N2|exact T| |].
        + intros k. apply scan_plain. cbn [str1 scontains]. rewrite Nd. reflexivity.
        + intros tags' b. cbn [String.append html_from]. change (Ascii.eqb "\" "\") with true. cbn iota.
          rewrite (proj2 (Ascii.eqb_neq d "-") Hd), (proj2 (Ascii.eqb_neq d "f") Hf). reflexivity. }
  destruct s2 as [|e s3]; [discriminate|]. cbn [scontains] in N2. apply orb_false_elim in N2 as [Ne N3].
  destruct (Ascii.eqb_spec e "B") as [->|HB]; [|destruct (Ascii.eqb_spec e "I") as [->|HI]; [|destruct (Ascii.eqb_spec e "P") as [->|HP]]]; cbn [orb] in B.
  - apply (P "<strong>" s3 ("strong" :: tags)); [cbn; lia|exact B|exact N3|now constructor; [right|]|reflexivity|reflexivity].
  - apply (P "<em>" s3 ("em" :: tags)); [cbn; lia|exact B|exact N3|now constructor; [left|]|reflexivity|reflexivity].
  - destruct tags as [|t tags]; cbn [List.length] in B; [discriminate|]. inversion_clear T as [|? ? Ht T'].
    apply (P ("</" +s+ t +s+ ">") s3 tags); [cbn; lia|exact B|exact N3|exact T'| |].
    + intros k. destruct Ht as [-> | ->]; reflexivity.
    + intros tags' b. cbn [app String.append html_from].
      change (Ascii.eqb "\" "\") with true. change (Ascii.eqb "f" "-") with false. change (Ascii.eqb "f" "f") with true.
      change (Ascii.eqb "P" "I") with false. change (Ascii.eqb "P" "B") with false. change (Ascii.eqb "P" "P") with true. cbn iota.
      apply lift_ext. intros q. cbn [String.append]. now rewrite app_assoc_s.
  - apply (P ("\f" +s+ str1 e) s3 tags); [cbn; lia|exact B|exact N3|exact T| |].
    + intros k. apply scan_plain. cbn [str1 scontains String.append]. rewrite Ne. reflexivity.
    + intros tags' b. cbn [app String.append html_from].
      change (Ascii.eqb "\" "\") with true. change (Ascii.eqb "f" "-") with false. change (Ascii.eqb "f" "f") with true. cbn iota.
      rewrite (proj2 (Ascii.eqb_neq e "B") HB), (proj2 (Ascii.eqb_neq e "I") HI), (proj2 (Ascii.eqb_neq e "P") HP). reflexivity.
Qed.

Lemma neat_good nd s : neat s = true -> html_good nd s.
Proof.
  unfold neat. intros H. apply andb_prop in H as [B N]. apply negb_true_iff in N. exact (neat_from nd s [] B N (Forall_nil _)).
Qed.

Lemma html_good_tags nd s : html_good nd s -> html_good nd ("<strong>" +s+ s +s+ "</strong>").
Proof.
  intros (r & R & K). exists ("<strong>" +s+ r +s+ "</strong>"). split.
  - intros tags b. rewrite !app_assoc_s. rewrite (html_verbatim nd "<strong>" eq_refl), R, (html_verbatim nd "</strong>" eq_refl), !lift_lift.
    apply lift_ext. intros q. cbn [lift_res]. now rewrite !app_assoc_s.
  - intros k. apply (reads_app "<strong>" (r +s+ "</strong>") k ("strong" :: k) k); [reflexivity|]. apply (reads_app r "</strong>" _ ("strong" :: k)); [apply K|reflexivity].
Qed.

Lemma html_good_ret nd s : html_good nd s -> exists r, to_html nd s = Ret r /\ forall k, reads r k k.
Proof.
  intros (r & R & K). exists r. split; [|exact K]. unfold to_html. specialize (R [] ""). rewrite !app_nil_r_s in R. rewrite R. cbn. now rewrite app_nil_r_s.
Qed.

(** ** The HTML page *)

Definition mk_html (s : string) (f : bool * bool) : hstate := {| h_out := s; h_dl := fst f; h_p := snd f |}.

Section html_page.
Variable nd : bool.

Definition hconv (s : string) : string := match to_html nd s with Ret r => r | _ => "" end.
Definition hok (s : string) : bool := is_ret (to_html nd s).

Definition e_close_list : eff (bool * bool) := (true, fun f : bool * bool => if fst f then ("</dl>" +s+ nl, (false, snd f)) else ("", f)).
Definition e_close_p : eff (bool * bool) := (true, fun f : bool * bool => if snd f then ("</p>" +s+ nl, (fst f, false)) else ("", f)).
Definition e_open_p : eff (bool * bool) := (true, fun f : bool * bool => if snd f then ("", f) else ("<p>" +s+ nl, (fst f, true))).
Definition e_open_list : eff (bool * bool) := (true, fun f : bool * bool => if fst f then ("", f) else ("<dl>" +s+ nl, (true, snd f))).
Definition e_put (s : string) : eff (bool * bool) := (true, fun f : bool * bool => (s, f)).
Definition e_html (s : string) (k : string -> string) : eff (bool * bool) := (hok s, fun f : bool * bool => (k (hconv s), f)).

Definition html_effects : @effects (bool * bool) :=
  {| q_header := fun m =>
       e_seq (e_put ("<!DOCTYPE html PUBLIC ""-//W3C//DTD HTML 4.01//EN"" "
            +s+ "http://www.w3.org/TR/html4/strict.dtd"">" +s+ nl
            +s+ "<html lang=""en"">" +s+ nl
            +s+ "<head>" +s+ nl
            +s+ "<meta http-equiv=""content-type"" content=""text/html; charset=utf-8"">" +s+ nl
            +s+ "<title>" +s+ xml_escape (m_app_name m) +s+ " &mdash; " +s+ xml_escape (m_short_description m) +s+ "</title>" +s+ nl
            +s+ "</head>" +s+ nl
            +s+ "<body>" +s+ nl))
         (e_seq (e_html (m_app_name m) (fun a => "<h1>" +s+ a +s+ "</h1>" +s+ nl))
                (e_html (m_short_description m) (fun d => "<div>" +s+ d +s+ "</div>" +s+ nl)));
     q_section := fun s => e_seq e_close_list (e_seq e_close_p (e_html s (fun t => "<h2>" +s+ t +s+ "</h2>" +s+ nl)));
     q_subsection := fun s => e_seq e_close_list (e_seq e_close_p (e_html s (fun t => "<h3>" +s+ t +s+ "</h3>" +s+ nl)));
     q_line := fun s b => e_seq e_close_list (e_seq e_open_p (e_seq (e_html s (fun t => t +s+ nl))
                 (if b then e_close_p else e_put ("<br>" +s+ nl))));
     q_item := fun k d => e_seq e_close_p (e_seq e_open_list (e_seq (e_html k (fun t => "<dt>" +s+ t +s+ "</dt>" +s+ nl))
                 (e_html d (fun t => "<dd>" +s+ t +s+ "</dd>" +s+ nl))));
     q_footer := e_seq e_close_p (e_put "</body></html>");
     q_bold := fun s => "<strong>" +s+ s +s+ "</strong>" |}.

Lemma does_html_put s : does mk_html (put_html s) (e_put s).
Proof. intros a f. reflexivity. Qed.

Ltac flags := intros a [d p]; unfold modify, mk_html; destruct d, p; cbn [fst snd h_out h_dl h_p]; rewrite ?app_nil_r_s; reflexivity.
Lemma does_close_list : does mk_html close_list e_close_list. Proof. flags. Qed.
Lemma does_close_p : does mk_html close_paragraph e_close_p. Proof. flags. Qed.
Lemma does_open_list : does mk_html open_list e_open_list. Proof. flags. Qed.
Lemma does_open_p : does mk_html open_paragraph e_open_p. Proof. flags. Qed.

Lemma does_html s k m e : (forall r, to_html nd s = Ret r -> does mk_html (m r) (e_seq (e_put (k r)) e)) ->
  does mk_html (do t <- to_html_m nd s; m t) (e_seq (e_html s k) e).
Proof.
  intros H a f. unfold bind, to_html_m. unfold e_html, e_seq, hok, hconv. cbn [fst snd].
  destruct (to_html nd s) eqn:E; cbn [is_ret andb]; try reflexivity. specialize (H a0 eq_refl a f).
  cbn [e_seq e_put fst snd andb] in H. exact H.
Qed.

Lemma does_html_last s k : does mk_html (do t <- to_html_m nd s; put_html (k t)) (e_html s k).
Proof.
  intros a f. unfold bind, to_html_m, e_html, hok, hconv. cbn [fst snd].
  destruct (to_html nd s) eqn:E; cbn [is_ret]; reflexivity.
Qed.

Lemma html_implements : implements mk_html (html_printer nd) html_effects.
Proof.
  refine (conj _ (conj _ (conj _ (conj _ (conj _ (conj _ _))))));
    cbn [p_header p_section p_subsection p_line p_item p_footer p_bold q_header q_section q_subsection q_line q_item q_footer q_bold html_effects html_printer].
  - intros m. apply does_bind; [apply does_html_put|]. apply does_html. intros r _. apply does_bind; [apply does_html_put|]. apply does_html_last with (k := fun d => _).
  - intros s. apply does_bind; [apply does_close_list|]. apply does_bind; [apply does_close_p|]. apply does_html_last with (k := fun d => _).
  - intros s. apply does_bind; [apply does_close_list|]. apply does_bind; [apply does_close_p|]. apply does_html_last with (k := fun d => _).
  - intros s b. apply does_bind; [apply does_close_list|]. apply does_bind; [apply does_open_p|]. apply does_html. intros r _.
    apply does_bind; [apply does_html_put|]. destruct b; [apply does_close_p|apply does_html_put].
  - intros k d. apply does_bind; [apply does_close_p|]. apply does_bind; [apply does_open_list|]. apply does_html. intros r _.
    apply does_bind; [apply does_html_put|]. apply does_html_last with (k := fun d => _).
  - apply does_bind; [apply does_close_p|apply does_html_put].
  - reflexivity.
Qed.

(** the elements open around the current position *)
Definition valid (f : bool * bool) : bool := negb (fst f && snd f).
Definition stk (f : bool * bool) : list string := (if snd f then ["p"] else if fst f then ["dl"] else []) ++ ["body"; "html"].
Definition nests (e : eff (bool * bool)) : Prop := fst e = true /\ forall f, valid f = true ->
  valid (snd (snd e f)) = true /\ reads (fst (snd e f)) (stk f) (stk (snd (snd e f))).

Lemma nests_seq a b : nests a -> nests b -> nests (e_seq a b).
Proof.
  intros [A1 A2] [B1 B2]. split; [cbn; now rewrite A1, B1|]. intros f V. destruct (A2 f V) as [V1 R1]. destruct (B2 _ V1) as [V2 R2].
  cbn [e_seq fst snd]. split; [exact V2|]. eapply reads_app; eauto.
Qed.

Lemma nests_ret : nests e_ret.
Proof. split; [reflexivity|]. intros f V. split; [exact V|reflexivity]. Qed.

(** fixed pieces around a good text *)
Lemma reads_around a r b k1 k2 k3 : reads a k1 k2 -> (forall k, reads r k k) -> reads b k2 k3 -> reads (a +s+ r +s+ b) k1 k3.
Proof. intros A R B. eapply reads_app; [exact A|]. eapply reads_app; [apply R|exact B]. Qed.

Lemma hok_good s : html_good nd s -> hok s = true /\ forall k, reads (hconv s) k k.
Proof. intros H. destruct (html_good_ret nd s H) as (r & R & K). unfold hok, hconv. rewrite R. auto. Qed.

Lemma nests_section s : html_good nd s -> nests (q_section html_effects s).
Proof.
  intros H. destruct (hok_good s H) as [K R]. cbn [q_section html_effects]. unfold e_html, e_close_list, e_close_p, e_seq. cbn [fst snd andb].
  split; [exact K|]. intros [[] []] V; try discriminate V; cbn [fst snd]; (split; [reflexivity|]).
  - apply (reads_app ("</dl>" +s+ nl) _ _ ["body"; "html"]); [reflexivity|]. exact (reads_around "<h2>" _ ("</h2>" +s+ nl) _ ["h2"; "body"; "html"] _ eq_refl R eq_refl).
  - apply (reads_app ("</p>" +s+ nl) _ _ ["body"; "html"]); [reflexivity|]. exact (reads_around "<h2>" _ ("</h2>" +s+ nl) _ ["h2"; "body"; "html"] _ eq_refl R eq_refl).
  - exact (reads_around "<h2>" _ ("</h2>" +s+ nl) _ ["h2"; "body"; "html"] _ eq_refl R eq_refl).
Qed.

Lemma nests_subsection s : html_good nd s -> nests (q_subsection html_effects s).
Proof.
  intros H. destruct (hok_good s H) as [K R]. cbn [q_subsection html_effects]. unfold e_html, e_close_list, e_close_p, e_seq. cbn [fst snd andb].
  split; [exact K|]. intros [[] []] V; try discriminate V; cbn [fst snd]; (split; [reflexivity|]).
  - apply (reads_app ("</dl>" +s+ nl) _ _ ["body"; "html"]); [reflexivity|]. exact (reads_around "<h3>" _ ("</h3>" +s+ nl) _ ["h3"; "body"; "html"] _ eq_refl R eq_refl).
  - apply (reads_app ("</p>" +s+ nl) _ _ ["body"; "html"]); [reflexivity|]. exact (reads_around "<h3>" _ ("</h3>" +s+ nl) _ ["h3"; "body"; "html"] _ eq_refl R eq_refl).
  - exact (reads_around "<h3>" _ ("</h3>" +s+ nl) _ ["h3"; "body"; "html"] _ eq_refl R eq_refl).
Qed.

Lemma nests_line s b : html_good nd s -> nests (q_line html_effects s b).
Proof.
  intros H. destruct (hok_good s H) as [K R]. cbn [q_line html_effects]. unfold e_html, e_close_list, e_close_p, e_open_p, e_put, e_seq.
  assert (P : forall t k k', reads t k k' -> reads ((hconv s +s+ nl) +s+ t) k k').
  { intros t k k' T. rewrite app_assoc_s. eapply reads_app; [apply R|]. eapply reads_app; [|exact T]. reflexivity. }
  destruct b; cbn [fst snd andb]; rewrite K; (split; [reflexivity|]); intros [[] []] V; try discriminate V; cbn [fst snd]; (split; [reflexivity|]).
  - apply (reads_app ("</dl>" +s+ nl) _ _ ["body"; "html"]); [reflexivity|]. apply (reads_app ("<p>" +s+ nl) _ _ ["p"; "body"; "html"]); [reflexivity|].
    apply P. reflexivity.
  - apply P. reflexivity.
  - apply (reads_app ("<p>" +s+ nl) _ _ ["p"; "body"; "html"]); [reflexivity|]. apply P. reflexivity.
  - apply (reads_app ("</dl>" +s+ nl) _ _ ["body"; "html"]); [reflexivity|]. apply (reads_app ("<p>" +s+ nl) _ _ ["p"; "body"; "html"]); [reflexivity|].
    apply P. reflexivity.
  - apply P. reflexivity.
  - apply (reads_app ("<p>" +s+ nl) _ _ ["p"; "body"; "html"]); [reflexivity|]. apply P. reflexivity.
Qed.

Lemma nests_item k d : html_good nd k -> html_good nd d -> nests (q_item html_effects k d).
Proof.
  intros Hk Hd. destruct (hok_good k Hk) as [K1 R1], (hok_good d Hd) as [K2 R2]. cbn [q_item html_effects]. unfold e_html, e_close_p, e_open_list, e_seq.
  assert (P : reads (("<dt>" +s+ hconv k +s+ "</dt>" +s+ nl) +s+ ("<dd>" +s+ hconv d +s+ "</dd>" +s+ nl)) ["dl"; "body"; "html"] ["dl"; "body"; "html"]).
  { eapply reads_app.
    - exact (reads_around "<dt>" _ ("</dt>" +s+ nl) _ ["dt"; "dl"; "body"; "html"] _ eq_refl R1 eq_refl).
    - exact (reads_around "<dd>" _ ("</dd>" +s+ nl) _ ["dd"; "dl"; "body"; "html"] _ eq_refl R2 eq_refl). }
  cbn [fst snd andb]. rewrite K1, K2. split; [reflexivity|]. intros [[] []] V; try discriminate V; cbn [fst snd]; (split; [reflexivity|]).
  - exact P.
  - apply (reads_app ("</p>" +s+ nl) _ _ ["body"; "html"]); [reflexivity|]. apply (reads_app ("<dl>" +s+ nl) _ _ ["dl"; "body"; "html"]); [reflexivity|exact P].
  - apply (reads_app ("<dl>" +s+ nl) _ _ ["dl"; "body"; "html"]); [reflexivity|exact P].
Qed.

Definition bare : @effects (bool * bool) :=
  {| q_header := fun _ => e_ret; q_section := q_section html_effects; q_subsection := q_subsection html_effects; q_line := q_line html_effects;
     q_item := q_item html_effects; q_footer := e_ret; q_bold := q_bold html_effects |}.

Lemma page_around exports adv r f : snd (e_page html_effects exports adv r) f
  = snd (e_seq (q_header html_effects (pr_info r)) (e_seq (e_page bare exports adv r) (q_footer html_effects))) f.
Proof.
  unfold e_page, e_before, e_after.
  change (e_map (e_synopsis bare)) with (e_map (e_synopsis html_effects)). change (e_subcommands bare) with (e_subcommands html_effects).
  change (e_map (q_print bare)) with (e_map (q_print html_effects)). change (e_common bare) with (e_common html_effects).
  change (e_version bare) with (e_version html_effects). change (e_legal bare) with (e_legal html_effects).
  cbn [bare q_header q_footer q_section q_line].
  set (H := q_header html_effects (pr_info r)). set (Ft := q_footer html_effects). clearbody H Ft.
  repeat match goal with |- context [e_when ?b ?x] => generalize (e_when b x); intro end.
  repeat match goal with |- context [e_map ?b ?x] => generalize (e_map b x); intro end.
  generalize (e_subcommands html_effects (pr_info r) (pr_subcommands r)) (e_common html_effects exports (pr_dev r))
    (e_version html_effects (pr_info r)) (e_legal html_effects (pr_info r)) (q_section html_effects "Options"). intros.
  cbn [e_seq e_ret fst snd]. rewrite ?app_assoc_s. cbn [String.append]. rewrite ?app_nil_r_s. reflexivity.
Qed.

(** no list is open after these *)
Definition keeps (e : eff (bool * bool)) : Prop := forall f, fst f = false -> fst (snd (snd e f)) = false.
Definition clears (e : eff (bool * bool)) : Prop := forall f, fst (snd (snd e f)) = false.

Lemma keeps_ret : keeps e_ret. Proof. intros f H. exact H. Qed.
Lemma clears_keeps e : clears e -> keeps e. Proof. intros H f _. apply H. Qed.
Lemma keeps_seq a b : keeps a -> keeps b -> keeps (e_seq a b).
Proof. intros A B f H. cbn. now apply B, A. Qed.
Lemma clears_seq a b : clears a -> keeps b -> clears (e_seq a b).
Proof. intros A B f. cbn. now apply B. Qed.
Lemma clears_seq_r a b : clears b -> clears (e_seq a b).
Proof. intros B f. cbn. apply B. Qed.
Lemma keeps_when b e : keeps e -> keeps (e_when b e).
Proof. destruct b; [auto|intros; apply keeps_ret]. Qed.
Lemma clears_section s : clears (q_section bare s). Proof. now intros [[] []]. Qed.
Lemma clears_line s b : clears (q_line bare s b). Proof. now destruct b; intros [[] []]. Qed.

Lemma clears_page exports adv r : clears (e_page bare exports adv r).
Proof.
  unfold e_page, e_after. do 5 apply clears_seq_r. apply clears_seq.
  - unfold e_version. apply clears_seq; [apply clears_section|].
    repeat (apply keeps_seq; [apply clears_keeps, clears_line|]). apply keeps_when, keeps_seq; apply clears_keeps; [apply clears_section|apply clears_line].
  - apply keeps_seq; [|apply keeps_ret]. unfold e_legal. apply keeps_when, keeps_seq; [apply clears_keeps, clears_section|].
    repeat match goal with
      | |- keeps (e_when _ _) => apply keeps_when
      | |- keeps (q_line _ _ _) => apply clears_keeps, clears_line
      | |- keeps (e_seq _ _) => apply keeps_seq
      end.
Qed.

Lemma nests_bare exports adv r : has_commands (pr_info r) = true -> forallb neat (page_texts r) = true -> plain_text exports = true ->
  nests (e_page bare exports adv r).
Proof.
  intros HC HT HX. apply (Pe_page_before_footer bare (html_good nd) nests).
  - apply html_good_app.
  - intros s H. exact (html_good_font nd "B" "strong" s (or_introl eq_refl) H).
  - intros s H. exact (html_good_font nd "I" "em" s (or_intror eq_refl) H).
  - apply html_good_plain.
  - apply html_good_tags.
  - exact nests_ret.
  - exact nests_seq.
  - exact nests_section.
  - exact nests_subsection.
  - exact nests_line.
  - exact nests_item.
  - exact HC.
  - apply Forall_forall. intros s Hs. rewrite forallb_forall in HT. now apply neat_good, HT.
  - now apply html_good_plain.
  - exact nests_ret.
  - exact nests_ret.
Qed.

Lemma header_reads m f : html_good nd (m_app_name m) -> html_good nd (m_short_description m) ->
  fst (q_header html_effects m) = true /\ snd (snd (q_header html_effects m) f) = f /\
  reads (fst (snd (q_header html_effects m) f)) [] ["body"; "html"].
Proof.
  intros H1 H2. destruct (hok_good _ H1) as [K1 R1], (hok_good _ H2) as [K2 R2].
  cbn [q_header html_effects]. unfold e_put, e_html, e_seq. cbn [fst snd andb]. rewrite K1, K2. split; [reflexivity|]. split; [reflexivity|].
  apply (reads_app _ _ _ ["body"; "html"]).
  - apply (reads_app ("<!DOCTYPE html PUBLIC ""-//W3C//DTD HTML 4.01//EN"" http://www.w3.org/TR/html4/strict.dtd"">" +s+ nl
            +s+ "<html lang=""en"">" +s+ nl +s+ "<head>" +s+ nl
            +s+ "<meta http-equiv=""content-type"" content=""text/html; charset=utf-8"">" +s+ nl +s+ "<title>")
        (xml_escape (m_app_name m) +s+ " &mdash; " +s+ xml_escape (m_short_description m) +s+ "</title>" +s+ nl +s+ "</head>" +s+ nl +s+ "<body>" +s+ nl)
        [] ["title"; "head"; "html"]); [vm_compute; reflexivity|].
    eapply reads_app; [apply scan_plain, escape_no_tag|]. apply (reads_app " &mdash; " _ _ ["title"; "head"; "html"]); [reflexivity|].
    eapply reads_app; [apply scan_plain, escape_no_tag|]. vm_compute. reflexivity.
  - eapply reads_app.
    + exact (reads_around "<h1>" _ ("</h1>" +s+ nl) _ ["h1"; "body"; "html"] _ eq_refl R1 eq_refl).
    + exact (reads_around "<div>" _ ("</div>" +s+ nl) _ ["div"; "body"; "html"] _ eq_refl R2 eq_refl).
Qed.

Lemma page_ok_around exports adv r : fst (q_header html_effects (pr_info r)) = true -> fst (e_page bare exports adv r) = true ->
  fst (e_page html_effects exports adv r) = true.
Proof.
  unfold e_page, e_before, e_after.
  change (e_map (e_synopsis bare)) with (e_map (e_synopsis html_effects)). change (e_subcommands bare) with (e_subcommands html_effects).
  change (e_map (q_print bare)) with (e_map (q_print html_effects)). change (e_common bare) with (e_common html_effects).
  change (e_version bare) with (e_version html_effects). change (e_legal bare) with (e_legal html_effects).
  change (q_section bare) with (q_section html_effects). change (q_line bare) with (q_line html_effects).
  cbn [bare q_header q_footer]. unfold e_seq at 1 2 3 4 5 6 7 8 9 10 11 12. unfold e_ret. cbn [fst].
  unfold e_seq. cbn [fst]. intros H1 H2. rewrite H1. rewrite !andb_true_iff in H2 |- *. cbn [q_footer html_effects e_seq e_close_p e_put fst andb]. intuition auto.
Qed.

End html_page.

Lemma html_page_eff e r : pr_format r = FHtml ->
  let E := e_page (html_effects (pe_ndebug e)) (exports e) false r in
  if fst E then page e r = Ret (fst (snd E (false, false))) else is_ret (page e r) = false.
Proof.
  intros HF. cbn zeta. unfold page. rewrite HF.
  pose proof (does_page mk_html _ _ (exports e) false r (html_implements (pe_ndebug e)) "" (false, false)) as X.
  destruct (fst (e_page _ _ _ _)).
  - unfold printed. change html_init with (mk_html "" (false, false)). rewrite X. reflexivity.
  - unfold printed. change html_init with (mk_html "" (false, false)).
    destruct (print_page _ _ _ _ _) as [st []]; cbn in *; try discriminate; reflexivity.
Qed.

Lemma exports_plain e : plain_text (exports e) = true.
Proof. unfold exports. now destruct (pe_tdl e). Qed.

Lemma html_page_nested e r : pr_format r = FHtml -> has_commands (pr_info r) = true -> forallb neat (page_texts r) = true ->
  exists out, page e r = Ret out /\ well_nested out.
Proof.
  intros HF HC HT. pose proof (html_page_eff e r HF) as X. cbn zeta in X. set (nd := pe_ndebug e) in *.
  assert (HG : forall s, In s (page_texts r) -> html_good nd s).
  { intros s Hs. rewrite forallb_forall in HT. now apply neat_good, HT. }
  destruct (header_reads nd (pr_info r) (false, false)) as (H1 & H2 & H3).
  { apply HG. unfold page_texts, meta_texts. rewrite !in_app_iff. do 2 left. cbn. auto. }
  { apply HG. unfold page_texts, meta_texts. rewrite !in_app_iff. do 2 left. cbn. auto. }
  destruct (nests_bare nd (exports e) false r HC HT (exports_plain e)) as [N1 N2].
  rewrite (page_ok_around nd (exports e) false r H1 N1) in X. eexists. split; [exact X|].
  rewrite page_around. unfold well_nested. fold (reads (fst (snd (e_seq (q_header (html_effects nd) (pr_info r)) (e_seq (e_page (bare nd) (exports e) false r) (q_footer (html_effects nd)))) (false, false))) [] []).
  destruct (N2 (false, false) eq_refl) as [V R]. pose proof (clears_page nd (exports e) false r (false, false)) as CL.
  unfold e_seq at 1. cbn [fst snd]. eapply reads_app; [exact H3|]. rewrite H2.
  unfold e_seq at 1. cbn [fst snd]. eapply reads_app; [exact R|].
  destruct (snd (snd (e_page (bare nd) (exports e) false r) (false, false))) as [d p]. cbn [fst] in CL. subst d. destruct p; vm_compute; reflexivity.
Qed.

(** ** What a browser shows *)

Definition dtag (a a' : string) : Prop := forall b, drop_tags false (a +s+ b) = a' +s+ drop_tags false b.

Lemma dtag_app a a' b b' : dtag a a' -> dtag b b' -> dtag (a +s+ b) (a' +s+ b').
Proof. intros A B x. now rewrite app_assoc_s, A, B, app_assoc_s. Qed.

Lemma dtag_plain s : scontains "<" s = false -> dtag s s.
Proof.
  intros H x. induction s as [|c s IH]; [reflexivity|]. cbn [scontains] in H. apply orb_false_elim in H as [Hc H].
  cbn [String.append drop_tags]. rewrite Ascii.eqb_sym, Hc. now rewrite IH.
Qed.

Lemma dtag_end a a' : dtag a a' -> drop_tags false a = a'.
Proof. intros H. specialize (H ""). now rewrite !app_nil_r_s in H. Qed.

Lemma html_from_shows nd s : forall tags r, html_from nd tags s = Ret r -> scontains "<" s = false ->
  Forall (fun t => t = "em" \/ t = "strong") tags -> dtag r (strip s).
Proof.
  revert s. apply (str_ind_len (fun s => forall tags r, html_from nd tags s = Ret r -> scontains "<" s = false ->
    Forall (fun t => t = "em" \/ t = "strong") tags -> dtag r (strip s))).
  assert (D : forall (A : Type) (x : A), @dangling nd A = Ret x -> False) by (intros A x; unfold dangling; destruct nd; discriminate).
  intros [|c s1] IH tags r H N T; [injection H as <-; intros b; reflexivity|]. cbn [html_from strip scontains] in *.
  apply orb_false_elim in N as [Nc N1].
  assert (P : forall (pre pre' : string) s tags2, String.length s < String.length (String c s1) -> scontains "<" s = false ->
     Forall (fun t => t = "em" \/ t = "strong") tags2 -> dtag pre pre' ->
     lift_res (html_from nd tags2 s) (fun q => Ret (pre +s+ q)) = Ret r -> dtag r (pre' +s+ strip s)).
  { intros pre pre' s tags2 Hl Hn Ht Hp HX. destruct (html_from nd tags2 s) as [q| | | | |] eqn:E; try discriminate. injection HX as <-.
    apply dtag_app; [exact Hp|]. eapply IH; eauto. }
  destruct (Ascii.eqb_spec c "\") as [->|Hc].
  2:{ apply (P (str1 c) (str1 c) s1 tags); auto. apply dtag_plain. cbn [str1 scontains]. now rewrite Nc. }
  destruct s1 as [|d s2]; [destruct (D _ _ H)|]. cbn [scontains] in N1. apply orb_false_elim in N1 as [Nd N2].
  destruct (Ascii.eqb_spec d "-") as [->|Hd].
  { apply (P "-" "-" s2 tags); auto; [cbn; lia|now apply dtag_plain]. }
  destruct (Ascii.eqb_spec d "f") as [->|Hf].
  2:{ apply (P (String "\" (str1 d)) (String "\" (str1 d)) s2 tags); auto; [cbn; lia|]. apply dtag_plain. cbn [str1 scontains]. now rewrite Nd. }
  destruct s2 as [|e s3]; [destruct (D _ _ H)|]. cbn [scontains] in N2. apply orb_false_elim in N2 as [Ne N3].
  destruct (Ascii.eqb_spec e "I") as [->|HI]; [|destruct (Ascii.eqb_spec e "B") as [->|HB]; [|destruct (Ascii.eqb_spec e "P") as [->|HP]]].
  - apply (P "<em>" "" s3 ("em" :: tags)); auto; [cbn; lia|intros b; reflexivity].
  - apply (P "<strong>" "" s3 ("strong" :: tags)); auto; [cbn; lia|intros b; reflexivity].
  - destruct tags as [|t tags]; [destruct (D _ _ H)|]. inversion_clear T as [|? ? Ht T'].
    apply (P ("</" +s+ t +s+ ">") "" s3 tags); auto; [cbn; lia|destruct Ht as [-> | ->]; intros b; reflexivity|].
    rewrite <- H. apply lift_ext. intros q. now rewrite !app_assoc_s.
  - apply (P ("\f" +s+ str1 e) ("\f" +s+ str1 e) s3 tags); auto; [cbn; lia|].
    apply dtag_plain. cbn [str1 scontains String.append]. now rewrite Ne.
Qed.

Lemma unescape_plain s : scontains "&" s = false -> xml_unescape s = s.
Proof.
  induction s as [|c s IH]; [reflexivity|]. cbn [scontains]. intros H. apply orb_false_elim in H as [Hc H]. apply Ascii.eqb_neq in Hc.
  rewrite unescape_other by congruence. now rewrite IH.
Qed.

Lemma strip_chars x s : x <> "-"%char -> scontains x s = false -> scontains x (strip s) = false.
Proof.
  intros Hx. revert s. apply (str_ind_len (fun s => scontains x s = false -> scontains x (strip s) = false)).
  intros [|c s1] IH H; [reflexivity|]. pose proof H as H0. cbn [strip] in *. cbn [scontains] in H. apply orb_false_elim in H as [Hc H1].
  destruct (Ascii.eqb c "\"); [|cbn [scontains]; rewrite Hc; apply IH; [cbn; lia|exact H1]].
  destruct s1 as [|d s2]; [exact H0|]. cbn [scontains] in H1. apply orb_false_elim in H1 as [Hd H2].
  destruct (Ascii.eqb d "-"); [cbn [scontains]; rewrite (proj2 (Ascii.eqb_neq x "-") Hx); apply IH; [cbn; lia|exact H2]|].
  destruct (Ascii.eqb d "f").
  - destruct s2 as [|e s3]; [exact H0|]. cbn [scontains] in H2. apply orb_false_elim in H2 as [He H3].
    clear H0. destruct (_ || _); [apply IH; [cbn; lia|exact H3]|]. cbn [scontains]. rewrite Hc, Hd, He. apply IH; [cbn; lia|exact H3].
  - cbn [scontains]. rewrite Hc, Hd. apply IH; [cbn; lia|exact H2].
Qed.

Lemma browser_other c s1 : c <> "<"%char -> c <> "&"%char -> browser false (String c s1) = String c (browser false s1).
Proof. intros H1 H2. cbn [browser]. now rewrite (proj2 (Ascii.eqb_neq c "<") H1), (proj2 (Ascii.eqb_neq c "&") H2). Qed.

Lemma browser_plain s : forall b, scontains "&" (drop_tags b s) = false -> browser b s = drop_tags b s.
Proof.
  induction s as [|c s IH]; intros b H; [reflexivity|]. destruct b; [cbn [browser drop_tags] in *; now apply IH|].
  cbn [drop_tags] in *. destruct (Ascii.eqb_spec c "<") as [->|Hc]; [cbn [browser]; change (Ascii.eqb "<" "<") with true; cbv iota; now apply IH|].
  cbn [scontains] in H. apply orb_false_elim in H as [Ha H]. apply Ascii.eqb_neq in Ha. rewrite browser_other by congruence. now rewrite IH.
Qed.

Lemma to_html_shows nd s r : to_html nd s = Ret r -> scontains "<" s = false -> scontains "&" s = false -> browser_shows r = strip s.
Proof.
  intros H N A. unfold browser_shows. pose proof (dtag_end _ _ (html_from_shows nd s [] r H N (Forall_nil _))) as E.
  rewrite browser_plain; rewrite E; [reflexivity|]. apply strip_chars; [discriminate|exact A].
Qed.

