(** Fonts on a terminal (C106). *)
From Verif Require Import Base.

(** bold, underlined *)
Definition font : Type := bool * bool.
Definition normal : font := (false, false).
Definition styled : Type := list (chr * font).

(** what a terminal (ECMA-48, "select graphic rendition") shows: 1 adds bold, 4 adds underlining, 0 ends both *)
Definition rendition (d : chr) (x : font) : font :=
  if Ascii.eqb d "0" then normal else if Ascii.eqb d "1" then (true, snd x) else if Ascii.eqb d "4" then (fst x, true) else x.
Fixpoint seen (x : font) (s : string) : styled :=
  match s with
  | EmptyString => []
  | String c s1 =>
      if Ascii.eqb c "027" then
        match s1 with
        | String "[" (String d (String "m" r)) => seen (rendition d x) r
        | _ => (c, x) :: seen x s1
        end
      else (c, x) :: seen x s1
  end.

(** the markup of the descriptions: a switch of fonts is "\f" and a letter, "\-" is a dash *)
Fixpoint marked (switch : chr -> font -> font) (x : font) (s : string) : styled :=
  match s with
  | EmptyString => []
  | String "\" (String "-" s1) => ("-"%char, x) :: marked switch x s1
  | String "\" (String "f" (String e s1)) =>
      if Ascii.eqb e "B" || Ascii.eqb e "I" || Ascii.eqb e "P" then marked switch (switch e x) s1
      else ("\"%char, x) :: ("f"%char, x) :: (e, x) :: marked switch x s1
  | String "\" (String d s1) => ("\"%char, x) :: (d, x) :: marked switch x s1
  | String c s1 => (c, x) :: marked switch x s1
  end.
(** roff: a switch replaces the font *)
Definition replaces (e : chr) (x : font) : font := if Ascii.eqb e "B" then (true, false) else if Ascii.eqb e "I" then (false, true) else normal.
(** a switch adds to the font, \fP ends all *)
Definition adds (e : chr) (x : font) : font := if Ascii.eqb e "B" then (true, snd x) else if Ascii.eqb e "I" then (fst x, true) else normal.

(** between \fB or \fI and the next of these there is a \fP; [on]: the text before it ended within such a pair *)
Fixpoint separate (on : bool) (s : string) : bool :=
  match s with
  | EmptyString => true
  | String "\" (String "f" (String e s1)) =>
      if Ascii.eqb e "B" || Ascii.eqb e "I" then negb on && separate true s1
      else if Ascii.eqb e "P" then separate false s1 else separate on s1
  | String "\" (String _ s1) => separate on s1
  | String _ s1 => separate on s1
  end.

(** without blanks and line breaks *)
Definition ink (l : styled) : styled := filter (fun p => negb (is_space (fst p))) l.
