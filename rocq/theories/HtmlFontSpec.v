(** Fonts of HTML pages (C108).  Bold and emphasised take the places of bold and underlined. *)
From Verif Require Import Base FontSpec.

(** the elements a browser is in, innermost first: B for strong, I for em *)
Definition font_of (open : list chr) : font := (existsb (Ascii.eqb "B") open, existsb (Ascii.eqb "I") open).
(** an end tag closes the innermost element, if it is its own *)
Definition close (x : chr) (open : list chr) : list chr := match open with o :: r => if Ascii.eqb o x then r else open | [] => [] end.

(** what a browser shows of a text with tags for these two elements; [skip]: characters of the tag still to come *)
Fixpoint shown (skip : nat) (open : list chr) (s : string) : styled :=
  match s with
  | EmptyString => []
  | String c r =>
      match skip with
      | S k => shown k open r
      | O =>
          if String.prefix "<em>" s then shown 3 ("I"%char :: open) r
          else if String.prefix "<strong>" s then shown 7 ("B"%char :: open) r
          else if String.prefix "</em>" s then shown 4 (close "I" open) r
          else if String.prefix "</strong>" s then shown 8 (close "B" open) r
          else (c, font_of open) :: shown 0 open r
      end
  end.

(** the markup, where \fP goes back to the font before *)
Fixpoint tagged (open : list chr) (s : string) : styled :=
  match s with
  | EmptyString => []
  | String "\" (String "-" s1) => ("-"%char, font_of open) :: tagged open s1
  | String "\" (String "f" (String e s1)) =>
      if Ascii.eqb e "B" || Ascii.eqb e "I" then tagged (e :: open) s1
      else if Ascii.eqb e "P" then tagged (tl open) s1
      else ("\"%char, font_of open) :: ("f"%char, font_of open) :: (e, font_of open) :: tagged open s1
  | String "\" (String d s1) => ("\"%char, font_of open) :: (d, font_of open) :: tagged open s1
  | String c s1 => (c, font_of open) :: tagged open s1
  end.
