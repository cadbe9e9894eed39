(** Specification for regular expressions: a small syntax of its own, what each form says about a text, and how the form is
    written in the ECMAScript grammar.  Independent of Regex.v: nothing here scans, compiles or takes derivatives. *)
From Verif Require Import Base.

(** ** Sets of characters *)

Inductive kind := Digit | Word | Space | Alnum | Alpha | Blank | Cntrl | Graph | Lower | Print | Punct | Upper | Xdigit.
(** the name in [[:name:]] *)
Definition kind_name (k : kind) : string :=
  match k with
  | Digit => "digit" | Word => "w" | Space => "space" | Alnum => "alnum" | Alpha => "alpha" | Blank => "blank" | Cntrl => "cntrl"
  | Graph => "graph" | Lower => "lower" | Print => "print" | Punct => "punct" | Upper => "upper" | Xdigit => "xdigit"
  end.
(** as ranges of byte values *)
Definition kind_ranges (k : kind) : list (nat * nat) :=
  match k with
  | Digit => [(48, 57)]
  | Word => [(48, 57); (65, 90); (95, 95); (97, 122)]
  | Space => [(9, 13); (32, 32)]
  | Alnum => [(48, 57); (65, 90); (97, 122)]
  | Alpha => [(65, 90); (97, 122)]
  | Blank => [(9, 9); (32, 32)]
  | Cntrl => [(0, 31); (127, 127)]
  | Graph => [(33, 126)]
  | Lower => [(97, 122)]
  | Print => [(32, 126)]
  | Punct => [(33, 47); (58, 64); (91, 96); (123, 126)]
  | Upper => [(65, 90)]
  | Xdigit => [(48, 57); (65, 70); (97, 102)]
  end.
Definition has_kind (k : kind) (c : chr) : bool :=
  existsb (fun p => (fst p <=? nat_of_ascii c)%nat && (nat_of_ascii c <=? snd p)%nat) (kind_ranges k).

(** the order of characters: the bytes from 128 come first *)
Definition rank (c : chr) : nat := (nat_of_ascii c + 128) mod 256.

(** the three kinds with a short form: \d \w \s, and \D \W \S for all other characters *)
Inductive short := SDigit | SWord | SSpace.
Definition short_kind (k : short) : kind := match k with SDigit => Digit | SWord => Word | SSpace => Space end.
Definition short_text (k : short) (other : bool) : string :=
  match k, other with
  | SDigit, false => "\d" | SDigit, true => "\D" | SWord, false => "\w" | SWord, true => "\W" | SSpace, false => "\s" | SSpace, true => "\S"
  end.

(** ways to write a character: as it is, with a backslash, with the letter of a control character, with a hexadecimal number *)
Inductive spelling := Plain | Slash | Letter | Hex (capital : bool) | Wide (capital : bool).

(** an entry between brackets *)
Inductive entry := One (e : spelling) (c : chr) | Range (e1 : spelling) (c1 : chr) (e2 : spelling) (c2 : chr) | Named (k : kind) | Short (k : short) (other : bool).
Definition in_entry (c : chr) (i : entry) : bool :=
  match i with
  | One _ d => Ascii.eqb c d
  | Range _ x _ y => (rank x <=? rank c)%nat && (rank c <=? rank y)%nat
  | Named k => has_kind k c
  | Short k other => xorb other (has_kind (short_kind k) c)
  end.

(** ** Expressions *)

(** how often, and (without influence on whether the whole text matches) whether as few times as possible *)
Inductive often := Any | Many | Maybe | Exactly (n : nat) | AtLeast (n : nat) | Between (n m : nat).
Definition allowed (q : often) (n : nat) : Prop :=
  match q with Any => True | Many => 1 <= n | Maybe => n <= 1 | Exactly k => n = k | AtLeast k => k <= n | Between k l => k <= n <= l end.

Inductive re :=
| Nothing                                                     (* the empty pattern *)
| Lit (e : spelling) (c : chr)
| Dot
| Class (k : short) (other : bool)
| Bracket (neg front : bool) (entries : list entry) (dash : bool)   (* [front]: a first "-", [dash]: a last one *)
| Bol | Eol                                                   (* ^ and $ *)
| Seq (r1 r2 : re)
| Alt (r1 r2 : re)
| Rep (r : re) (q : often) (lazy : bool)
| Quiet (r : re).                                             (* (?: ) *)

(** *** What they say *)

Definition one_of (f : chr -> bool) (w : string) : Prop := exists c, w = str1 c /\ f c = true.
(** whether the begin of the text is still where [w] ends, whether its end is where [w] begins *)
Definition begins (b : bool) (w : string) : bool := b && is_empty w.
Definition ends (w : string) (e : bool) : bool := is_empty w && e.

(** [w] is [n] consecutive pieces *)
Fixpoint pieces (P : bool -> bool -> string -> Prop) (n : nat) (b e : bool) (w : string) : Prop :=
  match n with
  | O => w = ""
  | S n' => exists u v, w = u +s+ v /\ P b (ends v e) u /\ pieces P n' (begins b u) e v
  end.

(** [w], standing at the begin of the text if [b] and at its end if [e], is described by [r] *)
Fixpoint says (r : re) (b e : bool) (w : string) : Prop :=
  match r with
  | Nothing => w = ""
  | Lit _ c => w = str1 c
  | Dot => one_of (fun c => negb (Ascii.eqb c "010") && negb (Ascii.eqb c "013")) w
  | Class k other => one_of (fun c => xorb other (has_kind (short_kind k) c)) w
  | Bracket neg front l dash => one_of (fun c => xorb neg (existsb (in_entry c) l || ((front || dash) && Ascii.eqb c "-"))) w
  | Bol => w = "" /\ b = true
  | Eol => w = "" /\ e = true
  | Seq r1 r2 => exists u v, w = u +s+ v /\ says r1 b (ends v e) u /\ says r2 (begins b u) e v
  | Alt r1 r2 => says r1 b e w \/ says r2 b e w
  | Rep r q _ => exists n, allowed q n /\ pieces (says r) n b e w
  | Quiet r => says r b e w
  end.

(** some part of the text is described *)
Definition occurs (r : re) (w : string) : Prop := exists u v x, w = u +s+ v +s+ x /\ says r (is_empty u) (is_empty x) v.

(** *** How they are written *)

Definition specials : string := "^$\.*+?()[{|".
(** \0 \f \n \r \t \v, and \b between brackets *)
Definition letters : list (chr * chr) := [("000", "0"); ("012", "f"); ("010", "n"); ("013", "r"); ("009", "t"); ("011", "v")]%char.
Definition bracket_letters : list (chr * chr) := ("008", "b")%char :: letters.
Definition letter_of (c : chr) : option chr := option_map snd (find (fun p => Ascii.eqb (fst p) c) bracket_letters).
Definition hex_digit (capital : bool) (n : nat) : chr :=
  match String.get n (if capital then "0123456789ABCDEF" else "0123456789abcdef") with Some d => d | None => "0" end.
Definition two_digits (capital : bool) (c : chr) : string :=
  let n := nat_of_ascii c in String (hex_digit capital (n / 16)) (str1 (hex_digit capital (n mod 16))).
Definition write_char (e : spelling) (c : chr) : string :=
  match e with
  | Plain => str1 c
  | Slash => String "\" (str1 c)
  | Letter => String "\" (match letter_of c with Some d => str1 d | None => str1 c end)
  | Hex capital => "\x" +s+ two_digits capital c
  | Wide capital => "\u00" +s+ two_digits capital c
  end.
Definition write_entry (i : entry) : string :=
  match i with
  | One e c => write_char e c
  | Range e1 x e2 y => write_char e1 x +s+ "-" +s+ write_char e2 y
  | Named k => "[:" +s+ kind_name k +s+ ":]"
  | Short k other => short_text k other
  end.
Definition write_often (q : often) : string :=
  match q with
  | Any => "*" | Many => "+" | Maybe => "?"
  | Exactly n => "{" +s+ nat_to_string n +s+ "}"
  | AtLeast n => "{" +s+ nat_to_string n +s+ ",}"
  | Between n m => "{" +s+ nat_to_string n +s+ "," +s+ nat_to_string m +s+ "}"
  end.
Inductive place := Whole | Part | Atom.    (* the whole of a group, a part of an alternative, before a quantifier *)
Definition grouped (s : string) : string := "(" +s+ s +s+ ")".
Fixpoint write (p : place) (r : re) : string :=
  match r with
  | Nothing => match p with Atom => grouped "" | _ => "" end
  | Lit e c => write_char e c
  | Dot => "."
  | Class k other => short_text k other
  | Bracket neg front l dash => "[" +s+ (if neg then "^" else "") +s+ (if front then "-" else "") +s+ sconcat (map write_entry l) +s+ (if dash then "-" else "") +s+ "]"
  | Bol => match p with Atom => grouped "^" | _ => "^" end
  | Eol => match p with Atom => grouped "$" | _ => "$" end
  | Seq r1 r2 => match p with Atom => grouped (write Part r1 +s+ write Part r2) | _ => write Part r1 +s+ write Part r2 end
  | Alt r1 r2 => match p with Whole => write Whole r1 +s+ "|" +s+ write Whole r2 | _ => grouped (write Whole r1 +s+ "|" +s+ write Whole r2) end
  | Rep r q lazy => let s := write Atom r +s+ write_often q +s+ (if lazy then "?" else "") in match p with Atom => grouped s | _ => s end
  | Quiet r => "(?:" +s+ write Whole r +s+ ")"
  end.
Definition pattern (r : re) : string := write Whole r.

(** *** Which can be written so *)

(** a backslash before a letter or digit would mean something else *)
Definition literal (e : spelling) (c : chr) : bool :=
  match e with
  | Plain => negb (scontains c specials)
  | Slash => negb (has_kind Alnum c)
  | Letter => existsb (fun p => Ascii.eqb (fst p) c) letters
  | _ => true
  end.
Definition bracketed (e : spelling) (c : chr) : bool :=
  match e with
  | Plain => negb (scontains c "\[]-^")
  | Slash => negb (has_kind Alnum c)
  | Letter => existsb (fun p => Ascii.eqb (fst p) c) bracket_letters
  | _ => true
  end.
Definition entry_fits (i : entry) : bool :=
  match i with
  | One e c => bracketed e c
  | Range e1 x e2 y => bracketed e1 x && bracketed e2 y && (rank x <=? rank y)%nat
  | _ => true
  end.
Fixpoint fits (r : re) : bool :=
  match r with
  | Lit e c => literal e c
  | Bracket _ _ l _ => forallb entry_fits l
  | Seq r1 r2 | Alt r1 r2 => fits r1 && fits r2
  | Rep r q _ => fits r && match q with Between n m => (n <=? m)%nat | _ => true end
  | Quiet r => fits r
  | _ => true
  end.

(** a bound for the number of states (std::regex has a limit): repetition counts multiply *)
Fixpoint load (r : re) : N :=
  match r with
  | Seq r1 r2 | Alt r1 r2 => 20 + load r1 + load r2
  | Rep r q _ => match q with
                 | Exactly n | AtLeast n | Between _ n => 40 + (N.of_nat n + 4) * (10 + load r)
                 | _ => 40 + 3 * load r
                 end
  | Quiet r => 20 + load r
  | _ => 20
  end.
Definition load_limit : N := 99000.

(** the text, character by character *)
Fixpoint spelled (escaped : chr -> spelling) (s : string) : re :=
  match s with
  | EmptyString => Nothing
  | String c s' => Seq (Lit (escaped c) c) (spelled escaped s')
  end.

(** ** Patterns that are no expressions *)

(** the "?" of [(?] belongs to the parenthesis *)
Inductive no_expression : string -> Prop :=
| unclosed_group r : fits r = true -> (load r <= load_limit)%N -> no_expression ("(" +s+ pattern r)
| unopened_group r t : fits r = true -> (load r <= load_limit)%N -> no_expression (pattern r +s+ ")" +s+ t)
| nothing_to_repeat q t : no_expression (write_often q +s+ t)
| no_atom_to_repeat r c q t : fits r = true -> (load r <= load_limit)%N -> In c ["^"; "$"; "|"] -> no_expression (pattern r +s+ c +s+ write_often q +s+ t)
| unclosed_bracket r (neg : bool) l : fits r = true -> (load r <= load_limit)%N -> forallb entry_fits l = true ->
    no_expression (pattern r +s+ "[" +s+ (if neg then "^" else "") +s+ sconcat (map write_entry l))
| reversed_range r (neg : bool) l e1 x e2 y t : fits r = true -> (load r <= load_limit)%N -> forallb entry_fits l = true ->
    bracketed e1 x = true -> bracketed e2 y = true -> rank y < rank x ->
    no_expression (pattern r +s+ "[" +s+ (if neg then "^" else "") +s+ sconcat (map write_entry l) +s+ write_char e1 x +s+ "-" +s+ write_char e2 y +s+ t)
| reversed_counts r n m t : fits r = true -> (load r <= load_limit)%N -> m < n -> n <= 1000 ->
    no_expression (write Atom r +s+ write_often (Between n m) +s+ t)
| unclosed_braces r t : fits r = true -> (load r <= load_limit)%N -> scontains "}" t = false -> no_expression (write Atom r +s+ "{" +s+ t)
| lone_backslash r : fits r = true -> no_expression (pattern r +s+ "\")
| unknown_group r t : fits r = true -> (forall c t', t = String c t' -> ~ In c [":"; "="; "!"]%char) -> no_expression (pattern r +s+ "(?" +s+ t)
| short_number r (wide : bool) d t : fits r = true -> sall (has_kind Xdigit) d = true -> String.length d < (if wide then 4 else 2) ->
    (forall c t', t = String c t' -> has_kind Xdigit c = false) -> no_expression (pattern r +s+ (if wide then "\u" else "\x") +s+ d +s+ t)
| unknown_name r (neg : bool) l name t : fits r = true -> (load r <= load_limit)%N -> forallb entry_fits l = true -> sall (has_kind Lower) name = true ->
    ~ In name ["d"; "w"; "s"; "alnum"; "alpha"; "blank"; "cntrl"; "digit"; "graph"; "lower"; "print"; "punct"; "space"; "upper"; "xdigit"] ->
    no_expression (pattern r +s+ "[" +s+ (if neg then "^" else "") +s+ sconcat (map write_entry l) +s+ "[:" +s+ name +s+ ":]" +s+ t).
