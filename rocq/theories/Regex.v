(** std::regex with the ECMAScript grammar, as used by include/sharg/validators.hpp 999-1000, parser.hpp 735, 1093, 1101 and
    detail/version_check.hpp 76, 93, 431, 480.  The repository does not contain it; transcribed from libstdc++ 13
    (bits/regex_scanner.tcc, regex_compiler.tcc, regex_compiler.h, regex.tcc), for [char] and the "C" locale.
    Simplifications: the scanner runs before the compiler (every regex_error is the same outcome here); recursion of the
    compiler is an explicit stack; texts are matched with derivatives instead of running the automaton (the executor
    explores all paths of the automaton, recursion depth and time are not modelled).  Back references, look-ahead, word
    boundaries, collating symbols and patterns that might need more than 100000 states are [Unknown]. *)
From Verif Require Import Base.
From Coq Require Import ZArith.

(** ** Sets of characters *)

(** regex_traits::lookup_classname and isctype, regex.tcc 278-334 *)
Inductive cls := KDigit | KWord | KSpace | KAlnum | KAlpha | KBlank | KCntrl | KGraph | KLower | KPrint | KPunct | KUpper | KXdigit.
Definition class_names : list (string * cls) :=
  [("d", KDigit); ("w", KWord); ("s", KSpace); ("alnum", KAlnum); ("alpha", KAlpha); ("blank", KBlank); ("cntrl", KCntrl);
   ("digit", KDigit); ("graph", KGraph); ("lower", KLower); ("print", KPrint); ("punct", KPunct); ("space", KSpace);
   ("upper", KUpper); ("xdigit", KXdigit)].
Definition lower (c : chr) : chr := if is_upper c then ascii_of_N (code c + 32) else c.
Fixpoint lowered (s : string) : string := match s with EmptyString => EmptyString | String c s' => String (lower c) (lowered s') end.
Definition lookup_class (name : string) : option cls :=
  option_map snd (find (fun p => String.eqb (fst p) (lowered name)) class_names).
Definition is_cls (k : cls) (c : chr) : bool :=
  match k with
  | KDigit => is_digit c
  | KWord => is_alnum c || Ascii.eqb c "_"
  | KSpace => is_space c
  | KAlnum => is_alnum c
  | KAlpha => is_lower c || is_upper c
  | KBlank => Ascii.eqb c " " || Ascii.eqb c "009"
  | KCntrl => (code c <? 32)%N || N.eqb (code c) 127
  | KGraph => in_range "!" "~" c
  | KLower => is_lower c
  | KPrint => in_range " " "~" c
  | KPunct => in_range "!" "~" c && negb (is_alnum c)
  | KUpper => is_upper c
  | KXdigit => is_digit c || in_range "a" "f" c || in_range "A" "F" c
  end.

(** the value of a char, which is signed *)
Definition char_value (c : chr) : Z := let n := Z.of_N (code c) in if (n <? 128)%Z then n else (n - 256)%Z.

(** _BracketMatcher; _AnyMatcher (no line terminators), regex_compiler.h 366-388 *)
Record bracket := { b_neg : bool; b_chars : list chr; b_ranges : list (chr * chr); b_classes : list cls; b_others : list cls }.
Inductive cset := CAny | CBracket (b : bracket).
Definition single (c : chr) : cset := CBracket {| b_neg := false; b_chars := [c]; b_ranges := []; b_classes := []; b_others := [] |}.
(** _M_apply, regex_compiler.tcc 595-620 *)
Definition in_set (s : cset) (c : chr) : bool :=
  match s with
  | CAny => negb (Ascii.eqb c "010") && negb (Ascii.eqb c "013")
  | CBracket b =>
      xorb (existsb (Ascii.eqb c) (b_chars b)
            || existsb (fun r => (char_value (fst r) <=? char_value c)%Z && (char_value c <=? char_value (snd r))%Z) (b_ranges b)
            || existsb (fun k => is_cls k c) (b_classes b)
            || existsb (fun k => negb (is_cls k c)) (b_others b)) (b_neg b)
  end.

(** ** The scanner, regex_scanner.tcc *)

Inductive token :=
| TAny | TChar (c : chr) | TQuoted (c : chr) | TBegin | TEnd | TOr | TStar | TPlus | TOpt | TOpen | TClose
| TBracket (neg : bool) | TBracketEnd | TDash | TClassName (s : string)
| TBrace | TCount (n : N) | TComma | TBraceEnd
| TBound | TLook | TBackref | TCollate.
Inductive scan_state := SNormal | SBracket | SBrace.

(** _M_ecma_escape_tbl, regex_scanner.h 162-172 *)
Definition find_escape (c : chr) : option chr :=
  option_map snd (find (fun p => Ascii.eqb (fst p) c)
    [("0", "000"); ("b", "008"); ("f", "012"); ("n", "010"); ("r", "013"); ("t", "009"); ("v", "011")]%char).

Definition hex_value (c : chr) : option N :=
  if is_digit c then Some (code c - 48)%N
  else if in_range "a" "f" c then Some (code c - 87)%N
  else if in_range "A" "F" c then Some (code c - 55)%N else None.
(** [n] hexadecimal digits *)
Fixpoint eat_hex (n : nat) (v : N) (s : string) : option (N * string) :=
  match n, s with
  | O, _ => Some (v, s)
  | S n', String c s' => match hex_value c with Some d => eat_hex n' (16 * v + d)%N s' | None => None end
  | S _, EmptyString => None
  end.
Fixpoint eat_digits (v : N) (s : string) : N * string :=
  match s with
  | String c s' => if is_digit c then eat_digits (10 * v + (code c - 48))%N s' else (v, s)
  | EmptyString => (v, s)
  end.

(** _M_eat_escape_ecma, 308-386; [s]: what follows the backslash.  The value of \uNNNN is cut to a char. *)
Definition eat_escape (in_bracket : bool) (s : string) : option (token * string) :=
  match s with
  | EmptyString => None
  | String c s' =>
      match (if negb (Ascii.eqb c "b") || in_bracket then find_escape c else None) with
      | Some d => Some (TChar d, s')
      | None =>
          if Ascii.eqb c "b" || Ascii.eqb c "B" then Some (TBound, s')
          else if existsb (Ascii.eqb c) ["d"; "D"; "s"; "S"; "w"; "W"]%char then Some (TQuoted c, s')
          else if Ascii.eqb c "c" then match s' with EmptyString => None | String x s'' => Some (TChar x, s'') end
          else if Ascii.eqb c "x" || Ascii.eqb c "u" then
            option_map (fun p => (TChar (ascii_of_N (fst p mod 256)), snd p)) (eat_hex (if Ascii.eqb c "x" then 2 else 4) 0 s')
          else if is_digit c then Some (TBackref, snd (eat_digits 0 s'))
          else Some (TChar c, s')
      end
  end.

(** _M_eat_class, 467-483 *)
Fixpoint eat_class (ch : chr) (name s : string) : option (string * string) :=
  match s with
  | EmptyString => None
  | String c s' => if Ascii.eqb c ch then match s' with
                                          | String d s'' => if Ascii.eqb d "]" then Some (name, s'') else None
                                          | EmptyString => None
                                          end
                   else eat_class ch (name +s+ str1 c) s'
  end.

(** _M_scan_normal, 94-203; groups with and without a number are the same here *)
Definition scan_normal (c : chr) (s : string) : option (token * scan_state * string) :=
  if Ascii.eqb c "\" then option_map (fun p => (fst p, SNormal, snd p)) (eat_escape false s)
  else if Ascii.eqb c "(" then
    match s with
    | String "?" (String ":" s') => Some (TOpen, SNormal, s')
    | String "?" (String "=" s') | String "?" (String "!" s') => Some (TLook, SNormal, s')
    | String "?" _ => None
    | _ => Some (TOpen, SNormal, s)
    end
  else if Ascii.eqb c ")" then Some (TClose, SNormal, s)
  else if Ascii.eqb c "[" then
    match s with
    | String "^" s' => Some (TBracket true, SBracket, s')
    | _ => Some (TBracket false, SBracket, s)
    end
  else if Ascii.eqb c "{" then Some (TBrace, SBrace, s)
  else Some (if Ascii.eqb c "^" then TBegin else if Ascii.eqb c "$" then TEnd else if Ascii.eqb c "." then TAny
             else if Ascii.eqb c "*" then TStar else if Ascii.eqb c "+" then TPlus else if Ascii.eqb c "?" then TOpt
             else if Ascii.eqb c "|" then TOr else TChar c, SNormal, s).

(** _M_scan_in_bracket, 206-262 *)
Definition scan_bracket (c : chr) (s : string) : option (token * scan_state * string) :=
  if Ascii.eqb c "-" then Some (TDash, SBracket, s)
  else if Ascii.eqb c "[" then
    match s with
    | EmptyString => None
    | String d s' =>
        if Ascii.eqb d ":" then option_map (fun p => (TClassName (fst p), SBracket, snd p)) (eat_class d "" s')
        else if Ascii.eqb d "." || Ascii.eqb d "=" then option_map (fun p => (TCollate, SBracket, snd p)) (eat_class d "" s')
        else Some (TChar c, SBracket, s)
    end
  else if Ascii.eqb c "]" then Some (TBracketEnd, SNormal, s)
  else if Ascii.eqb c "\" then option_map (fun p => (fst p, SBracket, snd p)) (eat_escape true s)
  else Some (TChar c, SBracket, s).

(** _M_scan_in_brace, 267-305 *)
Definition scan_brace (c : chr) (s : string) : option (token * scan_state * string) :=
  if is_digit c then let '(n, s') := eat_digits (code c - 48) s in Some (TCount n, SBrace, s')
  else if Ascii.eqb c "," then Some (TComma, SBrace, s)
  else if Ascii.eqb c "}" then Some (TBraceEnd, SNormal, s)
  else None.

(** _M_advance, 68-91, for all tokens; [None]: regex_error.  [fuel]: every token has at least one character. *)
Fixpoint scan (fuel : nat) (st : scan_state) (s : string) : option (list token) :=
  match fuel, s with
  | _, EmptyString => Some []
  | O, _ => None
  | S fuel', String c s' =>
      match (match st with SNormal => scan_normal | SBracket => scan_bracket | SBrace => scan_brace end) c s' with
      | Some (t, st', s'') => option_map (cons t) (scan fuel' st' s'')
      | None => None
      end
  end.

(** ** The compiler, regex_compiler.tcc *)

Inductive rx :=
| RVoid | REmpty | RSet (s : cset) | RBegin | REnd | RSeq (r1 r2 : rx) | RAlt (r1 r2 : rx) | RStar (r : rx).

Inductive verdict (A : Type) := Fine (a : A) | Malformed | Unknown.
Arguments Fine {A}. Arguments Malformed {A}. Arguments Unknown {A}.

(** one level of parentheses: the alternatives so far, the terms of the current one, and the last term if it is an
    atom that a quantifier may follow *)
Record level := { l_alts : option rx; l_terms : rx; l_last : option rx }.
Definition level0 : level := {| l_alts := None; l_terms := REmpty; l_last := None |}.
Definition terms (l : level) : rx := match l_last l with Some r => RSeq (l_terms l) r | None => l_terms l end.
Definition whole (l : level) : rx := match l_alts l with Some a => RAlt a (terms l) | None => terms l end.
Definition with_atom (r : rx) (l : level) : level := {| l_alts := l_alts l; l_terms := terms l; l_last := Some r |}.
Definition with_last (r : rx) (l : level) : level := {| l_alts := l_alts l; l_terms := l_terms l; l_last := Some r |}.
Definition with_assertion (r : rx) (l : level) : level := {| l_alts := l_alts l; l_terms := RSeq (terms l) r; l_last := None |}.
Definition with_or (l : level) : level := {| l_alts := Some (whole l); l_terms := REmpty; l_last := None |}.

(** _BracketState, and where in a bracket expression the compiler is *)
Inductive last_char := LNone | LChar (c : chr) | LClass.
Inductive bplace := BStart | BMiddle | BDash.
Inductive mode :=
| MNormal (quantified : bool)     (* after a quantifier, "?" makes it non-greedy *)
| MBracket (b : bracket) (last : last_char) (p : bplace)
| MBrace | MMin (n : N) | MComma (n : N) | MMax (n m : N).

(** states of the automaton needed at most (NFA::_M_insert_state, regex_automaton.h 326-336) *)
Fixpoint states (r : rx) : N :=
  match r with
  | RSeq a b | RAlt a b => 2 + states a + states b
  | RStar a => 2 + states a
  | _ => 2
  end.
Definition state_limit : N := 100000.
Definition int_limit : N := 2147483647.

Fixpoint repeated (n : nat) (r : rx) : rx := match n with O => REmpty | S n' => RSeq r (repeated n' r) end.
Fixpoint up_to (n : nat) (r : rx) : rx := match n with O => REmpty | S n' => RAlt REmpty (RSeq r (up_to n' r)) end.

Definition add_char (c : chr) (b : bracket) : bracket :=
  {| b_neg := b_neg b; b_chars := c :: b_chars b; b_ranges := b_ranges b; b_classes := b_classes b; b_others := b_others b |}.
Definition add_range (x y : chr) (b : bracket) : bracket :=
  {| b_neg := b_neg b; b_chars := b_chars b; b_ranges := (x, y) :: b_ranges b; b_classes := b_classes b; b_others := b_others b |}.
Definition add_class (k : cls) (b : bracket) : bracket :=
  {| b_neg := b_neg b; b_chars := b_chars b; b_ranges := b_ranges b; b_classes := k :: b_classes b; b_others := b_others b |}.
Definition add_other (k : cls) (b : bracket) : bracket :=
  {| b_neg := b_neg b; b_chars := b_chars b; b_ranges := b_ranges b; b_classes := b_classes b; b_others := k :: b_others b |}.
(** the first half of __push_char and __push_class, 440-453 *)
Definition flush (last : last_char) (b : bracket) : bracket := match last with LChar c => add_char c b | _ => b end.

(** the atom for \d ... \W, _M_insert_character_class_matcher, 395-405 *)
Definition quoted_set (c : chr) : option cset :=
  option_map (fun k => CBracket {| b_neg := is_upper c; b_chars := []; b_ranges := []; b_classes := [k]; b_others := [] |}) (lookup_class (str1 c)).

(** state of the compiler: current level, levels around it, mode, states used *)
Record compiler := { a_level : level; a_outer : list level; a_mode : mode; a_used : N }.

Definition spend (n : N) (l : level) (o : list level) (m : mode) (a : compiler) : verdict compiler :=
  if (state_limit <? a_used a + n)%N then Unknown else Fine {| a_level := l; a_outer := o; a_mode := m; a_used := a_used a + n |}.

(** _M_make_range, regex_compiler.h 498-508 *)
Definition make_range (x y : chr) (b : bracket) : option bracket :=
  if (char_value y <? char_value x)%Z then None else Some (add_range x y b).

(** _M_expression_term for a token that does not follow an undecided "-", 433-545 *)
Definition bracket_term (b : bracket) (last : last_char) (t : token) (a : compiler) : verdict compiler :=
  let go b' last' p := Fine {| a_level := a_level a; a_outer := a_outer a; a_mode := MBracket b' last' p; a_used := a_used a |} in
  match t with
  | TBracketEnd => spend 1 (with_atom (RSet (CBracket (flush last b))) (a_level a)) (a_outer a) (MNormal false) a
  | TCollate => Unknown
  | TClassName s => match lookup_class s with Some k => go (add_class k (flush last b)) LClass BMiddle | None => Malformed end
  | TChar c => go (flush last b) (LChar c) BMiddle
  | TDash => go b last BDash
  | TQuoted c => match lookup_class (str1 c) with
                 | Some k => go ((if is_upper c then add_other else add_class) k (flush last b)) LClass BMiddle
                 | None => Malformed
                 end
  | _ => Malformed
  end.
Definition bracket_step (b : bracket) (last : last_char) (p : bplace) (t : token) (a : compiler) : verdict compiler :=
  let go b' last' p := Fine {| a_level := a_level a; a_outer := a_outer a; a_mode := MBracket b' last' p; a_used := a_used a |} in
  match p, t with
  | BStart, TChar c => go b (LChar c) BMiddle                     (* 414-418 *)
  | BStart, TDash => go b (LChar "-") BMiddle
  | BDash, TBracketEnd => spend 1 (with_atom (RSet (CBracket (add_char "-" (flush last b)))) (a_level a)) (a_outer a) (MNormal false) a
  | BDash, _ =>
      match last with
      | LClass => Malformed
      | LChar x => match (match t with TChar y => make_range x y b | TDash => make_range x "-" b | _ => None end) with
                   | Some b' => go b' LNone BMiddle
                   | None => Malformed
                   end
      | LNone => bracket_term b (LChar "-") t a
      end
  | _, _ => bracket_term b last t a
  end.

(** the end of an interval, 218-262; [extra]: None without upper bound *)
Definition interval (min : N) (extra : option N) (a : compiler) : verdict compiler :=
  match l_last (a_level a) with
  | None => Malformed
  | Some r =>
      let copies := (2 + min + match extra with Some e => e | None => 1 end)%N in
      if (state_limit <? a_used a + copies * (2 + states r))%N then Unknown
      else Fine {| a_level := with_last (RSeq (repeated (N.to_nat min) r)
                                              (match extra with Some e => up_to (N.to_nat e) r | None => RStar r end)) (a_level a);
                   a_outer := a_outer a; a_mode := MNormal true; a_used := a_used a + copies * (2 + states r) |}
  end.

(** one token: _M_disjunction ... _M_bracket_expression, 81-364 *)
Definition compiler_step (t : token) (a : compiler) : verdict compiler :=
  let go l m := spend 2 l (a_outer a) m a in
  match a_mode a with
  | MBracket b last p => bracket_step b last p t a
  | MBrace => match t with TCount n => if (int_limit <? n)%N then Malformed else Fine {| a_level := a_level a; a_outer := a_outer a; a_mode := MMin n; a_used := a_used a |}
                         | _ => Malformed end
  | MMin n => match t with TComma => Fine {| a_level := a_level a; a_outer := a_outer a; a_mode := MComma n; a_used := a_used a |}
                         | TBraceEnd => interval n (Some 0%N) a
                         | _ => Malformed end
  | MComma n => match t with TCount m => if (int_limit <? m)%N then Malformed else Fine {| a_level := a_level a; a_outer := a_outer a; a_mode := MMax n m; a_used := a_used a |}
                           | TBraceEnd => interval n None a
                           | _ => Malformed end
  | MMax n m => match t with TBraceEnd => if (m <? n)%N then Malformed else interval n (Some (m - n)%N) a | _ => Malformed end
  | MNormal quantified =>
      match t with
      | TAny => go (with_atom (RSet CAny) (a_level a)) (MNormal false)
      | TChar c => go (with_atom (RSet (single c)) (a_level a)) (MNormal false)
      | TQuoted c => match quoted_set c with Some s => go (with_atom (RSet s) (a_level a)) (MNormal false) | None => Malformed end
      | TBegin => go (with_assertion RBegin (a_level a)) (MNormal false)
      | TEnd => go (with_assertion REnd (a_level a)) (MNormal false)
      | TOr => go (with_or (a_level a)) (MNormal false)
      | TStar => match l_last (a_level a) with Some r => go (with_last (RStar r) (a_level a)) (MNormal true) | None => Malformed end
      | TPlus => match l_last (a_level a) with Some r => go (with_last (RSeq r (RStar r)) (a_level a)) (MNormal true) | None => Malformed end
      | TOpt => if quantified then go (a_level a) (MNormal false)
                else match l_last (a_level a) with Some r => go (with_last (RAlt r REmpty) (a_level a)) (MNormal true) | None => Malformed end
      | TBrace => match l_last (a_level a) with Some _ => go (a_level a) MBrace | None => Malformed end
      | TOpen => spend 3 level0 (a_level a :: a_outer a) (MNormal false) a
      | TClose => match a_outer a with
                  | l :: o => spend 1 (with_atom (whole (a_level a)) l) o (MNormal false) a
                  | [] => Malformed
                  end
      | TBracket neg => go (a_level a) (MBracket {| b_neg := neg; b_chars := []; b_ranges := []; b_classes := []; b_others := [] |} LNone BStart)
      | TBound | TLook | TBackref | TCollate => Unknown
      | TBracketEnd | TDash | TClassName _ | TCount _ | TComma | TBraceEnd => Malformed
      end
  end.
Fixpoint compiler_run (ts : list token) (a : compiler) : verdict compiler :=
  match ts with
  | [] => Fine a
  | t :: ts' => match compiler_step t a with Fine a' => compiler_run ts' a' | Malformed => Malformed | Unknown => Unknown end
  end.

Definition compiler0 : compiler := {| a_level := level0; a_outer := []; a_mode := MNormal false; a_used := 10 |}.
(** the constructor of _Compiler, 62-79 *)
Definition compile (pattern : string) : verdict rx :=
  match scan (String.length pattern) SNormal pattern with
  | None => Malformed
  | Some ts =>
      match compiler_run ts compiler0 with
      | Fine a => match a_mode a, a_outer a with MNormal _, [] => Fine (whole (a_level a)) | _, _ => Malformed end
      | Malformed => Malformed
      | Unknown => Unknown
      end
  end.

(** ** Matching *)

(** [RBegin] matches at the begin of the text, [REnd] at the end (_M_at_begin and _M_at_end, regex_executor.h 166-200) *)
Fixpoint null (at_begin at_end : bool) (r : rx) : bool :=
  match r with
  | RVoid | RSet _ => false
  | REmpty | RStar _ => true
  | RBegin => at_begin
  | REnd => at_end
  | RSeq a b => null at_begin at_end a && null at_begin at_end b
  | RAlt a b => null at_begin at_end a || null at_begin at_end b
  end.
Definition cat (a b : rx) : rx :=
  match a, b with
  | RVoid, _ | _, RVoid => RVoid
  | REmpty, _ => b
  | _, REmpty => a
  | _, _ => RSeq a b
  end.
Definition either (a b : rx) : rx := match a, b with RVoid, _ => b | _, RVoid => a | _, _ => RAlt a b end.
(** what may follow when [c] has been read *)
Fixpoint deriv (at_begin : bool) (c : chr) (r : rx) : rx :=
  match r with
  | RVoid | REmpty | RBegin | REnd => RVoid
  | RSet s => if in_set s c then REmpty else RVoid
  | RSeq a b => either (cat (deriv at_begin c a) b) (if null at_begin false a then deriv at_begin c b else RVoid)
  | RAlt a b => either (deriv at_begin c a) (deriv at_begin c b)
  | RStar a => cat (deriv at_begin c a) (RStar a)
  end.
Fixpoint matched (at_begin : bool) (r : rx) (s : string) : bool :=
  match s with
  | EmptyString => null at_begin true r
  | String c s' => matched false (deriv at_begin c r) s'
  end.

(** [std::regex_match(s, std::regex{pattern})] *)
Definition regex_match (pattern s : string) : verdict bool :=
  match compile pattern with Fine r => Fine (matched true r s) | Malformed => Malformed | Unknown => Unknown end.

(** a match of the first characters, and [_Executor::_M_search] (regex_executor.tcc 40-54): anywhere *)
Fixpoint matched_prefix (at_begin : bool) (r : rx) (s : string) : bool :=
  null at_begin (is_empty s) r || match s with EmptyString => false | String c s' => matched_prefix false (deriv at_begin c r) s' end.
Fixpoint searched (at_begin : bool) (r : rx) (s : string) : bool :=
  matched_prefix at_begin r s || match s with EmptyString => false | String _ s' => searched false r s' end.
(** whether [std::regex_search(s, match, std::regex{pattern})] succeeds; the captures are not modelled *)
Definition regex_search (pattern s : string) : verdict bool :=
  match compile pattern with Fine r => Fine (searched true r s) | Malformed => Malformed | Unknown => Unknown end.

(** the oracle of [regex_validator]; [other]: what happens for patterns that are [Unknown] *)
Definition std_regex (other : string -> string -> option bool) (pattern s : string) : option bool :=
  match regex_match pattern s with Fine b => Some b | Malformed => None | Unknown => other pattern s end.
