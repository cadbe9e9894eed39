(** sharg/std/charconv and the function of the standard library it replaces: conversion of texts to
    floating point numbers.  Rounding a number to a floating point type is a parameter; which
    characters are read, and what number they denote, is written out. *)
From Verif Require Export FloatNum.
From Verif Require Import Base Values Validators.

(** what a text denotes: [Dec m e] is m * 10^e, [Hexa m e] is m * 2^e *)
Inductive mag := Dec (m e : Z) | Hexa (m e : Z) | Infinite | NotANumber.
Definition exact : Type := bool * mag.      (* (negative, magnitude) *)

(** ** The pattern of strtod in the "C" locale (C11, 7.22.1.3) *)

Fixpoint span (p : chr -> bool) (s : string) : string * string :=
  match s with
  | String c s' => if p c then let '(a, b) := span p s' in (String c a, b) else (EmptyString, s)
  | EmptyString => (EmptyString, EmptyString)
  end.

Definition is_hex (c : chr) : bool := is_digit c || in_range "a" "f" c || in_range "A" "F" c.
Definition hex_digit (c : chr) : Z :=
  if is_digit c then digit_val c else (Z.of_N (code (to_lower c)) - 87)%Z.
Fixpoint read_hex (s : string) (acc : Z) : Z :=
  match s with String c s' => read_hex s' (acc * 16 + hex_digit c) | EmptyString => acc end.

Definition after_char (c : chr) (s : string) : option string :=
  match s with String d r => if Ascii.eqb c d then Some r else None | EmptyString => None end.

(** digits with at most one point among or around them; at least one digit *)
Definition scan_mantissa (p : chr -> bool) (s : string) : option (string * string * string) :=
  let '(i, r) := span p s in
  match after_char "." r with
  | Some r' => let '(f, r2) := span p r' in if is_empty (i +s+ f) then None else Some (i, f, r2)
  | None => if is_empty i then None else Some (i, EmptyString, r)
  end.

(** optional; nothing is read if no digit follows *)
Definition scan_exponent (mark : chr) (s : string) : Z * string :=
  match s with
  | String c r =>
      if Ascii.eqb (to_lower c) mark then
        let '(neg, d) := match after_char "-" r, after_char "+" r with
                         | Some r', _ => (true, r')
                         | None, Some r' => (false, r')
                         | None, None => (false, r)
                         end in
        if starts_digit d then let '(n, rest) := read_digits d 0 in ((if neg then - n else n)%Z, rest)
        else (0%Z, s)
      else (0%Z, s)
  | EmptyString => (0%Z, s)
  end.

Definition scan_decimal (s : string) : option (mag * string) :=
  match scan_mantissa is_digit s with
  | None => None
  | Some (i, f, r) => let '(e, r') := scan_exponent "e" r in
                      Some (Dec (fst (read_digits (i +s+ f) 0)) (e - Z.of_nat (String.length f)), r')
  end.

Definition scan_hex (s : string) : option (mag * string) :=
  match scan_mantissa is_hex s with
  | None => None
  | Some (i, f, r) => let '(e, r') := scan_exponent "p" r in
                      Some (Hexa (read_hex (i +s+ f) 0) (e - 4 * Z.of_nat (String.length f)), r')
  end.

(** the rest behind a word, ignoring case; the word is given in lower case *)
Fixpoint after_word (w s : string) : option string :=
  match w, s with
  | EmptyString, _ => Some s
  | String c w', String d s' => if Ascii.eqb c (to_lower d) then after_word w' s' else None
  | _, EmptyString => None
  end.

(** "(...)" behind nan: letters, digits, underscores *)
Definition skip_payload (s : string) : string :=
  match after_char "(" s with
  | Some r => match after_char ")" (snd (span (fun c => is_alnum c || Ascii.eqb c "_") r)) with
              | Some r' => r'
              | None => s
              end
  | None => s
  end.

Definition scan_unsigned (hex : bool) (s : string) : option (mag * string) :=
  match after_word "infinity" s with
  | Some r => Some (Infinite, r)
  | None =>
  match after_word "inf" s with
  | Some r => Some (Infinite, r)
  | None =>
  match after_word "nan" s with
  | Some r => Some (NotANumber, skip_payload r)
  | None =>
  match (if hex then match after_word "0x" s with Some r => scan_hex r | None => None end else None) with
  | Some q => Some q
  | None => scan_decimal s
  end end end end.

Definition signed (neg : bool) (q : option (mag * string)) : option (exact * string) :=
  option_map (fun q => ((neg, fst q), snd q)) q.

(** strtod, strtof, strtold: blanks, a sign, a number with or without 0x *)
Definition strto_scan (s : string) : option (exact * string) :=
  let t := skip_space s in
  match after_char "-" t, after_char "+" t with
  | Some r, _ => signed true (scan_unsigned true r)
  | None, Some r => signed false (scan_unsigned true r)
  | None, None => signed false (scan_unsigned true t)
  end.

(** std::from_chars with chars_format::general (C++20, [charconv.from.chars]): no blanks, no plus
    sign, no 0x *)
Definition std_scan (s : string) : option (exact * string) :=
  match after_char "-" s with
  | Some r => signed true (scan_unsigned false r)
  | None => signed false (scan_unsigned false s)
  end.

Section rounding.
(** the value of the type, and whether the number is out of its range *)
Variable round : fkind -> exact -> val * bool.
(** the value after a conversion to float and back *)
Variable through_float : val -> val.

(** the function of the standard library *)
Definition std_from_chars (k : fkind) (s : string) : fc_res :=
  match std_scan s with
  | None => FcInvalid
  | Some (x, rest) => let '(v, out) := round k x in if out then FcRange else FcOk v rest
  end.

(** ** from_chars_floating_point, sharg/std/charconv 72-169 *)

(** the bit mask is one of these; combinations other than general = fixed | scientific are left out *)
Inductive cformat := General | Fixed | Scientific | Hexformat.
Definition is_hexformat (f : cformat) : bool := match f with Hexformat => true | _ => false end.

(** result: [ec] and [ptr] as distance from [first] *)
Inductive shim_res := ShimInvalid (ptr : nat) | ShimRange (ptr : nat) | ShimOk (v : val) (ptr : nat) | ShimUB.

(** the C string that starts with these characters *)
Definition c_string (s : string) : string := fst (span (fun c => negb (Ascii.eqb c nul)) s).

(** 95-111 *)
Definition exponent_check (f : cformat) (s : string) : bool :=
  let e := scontains "e" s || scontains "E" s in
  match f with Scientific => e | Fixed => negb e | _ => true end.

(** 119-146: the text handed to strto...; [None]: an access outside of the text or
    of the buffer of 100 characters.
    (The terminator is written at the length of the text, not behind the prefix 0x.) *)
Definition shim_start (f : cformat) (s behind : string) : option string :=
  let n := String.length s in
  if is_empty behind then None                                                       (* *last *)
  else if negb (match after_char nul behind with Some _ => true | None => false end) || is_hexformat f then
    let offset := if is_hexformat f then 2 else 0 in
    let pos := Nat.min (100 - offset) n in
    if (100 <? offset + n)%nat || (100 <=? pos)%nat then None
    else Some (c_string (stake pos ((if is_hexformat f then "0x" else EmptyString) +s+ s)))
  else Some (c_string s).

(** [s]: the range [first, last); [behind]: the memory from [last] on; [errno]: errno == ERANGE.
    strto... sets errno when the number is out of range and never clears it; neither does this
    function. *)
Definition shim_from_chars (k : fkind) (f : cformat) (s behind : string) (errno : bool) : bool * shim_res :=
  match after_char "+" (s +s+ behind) with
  | Some _ => (errno, ShimInvalid (String.length s))                                (* 88-89 *)
  | None =>
      if exponent_check f s then
        match shim_start f s behind with
        | None => (errno, ShimUB)
        | Some start =>
            let '(out, tmp, n) := match strto_scan start with                        (* 148-161 *)
                                  | None => (false, None, 0)
                                  | Some (x, rest) => let '(v, out) := round k x in
                                                      (out, Some v, String.length start - String.length rest)
                                  end in
            let errno' := errno || out in
            if errno' then (errno', ShimRange n)                                     (* 165-168 *)
            else match tmp with
                 | None => (errno', ShimInvalid n)                                   (* 169-172: tmp == 0 && end == start *)
                 | Some v => (errno', ShimOk (match k with F32 => v | _ => through_float v end) n)   (* [float tmp] *)
                 end
        end
      else (errno, ShimInvalid (String.length s))
  end.

(** as called by parse_option_value, format_parse.hpp 403-413: the text of a std::string, behind it a
    null character *)
Definition shim_read (k : fkind) (s : string) (errno : bool) : bool * fc_res :=
  let '(errno', r) := shim_from_chars k General s (str1 nul) errno in
  (errno', match r with
           | ShimRange _ => FcRange
           | ShimInvalid _ | ShimUB => FcInvalid
           | ShimOk v n => FcOk v (sdrop n s)
           end).
(** the outcome undefined behaviour of [shim_from_chars] cannot occur here, see PropFloat.v *)

(** several texts one after the other, in one process *)
Fixpoint shim_reads (k : fkind) (l : list string) (errno : bool) : list fc_res :=
  match l with
  | [] => []
  | s :: l' => let '(errno', r) := shim_read k s errno in r :: shim_reads k l' errno'
  end.
End rounding.

(** ** to_chars_floating_point, 49-66: [text] is what the stream prints; the memory [first, last) is
    the list [m] *)
Definition shim_to_chars (text : string) (m : list chr) : list chr * option nat :=
  if (List.length m <? String.length text)%nat then (m, None)                        (* value_too_large *)
  else (chars text ++ skipn (String.length text) m, Some (String.length text)).
