(** What Python writes for floats and strings.  Not code of /repo.
    - float.__repr__, which json.dumps, str() and str.format use: Python/dtoa.c with mode 0 (the
      shortest decimal that is read back, and of those the nearest) and Python/pystrtod.c
      (format_float_short with format code r);
    - str.__repr__, which str() and str.format of lists and dictionaries use:
      Objects/unicodeobject.c (unicode_repr). *)
From Verif Require Import PyBase PyNum UnicodeTables Unicode.
From Coq Require Import SpecFloat.
Open Scope list_scope.
Open Scope Z_scope.

(** The number of decimal digits *)
Definition digits_of (n : Z) : Z := Z.of_nat (length (chars (dec (Z.to_N n)))).
(** The k with 10^(k-1) <= a / b < 10^k *)
Definition magnitude (a b : Z) : Z :=
  if b <=? a then digits_of (a / b) else 1 - digits_of ((b - 1) / a).
Definition seqb_float (f g : float64) : bool :=
  match f, g with
  | S754_finite s m e, S754_finite s' m' e' => Bool.eqb s s' && Pos.eqb m m' && Z.eqb e e'
  | _, _ => false
  end.
(** Is [c] * 10^[e] read as [f]? *)
Definition reads_back (f : float64) (s : bool) (c e : Z) : bool := seqb_float (float_of_decimal s (Z.to_N c) e) f.
(** The decimal of [n] digits for a / b that is read back, if there is one *)
Definition with_digits (f : float64) (s : bool) (a b k n : Z) : option (Z * Z) :=
  let x := a * 10 ^ Z.max (n - k) 0 in
  let y := b * 10 ^ Z.max (k - n) 0 in
  let q := x / y in
  let r := x mod y in
  match reads_back f s q (k - n), reads_back f s (q + 1) (k - n) with
  | true, true => Some (if (2 * r <? y) || (2 * r =? y) && Z.even q then q else q + 1, k - n)
  | true, false => Some (q, k - n)
  | false, true => Some (q + 1, k - n)
  | false, false => None
  end.
Fixpoint first_some {A B} (f : A -> option B) (l : list A) : option B :=
  match l with
  | [] => None
  | x :: l' => match f x with Some y => Some y | None => first_some f l' end
  end.
(** The significand and the exponent of ten.  17 digits are always enough. *)
Definition shortest (s : bool) (m : positive) (e : Z) : Z * Z :=
  let a := Zpos m * 2 ^ Z.max e 0 in
  let b := 2 ^ Z.max (- e) 0 in
  let k := magnitude a b in
  match first_some (with_digits (S754_finite s m e) s a b k) [1; 2; 3; 4; 5; 6; 7; 8; 9; 10; 11; 12; 13; 14; 15; 16; 17] with
  | Some d => d
  | None => (0, 0)
  end.

(** The digits without zeros at the end *)
Fixpoint trim_zeros (l : list ascii) : list ascii :=
  match l with
  | [] => []
  | c :: l' => match trim_zeros l' with [] => if Ascii.eqb c "0" then [] else [c] | t => c :: t end
  end.
Definition zeros (z : Z) : list ascii := repeat "0"%char (Z.to_nat z).
(** pystrtod.c: the point is behind [p] digits. *)
Definition layout (d : list ascii) (p : Z) : list ascii :=
  if (-4 <? p) && (p <=? 16) then
    if p <=? 0 then chars "0." ++ zeros (- p) ++ d
    else if p <? Z.of_nat (length d) then firstn (Z.to_nat p) d ++ "."%char :: skipn (Z.to_nat p) d
    else d ++ zeros (p - Z.of_nat (length d)) ++ chars ".0"
  else
    firstn 1 d ++ (match skipn 1 d with [] => [] | t => "."%char :: t end) ++
    "e"%char :: (if p - 1 <? 0 then "-"%char else "+"%char) ::
    (if Z.abs (p - 1) <? 10 then ["0"%char] else []) ++ chars (dec (Z.to_N (Z.abs (p - 1)))).
Definition repr_float (f : float64) : list ascii :=
  match f with
  | S754_nan => chars "nan"
  | S754_infinity s => (if s then ["-"%char] else []) ++ chars "inf"
  | S754_zero s => (if s then ["-"%char] else []) ++ chars "0.0"
  | S754_finite s m e =>
      let '(c, x) := shortest s m e in
      let d := chars (dec (Z.to_N c)) in
      (if s then ["-"%char] else []) ++ layout (trim_zeros d) (x + Z.of_nat (length d))
  end.

(** ** Strings *)
Definition small_hex (n : N) : ascii := ascii_of_N (if (n <? 10)%N then 48 + n else 87 + n).
(** The last [k] hexadecimal digits *)
Fixpoint hex_digits (k : nat) (n : N) : list ascii :=
  match k with
  | O => []
  | S k' => hex_digits k' (n / 16) ++ [small_hex (n mod 16)]
  end.
Definition repr_char (quote n : N) : list ascii :=
  if ((n =? quote) || (n =? 92))%N%bool then ["\"%char; ascii_of_N n]
  else if (n =? 9)%N then ["\"; "t"]%char
  else if (n =? 10)%N then ["\"; "n"]%char
  else if (n =? 13)%N then ["\"; "r"]%char
  else if ((n <? 32) || (n =? 127))%N%bool then ["\"; "x"]%char ++ hex_digits 2 n
  else if (n <? 127)%N then [ascii_of_N n]
  else if in_ranges n hidden_ranges then
    if (n <? 256)%N then ["\"; "x"]%char ++ hex_digits 2 n
    else if (n <? 65536)%N then ["\"; "u"]%char ++ hex_digits 4 n
    else ["\"; "U"]%char ++ hex_digits 8 n
  else encode_char n.
Definition repr_string (s : string) : list ascii :=
  let l := decode (chars s) in
  let quote := (if existsb (N.eqb 39) l && negb (existsb (N.eqb 34) l) then 34 else 39)%N in
  ascii_of_N quote :: flat_map (repr_char quote) l ++ [ascii_of_N quote].
