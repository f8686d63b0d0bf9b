(** Python strings as byte strings.  A [string] of the model is the UTF-8 encoding of a Python
    str.  Concatenation, equality, order, and splitting at or removing ASCII texts are the same
    for a str and its encoding, so most of the model need not look at characters; the few
    places that do (JSON texts, numbers, regular expressions) decode.

    A byte string that is not UTF-8 stands for the str [b.decode("utf-8", "surrogateescape")]:
    a byte that belongs to no character is the lone surrogate U+DC00 + byte (PEP 383).  Other
    strs with lone surrogates are outside the model. *)
From Verif Require Import PyBase PyNum UnicodeTables.
Local Open Scope N_scope.

(** ** UTF-8 *)
Definition cont (c : ascii) : bool := in_range 128 191 (code c).
Definition surrogate (n : N) : bool := in_range 55296 57343 n.
(** The character at the start of [a :: l], and how many bytes of [l] belong to it *)
Definition first_char (a : ascii) (l : list ascii) : N * nat :=
  let x := code a in
  let none := (56320 + x, O) in
  if x <? 128 then (x, O)
  else match l with
  | b :: l2 =>
      let y := code b - 128 in
      let n2 := (x - 192) * 64 + y in
      if (in_range 192 223 x && cont b && (128 <=? n2))%bool then (n2, 1%nat)
      else match l2 with
      | c :: l3 =>
          let z := code c - 128 in
          let n3 := ((x - 224) * 64 + y) * 64 + z in
          if (in_range 224 239 x && cont b && cont c && (2048 <=? n3) && negb (surrogate n3))%bool then (n3, 2%nat)
          else match l3 with
          | d :: _ =>
              let n4 := (((x - 240) * 64 + y) * 64 + z) * 64 + (code d - 128) in
              if (in_range 240 247 x && cont b && cont c && cont d && in_range 65536 1114111 n4)%bool then (n4, 3%nat)
              else none
          | [] => none
          end
      | [] => none
      end
  | [] => none
  end.
(** The characters, after [skip] bytes *)
Fixpoint decode_from (skip : nat) (l : list ascii) : list N :=
  match l with
  | [] => []
  | a :: l' =>
      match skip with
      | S k => decode_from k l'
      | O => let '(n, k) := first_char a l' in n :: decode_from k l'
      end
  end.
Definition decode (l : list ascii) : list N := decode_from 0 l.

(** The bytes of a character *)
Definition encode_char (n : N) : list ascii :=
  if n <? 128 then [ascii_of_N n]
  else if n <? 2048 then [ascii_of_N (192 + n / 64); ascii_of_N (128 + n mod 64)]
  else if in_range 56448 56575 n then [ascii_of_N (n - 56320)]
  else if n <? 65536 then [ascii_of_N (224 + n / 4096); ascii_of_N (128 + n / 64 mod 64); ascii_of_N (128 + n mod 64)]
  else [ascii_of_N (240 + n / 262144); ascii_of_N (128 + n / 4096 mod 64); ascii_of_N (128 + n / 64 mod 64); ascii_of_N (128 + n mod 64)].
Definition encode_chars (l : list N) : list ascii := flat_map encode_char l.

Fixpoint points_eqb (a b : list N) : bool :=
  match a, b with
  | [], [] => true
  | x :: a', y :: b' => ((x =? y) && points_eqb a' b')%bool
  | _, _ => false
  end.
(** The str with the given characters, if it is in the model *)
Definition str_of (l : list N) : option (list ascii) :=
  let b := encode_chars l in if points_eqb (decode b) l then Some b else None.
(** The characters, each as a str of its own *)
Definition each_char (s : string) : list string := map (fun n => unchars (encode_char n)) (decode (chars s)).
(** Is the byte string UTF-8? *)
Definition is_utf8 (l : list ascii) : bool := forallb (fun n => negb (surrogate n)) (decode l).

(** ** Classes of characters *)
Definition in_ranges (n : N) (l : list (N * N)) : bool := existsb (fun ab => in_range (fst ab) (snd ab) n) l.
(** unicodedata.decimal *)
Definition decimal_of (n : N) : option N :=
  match find (fun z => in_range z (z + 9) n) decimal_zeros with
  | Some z => Some (n - z)
  | None => None
  end.
(** For int(), float() and the regular expressions, only the classes of characters outside ASCII
    matter: decimal digits (which count as the digits 0-9), white space, other word characters,
    and the rest.  Each is replaced by a character of its class: a digit, the no-break space
    U+A0, the letter U+E9 and the sign U+D7.  (int() and float():
    _PyUnicode_TransformDecimalAndSpaceToASCII in CPython.) *)
Definition fold_char (n : N) : ascii :=
  if n <? 128 then ascii_of_N n
  else match decimal_of n with
  | Some d => ascii_of_N (48 + d)
  | None => if in_ranges n space_ranges then ascii_of_N 160 else if in_ranges n word_ranges then ascii_of_N 233 else ascii_of_N 215
  end.
Definition folded (s : string) : list ascii := map fold_char (decode (chars s)).
