(** Python numbers: int = Z, float = IEEE binary64 (Coq.Floats.SpecFloat, which is
    computable and axiom free), the character classes of the [re] module and the
    conversions [int(s)], [int(s, 16)], [float(s)]. *)
From Verif Require Import PyBase.
From Coq Require Import SpecFloat.
Open Scope string_scope.

Definition float64 := spec_float.
Definition fmul (a b : float64) : float64 := SFmul 53 1024 a b.
Definition f_one : float64 := S754_finite false 4503599627370496 (-52).

(** float(int): OverflowError when the integer is out of range. *)
Definition float_of_Z (z : Z) : res float64 :=
  match binary_normalize 53 1024 z 0 false with
  | S754_infinity _ => Err EOverflow
  | f => Ok f
  end.

(** The exact value m * 2^e of a finite float. *)
Definition dyadic (f : float64) : option (Z * Z) :=
  match f with
  | S754_zero _ => Some (0, 0)%Z
  | S754_finite s m e => Some (cond_Zopp s (Zpos m), e)
  | _ => None
  end.

Definition dyadic_eqb (a b : Z * Z) : bool :=
  let e := Z.min (snd a) (snd b) in
  Z.eqb (fst a * 2 ^ (snd a - e)) (fst b * 2 ^ (snd b - e)).

(** Python [==] on floats and between int and float: exact comparison of values. *)
Definition feqb (a b : float64) : bool :=
  match a, b with
  | S754_nan, _ | _, S754_nan => false
  | S754_infinity s, S754_infinity s' => Bool.eqb s s'
  | S754_infinity _, _ | _, S754_infinity _ => false
  | _, _ => match dyadic a, dyadic b with
            | Some x, Some y => dyadic_eqb x y
            | _, _ => false
            end
  end.
Definition zfeqb (z : Z) (f : float64) : bool :=
  match dyadic f with
  | Some y => dyadic_eqb (z, 0%Z) y
  | None => false
  end.

(** ** Character classes.  Characters outside ASCII have been replaced by U+A0, U+D7 or U+E9
    (Unicode.v); the classes are those of Latin-1. *)
Definition in_range (a b n : N) : bool := (N.leb a n && N.leb n b)%bool.
Definition is_digit (c : ascii) : bool := in_range 48 57 (code c).          (* \d *)
Definition is_space (c : ascii) : bool :=                                  (* \s, str.strip() *)
  let n := code c in
  in_range 9 13 n || in_range 28 32 n || N.eqb n 133 || N.eqb n 160.
Definition is_blank (c : ascii) : bool :=                                  (* int() and float() *)
  let n := code c in
  in_range 9 13 n || N.eqb n 32 || N.eqb n 133 || N.eqb n 160.
Definition is_word (c : ascii) : bool :=                                   (* \w *)
  let n := code c in
  is_digit c || in_range 65 90 n || in_range 97 122 n || N.eqb n 95
  || N.eqb n 170 || N.eqb n 178 || N.eqb n 179 || N.eqb n 181 || N.eqb n 185 || N.eqb n 186
  || in_range 188 190 n || in_range 192 214 n || in_range 216 246 n || in_range 248 255 n.

Fixpoint lstrip (f : ascii -> bool) (l : list ascii) : list ascii :=
  match l with
  | [] => []
  | c :: l' => if f c then lstrip f l' else l
  end.
Definition strip_by (f : ascii -> bool) (l : list ascii) : list ascii := rev (lstrip f (rev (lstrip f l))).
(** str.strip() *)
Definition strip (l : list ascii) : list ascii := strip_by is_space l.
(** The blanks that int() and float() skip (not U+1C to U+1F, which str.strip() removes) *)
Definition trim (l : list ascii) : list ascii := strip_by is_blank l.

(** ** int(s) and int(s, 16) *)
Definition digit_val (c : ascii) : option N :=
  if is_digit c then Some (code c - 48)%N else None.
Definition hex_val (c : ascii) : option N :=
  let n := code c in
  if is_digit c then Some (n - 48)%N
  else if in_range 97 102 n then Some (n - 87)%N
  else if in_range 65 70 n then Some (n - 55)%N
  else None.

(** digit ("_"? digit)*: single underscores between digits are allowed. *)
Fixpoint digits_val (dv : ascii -> option N) (base acc : N) (after_digit : bool) (l : list ascii)
  : option N :=
  match l with
  | [] => if after_digit then Some acc else None
  | c :: l' =>
      match dv c with
      | Some d => digits_val dv base (acc * base + d)%N true l'
      | None => if (Ascii.eqb c "_" && after_digit)%bool
                then digits_val dv base acc false l' else None
      end
  end.

(** int(s): surrounding blanks, an optional sign, decimal digits. *)
Definition py_int (s : list ascii) : option Z :=
  match trim s with
  | "-"%char :: l => option_map (fun n => - Z.of_N n)%Z (digits_val digit_val 10 0 false l)
  | "+"%char :: l => option_map Z.of_N (digits_val digit_val 10 0 false l)
  | l => option_map Z.of_N (digits_val digit_val 10 0 false l)
  end.

(** int("0x" + s, 16): trailing blanks allowed, one underscore allowed after 0x. *)
Definition py_int_0x (s : list ascii) : option N :=
  match rev (lstrip is_blank (rev s)) with
  | "_"%char :: l => digits_val hex_val 16 0 false l
  | l => digits_val hex_val 16 0 false l
  end.

(** ** float(s) *)
(** The decimal number m * 10^e, correctly rounded to binary64. *)
Definition float_of_decimal (neg : bool) (m : N) (e : Z) : float64 :=
  match m with
  | N0 => S754_zero neg
  | Npos p =>
      if (0 <=? e)%Z then
        match binary_normalize 53 1024 (Zpos p * 10 ^ e) 0 false with
        | S754_finite _ q x => S754_finite neg q x
        | S754_infinity _ => S754_infinity neg
        | f => f
        end
      else
        let '(q, e', l) := SFdiv_core_binary 53 1024 (Zpos p) 0 (10 ^ (- e)) 0 in
        binary_round_aux 53 1024 neg q e' l
  end.

(** Underscores are allowed only between two digits; the rest is parsed without them. *)
Fixpoint drop_underscores (prev_digit : bool) (l : list ascii) : option (list ascii) :=
  match l with
  | [] => Some []
  | c :: l' =>
      if Ascii.eqb c "_" then
        if prev_digit then
          match l' with
          | d :: _ => if is_digit d then drop_underscores false l' else None
          | [] => None
          end
        else None
      else option_map (cons c) (drop_underscores (is_digit c) l')
  end.

Fixpoint take_digits (acc : N) (n : nat) (l : list ascii) : N * nat * list ascii :=
  match l with
  | [] => (acc, n, [])
  | c :: l' =>
      match digit_val c with
      | Some d => take_digits (acc * 10 + d)%N (S n) l'
      | None => (acc, n, l)
      end
  end.

Definition lower (c : ascii) : ascii :=
  if in_range 65 90 (code c) then ascii_of_N (code c + 32) else c.

Definition parse_exp (l : list ascii) : option Z :=
  match l with
  | [] => Some 0%Z
  | c :: l' =>
      if Ascii.eqb (lower c) "e" then
        let '(neg, l'') := match l' with
                           | "-"%char :: r => (true, r)
                           | "+"%char :: r => (false, r)
                           | r => (false, r)
                           end in
        let '(x, n, rest) := take_digits 0 0 l'' in
        match n, rest with
        | O, _ => None
        | _, [] => Some (if neg then (- Z.of_N x)%Z else Z.of_N x)
        | _, _ => None
        end
      else None
  end.

Definition parse_unsigned (neg : bool) (l : list ascii) : option float64 :=
  let low := unchars (map lower l) in
  if seqb low "inf" || seqb low "infinity" then Some (S754_infinity neg)
  else if seqb low "nan" then Some S754_nan
  else
    let '(ip, ni, rest) := take_digits 0 0 l in
    let '(m, nf, rest') := match rest with
                           | "."%char :: r => take_digits ip 0 r
                           | r => (ip, 0, r)
                           end in
    if Nat.eqb (ni + nf) 0 then None
    else match parse_exp rest' with
         | Some x => Some (float_of_decimal neg m (x - Z.of_nat nf))
         | None => None
         end.

Definition py_float (s : list ascii) : option float64 :=
  match drop_underscores false (trim s) with
  | None => None
  | Some ("-"%char :: l) => parse_unsigned true l
  | Some ("+"%char :: l) => parse_unsigned false l
  | Some l => parse_unsigned false l
  end.
