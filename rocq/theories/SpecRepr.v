(** Specification of repr() and str() of JSON values.  Of a float: as few digits as are needed to
    read it back, and of those numbers the nearest.  In integers only. *)
From Verif Require Import PyBase PyNum UnicodeTables Json SpecUnicode SpecText SpecFloats.
From Coq Require Import SpecFloat.
Open Scope list_scope.
Open Scope Z_scope.

(** The decimal number c * 10^e, as a fraction in units of 2^-1074 *)
Definition above (c e : Z) : Z := c * 10 ^ Z.max e 0 * 2 ^ 1074.
Definition below (e : Z) : Z := 10 ^ Z.max (- e) 0.
(** The number is read as [f]. *)
Definition read_as (f : float64) (c e : Z) : Prop := 0 < c /\ rounds (negative f) (above c e) (below e) f.
(** Its distance from [f], times [below e] *)
Definition gap (f : float64) (c e : Z) : Z := Z.abs (above c e - below e * size f).

(** [q] * 10^[x] is the way to write [f], which takes [n] digits: [x] is the place of the n-th digit
    of [f]; a number of fewer digits is not read as [f]; no other number of [n] digits that is read as
    [f] is nearer, and of two equally near ones it is the one with the even digit. *)
Record best (f : float64) (n q x : Z) : Prop := mkBest {
  best_place : 0 < n /\ above (10 ^ (n - 1)) x <= below x * size f < above (10 ^ n) x;
  best_read : read_as f q x;
  best_size : 10 ^ (n - 1) <= q <= 10 ^ n;
  best_short : forall c e, read_as f c e -> 10 ^ (n - 1) <= c;
  best_near : forall c e, read_as f c e -> c <= 10 ^ n -> gap f q x * below e <= gap f c e * below x;
  best_even : forall c, read_as f c x -> gap f c x = gap f q x -> c = q \/ Z.even q = true }.

(** The digits [d], and the point behind the [p]-th of them: with zeros if that is close, or with an exponent. *)
Definition zero_digits (z : Z) : list ascii := repeat "0"%char (Z.to_nat z).
Inductive two_digits : Z -> list ascii -> Prop :=
| two_padded : forall z, 0 <= z < 10 -> two_digits z ("0"%char :: chars (dec (Z.to_N z)))
| two_plain : forall z, 10 <= z -> two_digits z (chars (dec (Z.to_N z))).
Inductive laid_out : list ascii -> Z -> list ascii -> Prop :=
| lo_small : forall d p, -4 < p <= 0 -> laid_out d p ("0"%char :: "."%char :: zero_digits (- p) ++ d)
| lo_inside : forall d d' , d <> [] -> d' <> [] -> (length d <= 16)%nat -> laid_out (d ++ d') (Z.of_nat (length d)) (d ++ "."%char :: d')
| lo_large : forall d p, Z.of_nat (length d) <= p <= 16 -> 0 < p -> laid_out d p (d ++ zero_digits (p - Z.of_nat (length d)) ++ ["."; "0"]%char)
| lo_one : forall c p t, p <= -4 \/ 16 < p -> two_digits (Z.abs (p - 1)) t ->
    laid_out [c] p (c :: "e"%char :: (if p <=? 0 then "-"%char else "+"%char) :: t)
| lo_more : forall c c' d p t, p <= -4 \/ 16 < p -> two_digits (Z.abs (p - 1)) t ->
    laid_out (c :: c' :: d) p (c :: "."%char :: c' :: d ++ "e"%char :: (if p <=? 0 then "-"%char else "+"%char) :: t).

(** float.__repr__ *)
Inductive written : float64 -> list ascii -> Prop :=
| wr_nan : written S754_nan (chars "nan")
| wr_infinity : written (S754_infinity false) (chars "inf")
| wr_minus_infinity : written (S754_infinity true) (chars "-inf")
| wr_zero : written (S754_zero false) (chars "0.0")
| wr_minus_zero : written (S754_zero true) (chars "-0.0")
| wr_number : forall s m e n q x d c j t, best (S754_finite s m e) n q x ->
    chars (dec (Z.to_N q)) = d ++ c :: repeat "0"%char j -> c <> "0"%char ->
    laid_out (d ++ [c]) (x + Z.of_nat (length (d ++ c :: repeat "0"%char j))) t ->
    written (S754_finite s m e) ((if s then ["-"%char] else []) ++ t).

(** ** str.__repr__ *)
(** A hexadecimal digit in lower case; a number in them *)
Definition hex_of (c : ascii) (n : N) : Prop := ((n < 10 /\ code c = 48 + n) \/ (10 <= n < 16 /\ code c = 87 + n))%N.
Inductive hex_number : list ascii -> N -> Prop :=
| hn_nil : hex_number [] 0
| hn_digit : forall t n c d, hex_number t n -> hex_of c d -> hex_number (t ++ [c]) (n * 16 + d).
(** Characters that are not printable *)
Definition hidden (n : N) : Prop := (n < 32)%N \/ n = 127%N \/ listed n hidden_ranges.
Definition named_escapes : list (ascii * ascii) := [("t", "009"); ("n", "010"); ("r", "013")]%char.
Definition has_name (n : N) : Prop := exists e c, In (e, c) named_escapes /\ n = code c.
Inductive char_shown (quote : ascii) : N -> list ascii -> Prop :=
| cs_quote : char_shown quote (code quote) ["\"%char; quote]
| cs_backslash : char_shown quote (code "\") ["\"; "\"]%char
| cs_named : forall e c, In (e, c) named_escapes -> char_shown quote (code c) ["\"%char; e]
| cs_two : forall n t, hidden n -> ~ has_name n -> (n < 256)%N -> hex_number t n -> length t = 2%nat -> char_shown quote n ("\"%char :: "x"%char :: t)
| cs_four : forall n t, hidden n -> (256 <= n < 65536)%N -> hex_number t n -> length t = 4%nat -> char_shown quote n ("\"%char :: "u"%char :: t)
| cs_eight : forall n t, hidden n -> (65536 <= n)%N -> hex_number t n -> length t = 8%nat -> char_shown quote n ("\"%char :: "U"%char :: t)
| cs_plain : forall n p, ~ hidden n -> n <> code quote -> n <> code "\" -> bytes_of n p -> char_shown quote n p.
(** In single quotes, or in double quotes if that saves escapes *)
Inductive quoted : string -> list ascii -> Prop :=
| qu_single : forall s ns parts, stands_for (chars s) ns -> ~ In (code "'") ns \/ In (code """") ns ->
    Forall2 (char_shown "'") ns parts -> quoted s ("'"%char :: concat parts ++ ["'"%char])
| qu_double : forall s ns parts, stands_for (chars s) ns -> In (code "'") ns -> ~ In (code """") ns ->
    Forall2 (char_shown """") ns parts -> quoted s (""""%char :: concat parts ++ [""""%char]).

(** ** repr and str of a value *)
Fixpoint separated (ts : list (list ascii)) : list ascii :=
  match ts with
  | [] => []
  | [t] => t
  | t :: ts' => t ++ ","%char :: " "%char :: separated ts'
  end.
Inductive shown : val -> list ascii -> Prop :=
| sh_none : shown VNone (chars "None")
| sh_true : shown (VBool true) (chars "True")
| sh_false : shown (VBool false) (chars "False")
| sh_int : forall z t, number_text t (VInt z) -> t <> chars "-0" -> shown (VInt z) t
| sh_float : forall f t, written f t -> shown (VFloat f) t
| sh_str : forall s t, quoted s t -> shown (VStr s) t
| sh_list : forall l ts, each_shown l ts -> shown (VList l) ("["%char :: separated ts ++ ["]"%char])
| sh_dict : forall d ts, each_pair_shown d ts -> shown (VDict d) ("{"%char :: separated ts ++ ["}"%char])
with each_shown : list val -> list (list ascii) -> Prop :=
| es_nil : each_shown [] []
| es_cons : forall v l t ts, shown v t -> each_shown l ts -> each_shown (v :: l) (t :: ts)
with each_pair_shown : list (string * val) -> list (list ascii) -> Prop :=
| ps_nil : each_pair_shown [] []
| ps_cons : forall k v d t u ts, quoted k t -> shown v u -> each_pair_shown d ts ->
    each_pair_shown ((k, v) :: d) ((t ++ ":"%char :: " "%char :: u) :: ts).
(** str(): a string as it is, and other values as repr shows them *)
Inductive said : val -> string -> Prop :=
| sd_str : forall s, said (VStr s) s
| sd_other : forall v s, (forall x, v <> VStr x) -> shown v (chars s) -> said v s.
