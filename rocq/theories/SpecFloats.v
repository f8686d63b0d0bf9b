(** Specification of rounding: the binary64 number nearest to a fraction, as IEEE 754 defines
    it (round to nearest, ties to even), in integers only. *)
From Verif Require Import PyBase PyNum SpecText.
From Coq Require Import SpecFloat.
Open Scope Z_scope.

(** The absolute value of a float in units of 2^-1074, the smallest positive one.  For rounding,
    infinity stands for 2^1024, the first power of two that is too large. *)
Definition size (f : float64) : Z :=
  match f with
  | S754_zero _ | S754_nan => 0
  | S754_infinity _ => 2 ^ (1024 + 1074)
  | S754_finite _ m e => Zpos m * 2 ^ (e + 1074)
  end.
(** Is the significand even? *)
Definition even_float (f : float64) : bool :=
  match f with S754_finite _ m _ => Z.even (Zpos m) | _ => true end.
Definition negative (f : float64) : bool :=
  match f with S754_zero s | S754_infinity s | S754_finite s _ _ => s | S754_nan => false end.

(** [rounds neg x q f]: [f] is the float with the given sign whose absolute value is nearest to
    [x / q] units.  Of two equally near ones it is the even one. *)
Definition rounds (neg : bool) (x q : Z) (f : float64) : Prop :=
  is_float f /\ f <> S754_nan /\ negative f = neg /\
  forall g, is_float g -> g <> S754_nan ->
    Z.abs (x - q * size f) <= Z.abs (x - q * size g) /\
    (Z.abs (x - q * size f) = Z.abs (x - q * size g) -> size f = size g \/ even_float f = true).
