(** Specification of the product of two values of JSON, as Python's [*] computes it. *)
From Verif Require Import PyBase PyNum Json SpecText SpecFloats.
From Coq Require Import SpecFloat.
Open Scope string_scope.

(** The ints; True and False are 1 and 0. *)
Inductive whole : val -> Z -> Prop :=
| whole_int : forall z, whole (VInt z) z
| whole_true : whole (VBool true) 1
| whole_false : whole (VBool false) 0.
Definition is_inf (f : float64) : Prop := exists s, f = S754_infinity s.
Definition is_zero (f : float64) : Prop := exists s, f = S754_zero s.

(** A factor as a float: an int as the nearest one, which must be finite. *)
Inductive factor : val -> float64 -> Prop :=
| factor_float : forall f, factor (VFloat f) f
| factor_whole : forall v z f, whole v z -> is_finite f -> rounds (z <? 0)%Z (Z.abs z * 2 ^ 1074) 1 f -> factor v f.
(** IEEE 754: the nearest float to the exact product; infinity times zero is not a number.
    (The type float64 also has values that are no binary64 numbers; of them nothing is said.) *)
Inductive float_product : float64 -> float64 -> float64 -> Prop :=
| product_nan : forall f g, f = S754_nan \/ g = S754_nan -> float_product f g S754_nan
| product_undefined : forall f g, is_inf f /\ is_zero g \/ is_zero f /\ is_inf g -> float_product f g S754_nan
| product_infinite : forall f g, f <> S754_nan -> g <> S754_nan -> is_inf f /\ ~ is_zero g \/ ~ is_zero f /\ is_inf g ->
    float_product f g (S754_infinity (xorb (negative f) (negative g)))
| product_finite : forall f g r, is_finite f -> is_finite g ->
    (is_float f -> is_float g -> rounds (xorb (negative f) (negative g)) (size f * size g) (2 ^ 1074) r) ->
    float_product f g r.

(** Fits a machine word of 64 bits *)
Definition countable (n : Z) : Prop := (- 2 ^ 63 <= n < 2 ^ 63)%Z.
Definition is_sequence (v : val) : Prop := match v with VStr _ | VList _ => True | _ => False end.
Definition is_vfloat (v : val) : Prop := exists f, v = VFloat f.
(** Ints exactly; floats, or a float and an int, as floats; a string or list and an int: that many copies
    one after the other, none if the int is negative. *)
Inductive product : val -> val -> val -> Prop :=
| product_int : forall a b x y, whole a x -> whole b y -> product a b (VInt (x * y))
| product_float : forall a b f g r, is_vfloat a \/ is_vfloat b -> factor a f -> factor b g -> float_product f g r -> product a b (VFloat r)
| product_str_l : forall s b n, whole b n -> countable n -> product (VStr s) b (VStr (String.concat "" (repeat s (Z.to_nat n))))
| product_str_r : forall a s n, whole a n -> countable n -> product a (VStr s) (VStr (String.concat "" (repeat s (Z.to_nat n))))
| product_list_l : forall l b n, whole b n -> countable n -> product (VList l) b (VList (concat (repeat l (Z.to_nat n))))
| product_list_r : forall a l n, whole a n -> countable n -> product a (VList l) (VList (concat (repeat l (Z.to_nat n)))).

(** A float meets an int that is nearer to infinity than to any float, or a sequence one that does not
    fit a machine word: OverflowError. *)
Definition too_big (a b : val) : Prop :=
  exists v w z, (v = a /\ w = b \/ v = b /\ w = a) /\ whole w z /\
    (is_vfloat v /\ rounds (z <? 0)%Z (Z.abs z * 2 ^ 1074) 1 (S754_infinity (z <? 0)%Z) \/
     is_sequence v /\ ~ countable z).
(** How [*] fails *)
Definition no_product (a b : val) (e : exn) : Prop :=
  (forall c, ~ product a b c) /\ (too_big a b /\ e = EOverflow \/ ~ too_big a b /\ exists w, e = EType w).
