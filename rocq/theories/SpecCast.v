(** Specification of casts, and of the numbers a value stands for. *)
From Verif Require Import PyBase PyNum Json SpecText SpecUnicode SpecNums SpecFloats.
From Coq Require Import SpecFloat.
Open Scope string_scope.

(** The float a value is converted to: strings as float(s) reads them, integers as the nearest
    float (which must be finite). *)
Inductive as_float : val -> float64 -> Prop :=
| af_float : forall f, as_float (VFloat f) f
| af_int : forall z f, is_finite f -> rounds (z <? 0)%Z (Z.abs z * 2 ^ 1074) 1 f -> as_float (VInt z) f
| af_true : as_float (VBool true) f_one
| af_false : as_float (VBool false) (S754_zero false)
| af_text : forall s l f, reads_as s l -> float_text l f -> as_float (VStr s) f.

(** [z] is [f] without its fraction. *)
Definition whole_part (f : float64) (z : Z) : Prop :=
  is_finite f /\ (Z.abs z * 2 ^ 1074 <= size f < (Z.abs z + 1) * 2 ^ 1074)%Z /\
  (z < 0 -> negative f = true)%Z /\ (0 < z -> negative f = false)%Z.

(** What a cast to boolean gives *)
Inductive as_boolean : val -> val -> Prop :=
| ab_bool : forall b, as_boolean (VBool b) (VBool b)
| ab_true : forall s, word_text "true" (chars s) -> as_boolean (VStr s) (VBool true)
| ab_false : forall s, word_text "false" (chars s) -> as_boolean (VStr s) (VBool false)
| ab_other : forall s, ~ word_text "true" (chars s) -> ~ word_text "false" (chars s) -> as_boolean (VStr s) (VStr s).

(** A name with blanks around it *)
Definition blanks_around (w : string) (l : list ascii) : Prop :=
  exists b1 b2, Forall white b1 /\ Forall white b2 /\ l = (b1 ++ chars w ++ b2)%list.

(** The exceptions: ValueError, TypeError, OverflowError *)
Inductive refusal := wrong_value | wrong_type | too_large.
Definition raised (r : refusal) (e : exn) : Prop :=
  match r with
  | wrong_value => exists w, e = EValue w
  | wrong_type => exists w, e = EType w
  | too_large => e = EOverflow
  end.
(** No float for a value *)
Inductive no_float : val -> refusal -> Prop :=
| nf_none : no_float VNone wrong_type
| nf_list : forall l, no_float (VList l) wrong_type
| nf_dict : forall l, no_float (VDict l) wrong_type
| nf_text : forall s, (forall l f, reads_as s l -> ~ float_text l f) -> no_float (VStr s) wrong_value
| nf_int : forall z, rounds (z <? 0)%Z (Z.abs z * 2 ^ 1074) 1 (S754_infinity (z <? 0)%Z) -> no_float (VInt z) too_large.
(** The casts refused, by the name of the type *)
Inductive cast_refused : val -> string -> refusal -> Prop :=
| cr_number : forall v r, no_float v r -> cast_refused v "number" r
| cr_integer : forall v r, no_float v r -> cast_refused v "integer" r
| cr_nan : forall v, as_float v S754_nan -> cast_refused v "integer" wrong_value
| cr_infinity : forall v b, as_float v (S754_infinity b) -> cast_refused v "integer" too_large
| cr_boolean : forall v, (forall b, v <> VBool b) -> (forall s, v <> VStr s) -> cast_refused v "boolean" wrong_value.
