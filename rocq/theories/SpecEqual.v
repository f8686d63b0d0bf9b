(** Specification of Python's == on JSON values: numbers by their mathematical value. *)
From Verif Require Import PyBase PyNum Json.
From Coq Require Import SpecFloat QArith.
Open Scope string_scope.

(** The value of a finite number; True is 1 and False is 0. *)
Definition number_value (v : val) : option Q :=
  match v with
  | VBool b => Some (if b then 1 else 0)%Q
  | VInt z => Some (inject_Z z)
  | VFloat (S754_zero _) => Some 0%Q
  | VFloat (S754_finite neg m e) => Some (inject_Z (if neg then Z.neg m else Z.pos m) * (2 # 1) ^ e)%Q
  | _ => None
  end.
Inductive equal : val -> val -> Prop :=
| equal_none : equal VNone VNone
| equal_str : forall s, equal (VStr s) (VStr s)
| equal_number : forall v w x y, number_value v = Some x -> number_value w = Some y -> (x == y)%Q -> equal v w
| equal_infinity : forall neg, equal (VFloat (S754_infinity neg)) (VFloat (S754_infinity neg))
| equal_list : forall l m, Forall2 equal l m -> equal (VList l) (VList m)
| equal_dict : forall d e, (forall k, In k (dkeys d) <-> In k (dkeys e)) ->
    (forall k v w, In (k, v) d -> In (k, w) e -> equal v w) -> equal (VDict d) (VDict e).

(** No NaN inside *)
Inductive no_nan : val -> Prop :=
| nn_none : no_nan VNone
| nn_bool : forall b, no_nan (VBool b)
| nn_int : forall z, no_nan (VInt z)
| nn_float : forall f, f <> S754_nan -> no_nan (VFloat f)
| nn_str : forall s, no_nan (VStr s)
| nn_list : forall l, Forall no_nan l -> no_nan (VList l)
| nn_dict : forall d, (forall k v, In (k, v) d -> no_nan v) -> no_nan (VDict d).
