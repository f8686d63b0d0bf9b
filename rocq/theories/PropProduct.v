(** Property C120: products. *)
From Verif Require Import PyBase PyNum Json SpecText SpecFloats SpecProduct ProductFacts.
From Coq Require Import SpecFloat.
Open Scope string_scope.

(** ** C120: what [*] gives for any two values of JSON, and how it fails *)
Theorem C120_exact : forall a b c, (forall f, a = VFloat f -> is_float f) -> (forall f, b = VFloat f -> is_float f) ->
  (py_mul a b = Ok c <-> product a b c).
Proof. exact mul_exact. Qed.
Print Assumptions C120_exact.
Theorem C120_refused : forall a b e, py_mul a b = Err e -> no_product a b e.
Proof. exact mul_refused. Qed.
Print Assumptions C120_refused.
Theorem C120_one_result : forall a b c c', (forall f, a = VFloat f -> is_float f) -> (forall f, b = VFloat f -> is_float f) ->
  product a b c -> product a b c' -> c = c'.
Proof. exact product_one. Qed.
Print Assumptions C120_one_result.
(** 3 * True is the int 3, 2 * "ab" a string, -1 * [0] the empty list; a list times a float, or 10^400 times a float, fail. *)
Example C120_ex : product (VInt 3) (VBool true) (VInt 3) /\ product (VInt 2) (VStr "ab") (VStr "abab") /\
  product (VInt (-1)) (VList [VInt 0]) (VList []) /\ no_product (VList []) (VFloat f_one) (EType "unsupported operand type(s) for *") /\
  no_product (VInt (10 ^ 400)) (VFloat f_one) EOverflow /\ no_product (VInt (2 ^ 63)) (VStr "a") EOverflow.
Proof.
  split; [apply (product_int (VInt 3) (VBool true) 3 1); constructor | ].
  split; [apply (product_str_r (VInt 2) "ab" 2); [constructor | split; vm_compute; [discriminate | reflexivity]] | ].
  split; [apply (product_list_r (VInt (-1)) [VInt 0] (-1)); [constructor | split; vm_compute; [discriminate | reflexivity]] | ].
  split; [apply mul_refused; vm_compute; reflexivity | ]. split; apply mul_refused; vm_compute; reflexivity.
Qed.
(** 0.1 * 3 is 0.30000000000000004. *)
Example C120_ex_float : py_mul (VFloat (float_of_decimal false 1 (-1))) (VInt 3) = Ok (VFloat (float_of_decimal false 30000000000000004 (-17))).
Proof. vm_compute. reflexivity. Qed.
