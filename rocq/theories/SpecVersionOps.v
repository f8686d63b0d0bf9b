(** Specification of the operators of versions: what each says of the components, independent of the
    comparison functions of the model. *)
From Verif Require Import PyBase Version VersionOps.
Open Scope Z_scope.

Definition all_three (r : Z -> Z -> Prop) (u v : version) : Prop :=
  r (v_major u) (v_major v) /\ r (v_minor u) (v_minor v) /\ r (v_patch u) (v_patch v).
Definition says (c : comparison_op) (u v : version) : Prop :=
  match c with
  | CmpEq => u = v
  | CmpNe => u <> v
  | CmpLt => all_three Z.lt u v
  | CmpGt => all_three Z.gt u v
  | CmpLe => all_three Z.le u v
  | CmpGe => all_three Z.ge u v
  end.
(** The answer to a question *)
Definition answers (r : res bool) (p : Prop) : Prop := exists b, r = Ok b /\ (b = true <-> p).
(** Minor and patch of at most three digits *)
Definition three_digits (v : version) : Prop := 0 <= v_minor v < 1000 /\ 0 <= v_patch v < 1000.
