(** Model of the operators of SpineVersion with any operand, of [__cmp__] and of [str]:
    /repo/spine_json_lib/data/spine_version_type.py:14-28, 87-105. *)
From Verif Require Import PyBase Json Version.
Open Scope string_scope.
Open Scope Z_scope.

(** spine_version_type.py:8-18: an object with its text (line 11) and [_int_version] (line 18) *)
Record version_obj := mkVersionObj { vo_text : string; vo_version : version }.
Definition new_version (s : string) : res version_obj := let! v := mk_version s in Ok (mkVersionObj s v).
Definition int_version (v : version) : Z := v_major v * 1000000 + v_minor v * 1000 + v_patch v.

(** What may stand beside an operator: a version, or a value (of JSON) *)
Inductive operand := OpVersion (v : version_obj) | OpValue (v : val).
(** spine_version_type.py:20-28; [None]: NotImplemented *)
Definition force_cast (o : operand) : res (option version) :=
  match o with
  | OpVersion v => Ok (Some (vo_version v))
  | OpValue (VStr s) => let! v := mk_version s in Ok (Some v)
  | OpValue _ => Ok None
  end.
(** NotImplemented has no attribute [major] (nor [_int_version]). *)
Definition with_operand {A} (f : version -> A) (o : operand) : res A :=
  let! v := force_cast o in
  match v with
  | Some v => Ok (f v)
  | None => Err (EAttr "'NotImplementedType' object has no attribute 'major'")
  end.
Inductive comparison_op := CmpEq | CmpNe | CmpLt | CmpGt | CmpLe | CmpGe.
(** spine_version_type.py:30-85 *)
Definition cmp_fun (c : comparison_op) : version -> version -> bool :=
  match c with CmpEq => ver_eq | CmpNe => ver_ne | CmpLt => ver_lt | CmpGt => ver_gt | CmpLe => ver_le | CmpGe => ver_ge end.
Definition compare_with (c : comparison_op) (a : version_obj) (o : operand) : res bool := with_operand (cmp_fun c (vo_version a)) o.
(** The value on the left: the comparison of str, int, float, list, dict and None with a version is
    NotImplemented, so that Python calls the reflected method of the version. *)
Definition reflected (c : comparison_op) : comparison_op :=
  match c with CmpEq => CmpEq | CmpNe => CmpNe | CmpLt => CmpGt | CmpGt => CmpLt | CmpLe => CmpGe | CmpGe => CmpLe end.
Definition compare_value (c : comparison_op) (x : val) (a : version_obj) : res bool := compare_with (reflected c) a (OpValue x).
(** spine_version_type.py:87-102 *)
Definition ver_cmp (a : version_obj) (o : operand) : res Z :=
  with_operand (fun b => if int_version (vo_version a) <? int_version b then -1
                         else if int_version (vo_version a) =? int_version b then 0 else 1) o.
(** spine_version_type.py:104-105 *)
Definition ver_str (a : version_obj) : string := vo_text a.
