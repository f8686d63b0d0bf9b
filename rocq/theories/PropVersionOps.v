(** Properties C123 (operators of versions with any operand) and C124 ([__cmp__] and [str]). *)
From Verif Require Import PyBase PyNum Json Version VersionOps SpecVersion SpecVersionOps VersionFacts VersionOpsFacts.
Open Scope string_scope.
Open Scope Z_scope.

(** ** C123 *)
Theorem C123_versions : forall c a b, answers (compare_with c a (OpVersion b)) (says c (vo_version a) (vo_version b)).
Proof. exact version_version. Qed.
Print Assumptions C123_versions.
Theorem C123_text : forall c a s b, new_version s = Ok b ->
  answers (compare_with c a (OpValue (VStr s))) (says c (vo_version a) (vo_version b)) /\ answers (compare_value c (VStr s) a) (says c (vo_version b) (vo_version a)).
Proof. exact version_text. Qed.
Print Assumptions C123_text.
Theorem C123_bad_text : forall c a s e, new_version s = Err e ->
  compare_with c a (OpValue (VStr s)) = Err e /\ compare_value c (VStr s) a = Err e /\ exists w, e = EValue w.
Proof. exact version_bad. Qed.
Print Assumptions C123_bad_text.
(** Even == and != *)
Theorem C123_other : forall c a v, (forall s, v <> VStr s) ->
  (exists w, compare_with c a (OpValue v) = Err (EAttr w)) /\ (exists w, compare_value c v a = Err (EAttr w)).
Proof. exact version_other. Qed.
Print Assumptions C123_other.
Definition v38 : version_obj := mkVersionObj "3.8.75" (mkVersion 3 8 75).
Example C123_ex : new_version "3.8.75" = Ok v38 /\ compare_with CmpGe v38 (OpValue (VStr "3.8")) = Ok true /\ compare_value CmpGe (VStr "3.8") v38 = Ok false /\
  (exists w, new_version "latest" = Err (EValue w)) /\ (exists w, compare_with CmpEq v38 (OpValue VNone) = Err (EAttr w)).
Proof. repeat split; try (vm_compute; reflexivity); eexists; vm_compute; reflexivity. Qed.

(** ** C124 *)
Theorem C124_release : forall a b, three_digits (vo_version a) -> three_digits (vo_version b) ->
  (ver_cmp a (OpVersion b) = Ok (-1) <-> release_lt (vo_version a) (vo_version b)) /\
  (ver_cmp a (OpVersion b) = Ok 0 <-> vo_version a = vo_version b) /\
  (ver_cmp a (OpVersion b) = Ok 1 <-> release_lt (vo_version b) (vo_version a)).
Proof. exact cmp_release. Qed.
Print Assumptions C124_release.
Theorem C124_text : forall a s b, new_version s = Ok b -> ver_cmp a (OpValue (VStr s)) = ver_cmp a (OpVersion b).
Proof. exact cmp_text. Qed.
Print Assumptions C124_text.
Theorem C124_str : forall s a, new_version s = Ok a <-> mk_version s = Ok (vo_version a) /\ ver_str a = s.
Proof. exact version_parts. Qed.
Print Assumptions C124_str.
(** Not for larger components: 3.8.1000 counts as 3.9.0. *)
Theorem C124_large : exists a b, new_version "3.8.1000" = Ok a /\ new_version "3.9.0" = Ok b /\ release_lt (vo_version a) (vo_version b) /\ ver_cmp a (OpVersion b) = Ok 0.
Proof.
  exists (mkVersionObj "3.8.1000" (mkVersion 3 8 1000)), (mkVersionObj "3.9.0" (mkVersion 3 9 0)).
  repeat split; try (vm_compute; reflexivity). right. left. split; reflexivity.
Qed.
Print Assumptions C124_large.
(** The examples in the documentation of [__cmp__]: they hold of [__cmp__], not of the operators. *)
Example C124_ex : exists a b, new_version "3.8" = Ok a /\ new_version "3.8.2" = Ok b /\ three_digits (vo_version a) /\ three_digits (vo_version b) /\
  ver_cmp a (OpVersion b) = Ok (-1) /\ compare_with CmpLt a (OpVersion b) = Ok false.
Proof. eexists (mkVersionObj "3.8" (mkVersion 3 8 0)), (mkVersionObj "3.8.2" (mkVersion 3 8 2)). repeat split; try (vm_compute; reflexivity); cbn; lia. Qed.
