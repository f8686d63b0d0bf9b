(** Properties C01, C02 (versions). *)
From Verif Require Import PyBase PyNum Version SpecVersion VersionFacts.
Open Scope string_scope.

(** ** C01: version parsing is exact *)
Theorem C01_parse_two : forall a b,
  mk_version (dec a ++ "." ++ dec b) = Ok (mkVersion (Z.of_N a) (Z.of_N b) 0).
Proof. exact mk_version2. Qed.
Print Assumptions C01_parse_two.

Theorem C01_parse_three : forall a b c,
  mk_version (dec a ++ "." ++ dec b ++ "." ++ dec c) = Ok (mkVersion (Z.of_N a) (Z.of_N b) (Z.of_N c)).
Proof. exact mk_version3. Qed.
Print Assumptions C01_parse_three.

Theorem C01_wrong_number_of_components : forall s,
  count_dots s <> 1 -> count_dots s <> 2 -> exists w, mk_version s = Err (EValue w).
Proof. exact mk_version_bad_count. Qed.
Print Assumptions C01_wrong_number_of_components.

Theorem C01_only_ValueError : forall s e, mk_version s = Err e -> exists w, e = EValue w.
Proof. exact mk_version_err. Qed.
Print Assumptions C01_only_ValueError.

(** [dec] is the decimal spelling. *)
Example C01_ex_dec : dec 3 ++ "." ++ dec 8 ++ "." ++ dec 99 = "3.8.99".
Proof. reflexivity. Qed.
Example C01_ex : mk_version "3.8.99" = Ok (mkVersion 3 8 99).
Proof. reflexivity. Qed.
Example C01_ex_bad : count_dots "3" <> 1 /\ count_dots "3" <> 2 /\ count_dots "3.8.1.2" <> 1 /\ count_dots "3.8.1.2" <> 2.
Proof. repeat split; discriminate. Qed.

(** ** C02: comparison follows release order -- false *)
(** 4.0 is released after 3.8, but [4.0 >= 3.8], [4.0 > 3.8] are False;
    3.8 < 3.8.2 is False although the class's own documentation uses it as an example. *)
Theorem C02_refuted : exists u v,
  mk_version "4.0" = Ok u /\ mk_version "3.8" = Ok v /\
  release_lt v u /\ ver_gt u v = false /\ ver_ge u v = false /\ ver_lt v u = false /\ ver_le v u = false /\
  ver_eq u v = false.
Proof.
  exists (mkVersion 4 0 0), (mkVersion 3 8 0). repeat split; try (vm_compute; reflexivity).
  left. vm_compute. reflexivity.
Qed.
Print Assumptions C02_refuted.

Theorem C02_doc_example_refuted : exists u v,
  mk_version "3.8" = Ok u /\ mk_version "3.8.2" = Ok v /\ release_lt u v /\ ver_lt u v = false.
Proof.
  exists (mkVersion 3 8 0), (mkVersion 3 8 2). repeat split; try (vm_compute; reflexivity).
  right; right. vm_compute. auto.
Qed.
Print Assumptions C02_doc_example_refuted.

(** What holds of C02.  Missing: the converse of the four implications (false, see above). *)
Theorem C02_comparisons_sound_partial : forall u v,
  (ver_lt u v = true -> release_lt u v) /\ (ver_gt u v = true -> release_lt v u) /\
  (ver_le u v = true -> release_le u v) /\ (ver_ge u v = true -> release_le v u) /\
  (ver_eq u v = true <-> u = v) /\ (ver_ne u v = true <-> u <> v).
Proof. exact comparisons_sound. Qed.
Print Assumptions C02_comparisons_sound_partial.

Theorem C02_same_minor_partial : forall u v,
  v_major u = v_major v -> v_minor u = v_minor v ->
  (ver_le u v = true <-> release_le u v) /\ (ver_ge u v = true <-> release_le v u).
Proof. exact comparisons_same_minor. Qed.
Print Assumptions C02_same_minor_partial.

(** Exactly what the operators compute: the component-wise orders. *)
Theorem C02_component_wise : forall u v,
  (ver_lt u v = true <-> (v_major u < v_major v /\ v_minor u < v_minor v /\ v_patch u < v_patch v)%Z) /\
  (ver_gt u v = true <-> (v_major u > v_major v /\ v_minor u > v_minor v /\ v_patch u > v_patch v)%Z) /\
  (ver_le u v = true <-> (v_major u <= v_major v /\ v_minor u <= v_minor v /\ v_patch u <= v_patch v)%Z) /\
  (ver_ge u v = true <-> (v_major u >= v_major v /\ v_minor u >= v_minor v /\ v_patch u >= v_patch v)%Z).
Proof. exact comparisons_exact. Qed.
Print Assumptions C02_component_wise.

Theorem C02_le_partial_order : forall u v w,
  ver_le u u = true /\ (ver_le u v = true -> ver_le v u = true -> u = v) /\
  (ver_le u v = true -> ver_le v w = true -> ver_le u w = true) /\ (ver_ge u v = ver_le v u) /\ (ver_gt u v = ver_lt v u).
Proof. exact le_partial_order. Qed.
Print Assumptions C02_le_partial_order.

Example C02_ex : ver_le (mkVersion 3 8 1) (mkVersion 3 8 2) = true /\ ver_ge (mkVersion 3 8 1) (mkVersion 3 8 2) = false
  /\ ver_lt (mkVersion 2 7 1) (mkVersion 3 8 2) = true.
Proof. repeat split. Qed.
