(** Proofs about the operators of versions. *)
From Verif Require Import PyBase Json Version VersionOps SpecVersion SpecVersionOps VersionFacts.
Open Scope string_scope.
Open Scope Z_scope.

Lemma bind_ok : forall A B (m : res A) (f : A -> res B) x, bind m f = Ok x -> exists y, m = Ok y /\ f y = Ok x.
Proof. intros A B [y | e] f x H; [eauto | discriminate]. Qed.

Theorem compare_version : forall c a b, compare_with c a (OpVersion b) = Ok (cmp_fun c (vo_version a) (vo_version b)).
Proof. reflexivity. Qed.
Theorem compare_text : forall c a s, compare_with c a (OpValue (VStr s)) =
  match new_version s with Ok b => compare_with c a (OpVersion b) | Err e => Err e end.
Proof. intros c a s. unfold compare_with, with_operand, new_version, force_cast. destruct (mk_version s); reflexivity. Qed.
Theorem compare_other : forall c a v, (forall s, v <> VStr s) -> exists w, compare_with c a (OpValue v) = Err (EAttr w).
Proof. intros c a v H. destruct v; try (eexists; reflexivity). destruct (H s eq_refl). Qed.
Theorem compare_swapped : forall c v a s b, v = VStr s -> new_version s = Ok b -> compare_value c v a = compare_with c b (OpVersion a).
Proof.
  intros c v a s b -> H. unfold compare_value. rewrite compare_text, H, !compare_version. f_equal.
  destruct c; cbn [reflected cmp_fun]; unfold ver_eq, ver_ne, ver_lt, ver_gt, ver_le, ver_ge, ver_eq; try rewrite (Z.eqb_sym (v_major _)), (Z.eqb_sym (v_minor _)), (Z.eqb_sym (v_patch _)); auto;
    unfold Z.gtb, Z.ltb, Z.geb, Z.leb; rewrite (Z.compare_antisym (v_major (vo_version b))), (Z.compare_antisym (v_minor (vo_version b))), (Z.compare_antisym (v_patch (vo_version b)));
    destruct (v_major (vo_version b) ?= _), (v_minor (vo_version b) ?= _), (v_patch (vo_version b) ?= _); reflexivity.
Qed.
Theorem str_version : forall s a, new_version s = Ok a -> ver_str a = s.
Proof. intros s a H. apply bind_ok in H as (v & _ & E). injection E as <-. reflexivity. Qed.

Lemma cmp_says : forall c u v, cmp_fun c u v = true <-> says c u v.
Proof.
  intros c u v. destruct (comparisons_exact u v) as (A & B & C & D). destruct (comparisons_sound u v) as (_ & _ & _ & _ & E & F). unfold says, all_three. destruct c; assumption.
Qed.
Theorem version_version : forall c a b, answers (compare_with c a (OpVersion b)) (says c (vo_version a) (vo_version b)).
Proof. intros c a b. eexists. split; [apply compare_version | apply cmp_says]. Qed.
Theorem version_text : forall c a s b, new_version s = Ok b ->
  answers (compare_with c a (OpValue (VStr s))) (says c (vo_version a) (vo_version b)) /\ answers (compare_value c (VStr s) a) (says c (vo_version b) (vo_version a)).
Proof.
  intros c a s b H. split.
  - rewrite compare_text, H. apply version_version.
  - rewrite (compare_swapped c (VStr s) a s b eq_refl H). apply version_version.
Qed.
Theorem version_bad : forall c a s e, new_version s = Err e -> compare_with c a (OpValue (VStr s)) = Err e /\ compare_value c (VStr s) a = Err e /\ exists w, e = EValue w.
Proof.
  intros c a s e H. split; [ | split].
  - rewrite compare_text, H. reflexivity.
  - unfold compare_value. rewrite compare_text, H. reflexivity.
  - unfold new_version in H. destruct (mk_version s) eqn:E; [discriminate | ]. injection H as <-. eapply mk_version_err; eauto.
Qed.
Theorem version_other : forall c a v, (forall s, v <> VStr s) ->
  (exists w, compare_with c a (OpValue v) = Err (EAttr w)) /\ (exists w, compare_value c v a = Err (EAttr w)).
Proof. intros c a v H. split; apply compare_other; auto. Qed.
Theorem version_parts : forall s a, new_version s = Ok a <-> mk_version s = Ok (vo_version a) /\ ver_str a = s.
Proof.
  intros s [t v]. unfold new_version, ver_str. cbn. split.
  - intros H. apply bind_ok in H as (w & E & K). injection K as <- <-. auto.
  - intros [-> ->]. reflexivity.
Qed.

(** ** [__cmp__] *)
Theorem cmp_number : forall a b, ver_cmp a (OpVersion b) = Ok (match int_version (vo_version a) ?= int_version (vo_version b) with Lt => -1 | Eq => 0 | Gt => 1 end).
Proof.
  intros a b. unfold ver_cmp, with_operand. cbn [force_cast bind]. f_equal.
  destruct (Z.ltb_spec (int_version (vo_version a)) (int_version (vo_version b))), (Z.eqb_spec (int_version (vo_version a)) (int_version (vo_version b)));
    destruct (Z.compare_spec (int_version (vo_version a)) (int_version (vo_version b))); lia.
Qed.
Theorem cmp_release : forall a b, three_digits (vo_version a) -> three_digits (vo_version b) ->
  (ver_cmp a (OpVersion b) = Ok (-1) <-> release_lt (vo_version a) (vo_version b)) /\
  (ver_cmp a (OpVersion b) = Ok 0 <-> vo_version a = vo_version b) /\
  (ver_cmp a (OpVersion b) = Ok 1 <-> release_lt (vo_version b) (vo_version a)).
Proof.
  intros [sa [x y z]] [sb [x' y' z']] [A1 A2] [B1 B2]. rewrite cmp_number. unfold release_lt, int_version. cbn [vo_version v_major v_minor v_patch] in *.
  destruct (Z.compare_spec (x * 1000000 + y * 1000 + z) (x' * 1000000 + y' * 1000 + z')) as [E | E | E]; repeat split; intros H; try discriminate; try lia.
  - f_equal; lia.
  - injection H as -> -> ->. lia.
  - injection H as -> -> ->. lia.
Qed.
Theorem cmp_text : forall a s b, new_version s = Ok b -> ver_cmp a (OpValue (VStr s)) = ver_cmp a (OpVersion b).
Proof. intros a s b H. apply version_parts in H as [H _]. unfold ver_cmp, with_operand, force_cast. rewrite H. reflexivity. Qed.
