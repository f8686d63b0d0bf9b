(** Proofs about Version.v and the number parsing it uses. *)
From Verif Require Import PyBase PyNum Unicode SpecUnicode UnicodeFacts PyFacts Version SpecVersion.
From Coq Require Import DecimalN.
Open Scope string_scope.

(** ** Decimal spelling *)
Lemma dec_digits : forall u, Forall (fun c => is_digit c = true) (chars (NilEmpty.string_of_uint u)).
Proof. induction u; simpl; constructor; auto. Qed.

Lemma digits_val_pos : forall u p,
  digits_val digit_val 10 (Npos p) true (chars (NilEmpty.string_of_uint u)) = Some (Npos (Pos.of_uint_acc u p)).
Proof.
  induction u as [ | u IH | u IH | u IH | u IH | u IH | u IH | u IH | u IH | u IH | u IH];
    intros p; [reflexivity | ..]; cbn [NilEmpty.string_of_uint chars list_ascii_of_string digits_val];
    match goal with
    | |- context [digit_val ?c] =>
        let r := eval vm_compute in (digit_val c) in change (digit_val c) with r
    end;
    match goal with
    | |- digits_val _ _ (?a * 10 + ?b) _ _ = Some (N.pos (Pos.of_uint_acc _ ?q)) => idtac
    | _ => idtac
    end;
    cbn [Pos.of_uint_acc];
    rewrite <- IH; f_equal;
    change (chars (NilEmpty.string_of_uint u)) with (list_ascii_of_string (NilEmpty.string_of_uint u));
    try reflexivity; lia.
Qed.

Lemma digits_val_uint : forall u b,
  (b = true \/ u <> Decimal.Nil) ->
  digits_val digit_val 10 0 b (chars (NilEmpty.string_of_uint u)) = Some (N.of_uint u).
Proof.
  induction u as [ | u IH | u IH | u IH | u IH | u IH | u IH | u IH | u IH | u IH | u IH];
    intros b Hb.
  - simpl. destruct Hb as [-> | Hb]; [reflexivity | congruence].
  - change (digits_val digit_val 10 0 true (chars (NilEmpty.string_of_uint u)) = Some (N.of_uint u)).
    apply IH; auto.
  - apply digits_val_pos with (p := 1%positive).
  - apply digits_val_pos with (p := 2%positive).
  - apply digits_val_pos with (p := 3%positive).
  - apply digits_val_pos with (p := 4%positive).
  - apply digits_val_pos with (p := 5%positive).
  - apply digits_val_pos with (p := 6%positive).
  - apply digits_val_pos with (p := 7%positive).
  - apply digits_val_pos with (p := 8%positive).
  - apply digits_val_pos with (p := 9%positive).
Qed.

Lemma to_uint_nonnil : forall n, N.to_uint n <> Decimal.Nil.
Proof.
  intros n H. pose proof (DecimalN.Unsigned.of_to n) as E. rewrite H in E. simpl in E.
  subst n. discriminate.
Qed.

Lemma digits_dec : forall n, digits_val digit_val 10 0 false (chars (dec n)) = Some n.
Proof.
  intros n. unfold dec. rewrite digits_val_uint.
  - rewrite DecimalN.Unsigned.of_to. reflexivity.
  - right. apply to_uint_nonnil.
Qed.

Lemma dec_forall_digit : forall n, Forall (fun c => is_digit c = true) (chars (dec n)).
Proof. intros. apply dec_digits. Qed.

Lemma dec_inj : forall a b, dec a = dec b -> a = b.
Proof.
  intros a b H. pose proof (digits_dec a) as Ha. pose proof (digits_dec b) as Hb.
  rewrite H in Ha. congruence.
Qed.

Lemma dec_nonempty : forall n, chars (dec n) <> [].
Proof. intros n H. pose proof (digits_dec n) as E. rewrite H in E. discriminate. Qed.

Lemma digit_not_blank : forall c, is_digit c = true -> is_blank c = false.
Proof.
  intros c H. unfold is_digit, in_range in H. apply andb_prop in H as [H1 H2].
  apply N.leb_le in H1, H2. unfold is_blank, in_range.
  repeat match goal with
         | |- context [N.leb ?a ?b] => destruct (N.leb_spec a b)
         | |- context [N.eqb ?a ?b] => destruct (N.eqb_spec a b)
         end; simpl; auto; lia.
Qed.

Lemma lstrip_id : forall f l, Forall (fun c => f c = false) l -> lstrip f l = l.
Proof. intros f [ | c l] H; simpl; auto. inversion H; subst. rewrite H2. auto. Qed.
Lemma strip_by_id : forall f l, Forall (fun c => f c = false) l -> strip_by f l = l.
Proof.
  intros f l H. unfold strip_by. rewrite (lstrip_id f l H). rewrite lstrip_id.
  - apply rev_involutive.
  - apply Forall_rev. auto.
Qed.
Lemma digits_no_blank : forall l,
  Forall (fun c => is_digit c = true) l -> Forall (fun c => is_blank c = false) l.
Proof. intros. eapply Forall_impl; [ | exact H]. intros. apply digit_not_blank. auto. Qed.

Lemma py_int_dec : forall n, py_int (chars (dec n)) = Some (Z.of_N n).
Proof.
  intros n. unfold py_int. unfold trim. rewrite strip_by_id by (apply digits_no_blank; apply dec_forall_digit).
  pose proof (digits_dec n) as H. pose proof (dec_forall_digit n) as Hd.
  destruct (chars (dec n)) as [ | c l]; [discriminate | ].
  inversion Hd; subst.
  assert (Hm : c <> "-"%char) by (intros ->; discriminate).
  assert (Hp : c <> "+"%char) by (intros ->; discriminate).
  destruct c as [b0 b1 b2 b3 b4 b5 b6 b7].
  destruct b0, b1, b2, b3, b4, b5, b6, b7; try congruence; cbv beta iota; rewrite H; reflexivity.
Qed.

(** ** Splitting at dots *)
Definition no_dot (l : list ascii) : Prop := Forall (fun c => c <> "."%char) l.
Lemma digits_no_dot : forall l, Forall (fun c => is_digit c = true) l -> no_dot l.
Proof. intros l H. eapply Forall_impl; [ | exact H]. intros c Hc ->. discriminate. Qed.

Lemma split_on_nodot : forall l, no_dot l -> split_on "." l = [l].
Proof.
  induction l as [ | c l IH]; intros H; simpl; auto. inversion H; subst.
  apply Ascii.eqb_neq in H2. rewrite H2. rewrite IH; auto.
Qed.
Lemma split_on_app : forall l1 l2, no_dot l1 ->
  split_on "." (l1 ++ "."%char :: l2) = l1 :: split_on "." l2.
Proof.
  induction l1 as [ | c l1 IH]; intros l2 H; simpl; auto. inversion H; subst.
  apply Ascii.eqb_neq in H2. rewrite H2. rewrite IH; auto.
Qed.

(** The number of components is one more than the number of dots. *)
Lemma split_on_length : forall l, length (split_on "." l) = S (count_occ ascii_dec l "."%char).
Proof.
  induction l as [ | c l IH]; [reflexivity | ]. cbn [split_on count_occ].
  destruct (ascii_dec c ".") as [-> | Hc].
  - rewrite Ascii.eqb_refl. simpl. rewrite IH. auto.
  - assert (E : Ascii.eqb c "." = false) by (apply Ascii.eqb_neq; auto). rewrite E.
    destruct (split_on "." l); simpl in *; auto. lia.
Qed.

Lemma forallb_digits : forall l, Forall (fun c => is_digit c = true) l -> forallb is_digit l = true.
Proof. intros l H. apply forallb_forall. rewrite Forall_forall in H. auto. Qed.

Lemma re_version_two : forall a b rest,
  Forall (fun c => is_digit c = true) a -> a <> [] ->
  Forall (fun c => is_digit c = true) b -> b <> [] ->
  re_version (a ++ "."%char :: b ++ rest) = true.
Proof.
  intros a b rest Ha Hna Hb Hnb. unfold re_version. apply existsb_exists.
  exists (length a). split.
  - apply in_seq. rewrite app_length. simpl. destruct a; [congruence | simpl; lia].
  - unfold re_version_at. rewrite firstn_app, firstn_all, Nat.sub_diag. simpl firstn.
    rewrite List.app_nil_r, forallb_digits by auto.
    rewrite skipn_app, skipn_all, Nat.sub_diag. simpl.
    destruct b as [ | d b]; [congruence | ]. inversion Hb; subst. simpl. rewrite H1. auto.
Qed.

Lemma count_occ_nodot : forall l, no_dot l -> count_occ ascii_dec l "."%char = 0.
Proof.
  intros l H. apply count_occ_not_In. intros Hi. unfold no_dot in H. rewrite Forall_forall in H.
  apply (H "."%char); auto.
Qed.

Definition parse_spec2 (a b : N) : string := dec a ++ "." ++ dec b.
Definition parse_spec3 (a b c : N) : string := dec a ++ "." ++ dec b ++ "." ++ dec c.

Lemma chars_spec2 : forall a b, chars (dec a ++ "." ++ dec b) = (chars (dec a) ++ "."%char :: chars (dec b))%list.
Proof. intros. rewrite !chars_app. reflexivity. Qed.
Lemma chars_spec3 : forall a b c,
  chars (dec a ++ "." ++ dec b ++ "." ++ dec c) =
  (chars (dec a) ++ "."%char :: chars (dec b) ++ "."%char :: chars (dec c))%list.
Proof. intros. rewrite !chars_app. reflexivity. Qed.

Lemma digit_ascii : forall c, is_digit c = true -> (code c < 128)%N.
Proof. intros c H. apply in_range_iff in H. lia. Qed.
Lemma dec_ascii : forall n c, In c (chars (dec n)) -> (code c < 128)%N.
Proof. intros n c I. apply digit_ascii. pose proof (dec_forall_digit n) as F. rewrite Forall_forall in F. auto. Qed.
Lemma folded_spec2 : forall a b, folded (dec a ++ "." ++ dec b) = chars (dec a ++ "." ++ dec b).
Proof.
  intros. apply folded_ascii. rewrite chars_spec2. intros c I. apply in_app_or in I as [I | [<- | I]]; try (eapply dec_ascii; eauto; fail). reflexivity.
Qed.
Lemma folded_spec3 : forall a b c, folded (dec a ++ "." ++ dec b ++ "." ++ dec c) = chars (dec a ++ "." ++ dec b ++ "." ++ dec c).
Proof.
  intros. apply folded_ascii. rewrite chars_spec3. intros x I. apply in_app_or in I as [I | [<- | I]]; try (eapply dec_ascii; eauto; fail); [reflexivity | ].
  apply in_app_or in I as [I | [<- | I]]; try (eapply dec_ascii; eauto; fail). reflexivity.
Qed.
Lemma split2 : forall a b, split_on "." (chars (dec a ++ "." ++ dec b)) = [chars (dec a); chars (dec b)].
Proof.
  intros. rewrite chars_spec2. rewrite split_on_app by (apply digits_no_dot; apply dec_forall_digit).
  rewrite split_on_nodot by (apply digits_no_dot; apply dec_forall_digit). auto.
Qed.
Lemma split3 : forall a b c,
  split_on "." (chars (dec a ++ "." ++ dec b ++ "." ++ dec c)) = [chars (dec a); chars (dec b); chars (dec c)].
Proof.
  intros. rewrite chars_spec3.
  rewrite !split_on_app by (apply digits_no_dot; apply dec_forall_digit).
  rewrite split_on_nodot by (apply digits_no_dot; apply dec_forall_digit). auto.
Qed.

Lemma component_dec : forall n, component (chars (dec n)) = Ok (Z.of_N n).
Proof. intros. unfold component. rewrite py_int_dec. auto. Qed.

Lemma validate2 : forall a b, validate_version (dec a ++ "." ++ dec b) = Ok tt.
Proof.
  intros. unfold validate_version. rewrite folded_spec2, split2. rewrite chars_spec2.
  rewrite <- (app_nil_r (chars (dec b))).
  rewrite re_version_two; auto using dec_forall_digit, dec_nonempty.
Qed.
Lemma validate3 : forall a b c, validate_version (dec a ++ "." ++ dec b ++ "." ++ dec c) = Ok tt.
Proof.
  intros. unfold validate_version. rewrite folded_spec3, split3. rewrite chars_spec3.
  rewrite re_version_two; auto using dec_forall_digit, dec_nonempty.
Qed.

Lemma mk_version2 : forall a b,
  mk_version (dec a ++ "." ++ dec b) = Ok (mkVersion (Z.of_N a) (Z.of_N b) 0).
Proof.
  intros. unfold mk_version, split_version. rewrite validate2. cbn [bind]. rewrite folded_spec2, split2.
  rewrite !component_dec. reflexivity.
Qed.
Lemma mk_version3 : forall a b c,
  mk_version (dec a ++ "." ++ dec b ++ "." ++ dec c) =
  Ok (mkVersion (Z.of_N a) (Z.of_N b) (Z.of_N c)).
Proof.
  intros. unfold mk_version, split_version. rewrite validate3. cbn [bind]. rewrite folded_spec3, split3.
  rewrite !component_dec. reflexivity.
Qed.

Lemma mk_version_bad_count : forall s,
  count_dots s <> 1 -> count_dots s <> 2 -> exists w, mk_version s = Err (EValue w).
Proof.
  intros s H1 H2. unfold mk_version, validate_version. rewrite split_on_length, folded_count by (cbv; intuition discriminate).
  unfold count_dots in *. set (n := count_occ _ _ _) in *.
  assert (E : (Nat.eqb (S n) 2 || Nat.eqb (S n) 3)%bool = false).
  { apply orb_false_iff. split; apply Nat.eqb_neq; lia. }
  rewrite E. rewrite orb_true_r. simpl. eauto.
Qed.

(** Whatever is refused is refused with ValueError. *)
Lemma component_err : forall w e, component w = Err e -> exists x, e = EValue x.
Proof. intros w e H. unfold component in H. destruct (py_int w); inversion H; eauto. Qed.
Lemma mk_version_err : forall s e, mk_version s = Err e -> exists w, e = EValue w.
Proof.
  intros s e. unfold mk_version. intros H. apply bind_err in H as [H | [u [E H]]].
  - unfold validate_version in H. destruct (_ || _)%bool; inversion H; eauto.
  - apply bind_err in H as [H | [[[x y] z] [E2 H]]]; [ | discriminate].
    unfold split_version in H. rewrite E in H. cbn [bind] in H.
    destruct (split_on "." (folded s)) as [ | a [ | b [ | c [ | ]]]]; try (inversion H; subst; eauto; fail).
    + repeat (apply bind_err in H as [H | [? [? H]]]; [eapply component_err; eauto | ]). discriminate.
    + repeat (apply bind_err in H as [H | [? [? H]]]; [eapply component_err; eauto | ]). discriminate.
Qed.

(** ** Comparison *)
Lemma ver_eq_iff : forall u v, ver_eq u v = true <-> u = v.
Proof.
  intros [a b c] [x y z]. unfold ver_eq. simpl. rewrite !andb_true_iff, !Z.eqb_eq. split.
  - intros [[-> ->] ->]. auto.
  - intros H. inversion H. auto.
Qed.
Lemma ver_le_iff : forall u v, ver_le u v = true <->
  (v_major u <= v_major v /\ v_minor u <= v_minor v /\ v_patch u <= v_patch v)%Z.
Proof. intros. unfold ver_le. rewrite !andb_true_iff, !Z.leb_le. tauto. Qed.
Lemma ver_ge_iff : forall u v, ver_ge u v = true <->
  (v_major u >= v_major v /\ v_minor u >= v_minor v /\ v_patch u >= v_patch v)%Z.
Proof. intros. unfold ver_ge. rewrite !andb_true_iff, !Z.geb_le. lia. Qed.
Lemma ver_lt_iff : forall u v, ver_lt u v = true <->
  (v_major u < v_major v /\ v_minor u < v_minor v /\ v_patch u < v_patch v)%Z.
Proof. intros. unfold ver_lt. rewrite !andb_true_iff, !Z.ltb_lt. tauto. Qed.
Lemma ver_gt_iff : forall u v, ver_gt u v = true <->
  (v_major u > v_major v /\ v_minor u > v_minor v /\ v_patch u > v_patch v)%Z.
Proof. intros. unfold ver_gt. rewrite !andb_true_iff, !Z.gtb_lt. lia. Qed.

Lemma version_ext : forall u v,
  v_major u = v_major v -> v_minor u = v_minor v -> v_patch u = v_patch v -> u = v.
Proof. intros [a b c] [x y z]; simpl; congruence. Qed.

(** A true comparison is right in release order; the converse fails. *)
Lemma ver_lt_sound : forall u v, ver_lt u v = true -> release_lt u v.
Proof. intros u v H. apply ver_lt_iff in H. left. tauto. Qed.
Lemma ver_gt_sound : forall u v, ver_gt u v = true -> release_lt v u.
Proof. intros u v H. apply ver_gt_iff in H. left. lia. Qed.
Lemma ver_le_sound : forall u v, ver_le u v = true -> release_le u v.
Proof.
  intros u v H. apply ver_le_iff in H. unfold release_le, release_lt.
  destruct (Z.eq_dec (v_major u) (v_major v)); [ | left; left; lia].
  destruct (Z.eq_dec (v_minor u) (v_minor v)); [ | left; right; left; lia].
  destruct (Z.eq_dec (v_patch u) (v_patch v)); [ | left; right; right; lia].
  right. apply version_ext; auto.
Qed.
Lemma ver_ge_sound : forall u v, ver_ge u v = true -> release_le v u.
Proof.
  intros u v H. apply ver_le_sound. apply ver_le_iff. apply ver_ge_iff in H. lia.
Qed.

(** <= and >= are exact for versions with the same major and minor number. *)
Lemma ver_le_same_minor : forall u v,
  v_major u = v_major v -> v_minor u = v_minor v -> (ver_le u v = true <-> release_le u v).
Proof.
  intros u v H1 H2. split; [apply ver_le_sound | ].
  intros [H | ->]; apply ver_le_iff; [unfold release_lt in H | ]; lia.
Qed.
Lemma ver_ge_same_minor : forall u v,
  v_major u = v_major v -> v_minor u = v_minor v -> (ver_ge u v = true <-> release_le v u).
Proof.
  intros u v H1 H2. split; [apply ver_ge_sound | ].
  intros [H | ->]; apply ver_ge_iff; [unfold release_lt in H | ]; lia.
Qed.

Lemma ver_lt_3_8 : forall v, (0 <= v_patch v)%Z -> ver_lt v SPINE_3_8 = false.
Proof.
  intros v H. destruct (ver_lt v SPINE_3_8) eqn:E; auto. apply ver_lt_iff in E. simpl in E. lia.
Qed.

(** Statements of PropVersion.v *)
Lemma comparisons_sound : forall u v,
  (ver_lt u v = true -> release_lt u v) /\ (ver_gt u v = true -> release_lt v u) /\
  (ver_le u v = true -> release_le u v) /\ (ver_ge u v = true -> release_le v u) /\
  (ver_eq u v = true <-> u = v) /\ (ver_ne u v = true <-> u <> v).
Proof.
  intros u v. split; [apply ver_lt_sound | ]. split; [apply ver_gt_sound | ].
  split; [apply ver_le_sound | ]. split; [apply ver_ge_sound | ]. split; [apply ver_eq_iff | ].
  unfold ver_ne. rewrite negb_true_iff. pose proof (ver_eq_iff u v). destruct (ver_eq u v); split; auto.
  - discriminate.
  - intros Hn. exfalso. apply Hn. apply H. auto.
  - intros _ E. apply H in E. discriminate.
Qed.
Lemma comparisons_same_minor : forall u v,
  v_major u = v_major v -> v_minor u = v_minor v ->
  (ver_le u v = true <-> release_le u v) /\ (ver_ge u v = true <-> release_le v u).
Proof. intros u v H1 H2. split; [apply ver_le_same_minor | apply ver_ge_same_minor]; auto. Qed.
Lemma comparisons_exact : forall u v,
  (ver_lt u v = true <-> (v_major u < v_major v /\ v_minor u < v_minor v /\ v_patch u < v_patch v)%Z) /\
  (ver_gt u v = true <-> (v_major u > v_major v /\ v_minor u > v_minor v /\ v_patch u > v_patch v)%Z) /\
  (ver_le u v = true <-> (v_major u <= v_major v /\ v_minor u <= v_minor v /\ v_patch u <= v_patch v)%Z) /\
  (ver_ge u v = true <-> (v_major u >= v_major v /\ v_minor u >= v_minor v /\ v_patch u >= v_patch v)%Z).
Proof.
  intros. split; [apply ver_lt_iff | ]. split; [apply ver_gt_iff | ]. split; [apply ver_le_iff | apply ver_ge_iff].
Qed.
Lemma le_partial_order : forall u v w,
  ver_le u u = true /\ (ver_le u v = true -> ver_le v u = true -> u = v) /\
  (ver_le u v = true -> ver_le v w = true -> ver_le u w = true) /\ (ver_ge u v = ver_le v u) /\ (ver_gt u v = ver_lt v u).
Proof.
  intros u v w. split; [apply ver_le_iff; lia | ]. split; [ | split; [ | split]].
  - rewrite !ver_le_iff. intros. apply version_ext; lia.
  - rewrite !ver_le_iff. lia.
  - apply eq_true_iff_eq. rewrite ver_le_iff, ver_ge_iff. lia.
  - apply eq_true_iff_eq. rewrite ver_lt_iff, ver_gt_iff. lia.
Qed.
