(** cast_element and the tags in a name, against the specification. *)
From Verif Require Import Unicode SpecUnicode UnicodeFacts PyBase PyFacts PyNum Json Tags Cast SpecText SpecNums SpecFloats SpecCast SpecTags TagFacts VersionFacts FloatFacts TextFacts WriteFacts NumFacts SpecRepr StrFacts.
From Coq Require Import SpecFloat.
Open Scope string_scope.

Lemma as_float_iff : forall v f, py_float_of v = Ok f <-> as_float v f.
Proof.
  intros v f. assert (I : forall z, float_of_Z z = Ok f <-> is_finite f /\ rounds (z <? 0)%Z (Z.abs z * 2 ^ 1074) 1 f).
  { intros z. pose proof (float_of_Z_rounds z) as R. destruct (float_of_Z z) as [g | e].
    - destruct R as [R F]. split; [intros E; injection E as <-; auto | intros [F' R']; f_equal; eapply rounds_unique; eauto; lia].
    - split; [discriminate | ]. intros [F' R']. destruct R as [_ R]. assert (X : S754_infinity (z <? 0)%Z = f) by (eapply rounds_unique; eauto; lia). subst f. destruct F'. }
  destruct v as [ | b | z | g | s | l | d]; cbn [py_float_of]; try (split; [discriminate | intros H; inversion H]).
  - destruct b; (split; [intros E; vm_compute in E; injection E as <-; constructor | intros H; inversion H; subst; reflexivity]).
  - rewrite I. split; [intros [F R]; constructor; auto | intros H; inversion H; subst; auto].
  - split; [intros E; injection E as <-; constructor | intros H; inversion H; subst; auto].
  - destruct (py_float (folded s)) as [g | ] eqn:E.
    + split; [intros X; injection X as <-; apply af_text with (folded s); [apply folded_iff; auto | apply py_float_iff; auto] | intros H; inversion H as [ | | | | s' l g' Rd T]; subst]. apply folded_iff in Rd as <-. apply py_float_iff in T. congruence.
    + split; [discriminate | intros H; inversion H as [ | | | | s' l g' Rd T]; subst]. apply folded_iff in Rd as <-. apply py_float_iff in T. congruence.
Qed.
Lemma as_float_valid : forall v f, (forall g, v = VFloat g -> is_float g) -> as_float v f -> is_float f.
Proof.
  intros v f H A. destruct A as [g | z g F R | | | s l g Rd T]; auto; try reflexivity; [apply R | ].
  destruct T as (b1 & b2 & sg & neg & t & _ & _ & _ & B & _). destruct B; try reflexivity. apply float_of_decimal_valid.
Qed.
Lemma whole_unique : forall f z z', whole_part f z -> whole_part f z' -> z = z'.
Proof.
  intros f z z' (_ & A & B & C) (_ & A' & B' & C'). assert (E : Z.abs z = Z.abs z').
  { revert A A'. generalize (Z.abs z) (Z.abs z') (size f) (2 ^ 1074)%Z. clear. intros a b n p A A'. assert (a * p < (b + 1) * p)%Z by lia. assert (b * p < (a + 1) * p)%Z by lia.
    assert (0 < p)%Z by nia. nia. }
  destruct (Z.lt_total z 0) as [L | [L | L]], (Z.lt_total z' 0) as [L' | [L' | L']]; try lia.
  - rewrite (B L) in C'. discriminate C'. auto.
  - rewrite (C L) in B'. discriminate B'. auto.
Qed.
Lemma whole_part_iff : forall f z, is_float f -> (py_int_of_float f = Ok z <-> whole_part f z).
Proof.
  intros f z V. assert (P : (0 < 2 ^ 1074)%Z) by (apply Z.pow_pos_nonneg; lia).
  assert (G : forall n, py_int_of_float f = Ok n -> whole_part f n).
  { intros n E. destruct f as [s | s | | s m e]; cbn [py_int_of_float] in E; try discriminate.
    - injection E as <-. unfold whole_part. cbn [size Z.abs]. revert P. generalize (2 ^ 1074)%Z. intros p P. repeat split; try exact I; lia.
    - unfold is_float, valid_binary in V; apply canonical_iff in V as (V1 & V2 & _). cbv zeta in E. set (k := if (0 <=? e)%Z then (Zpos m * 2 ^ e)%Z else (Zpos m / 2 ^ (- e))%Z) in *.
      assert (K : (0 <= k)%Z /\ (k * 2 ^ 1074 <= Zpos m * 2 ^ (e + 1074) < (k + 1) * 2 ^ 1074)%Z).
      { unfold k. destruct (Z.leb_spec 0 e) as [L | L].
        - assert (0 < 2 ^ e)%Z by (apply Z.pow_pos_nonneg; lia). rewrite (Z.pow_add_r 2 e 1074) by lia. revert P. generalize (2 ^ 1074)%Z. intros p P. split; nia.
        - assert (0 < 2 ^ (- e))%Z by (apply Z.pow_pos_nonneg; lia). assert (0 < 2 ^ (e + 1074))%Z by (apply Z.pow_pos_nonneg; lia).
          assert (Pw : (2 ^ 1074 = 2 ^ (- e) * 2 ^ (e + 1074))%Z) by (rewrite <- Z.pow_add_r by lia; f_equal; lia). rewrite Pw.
          pose proof (Z.div_mod (Zpos m) (2 ^ (- e)) ltac:(lia)) as D. pose proof (Z.mod_pos_bound (Zpos m) (2 ^ (- e)) ltac:(lia)) as B.
          assert (Q : (0 <= Zpos m / 2 ^ (- e))%Z) by (apply Z.div_pos; lia). clear Pw P E k.
          revert D B Q H H0. generalize (2 ^ (- e))%Z (2 ^ (e + 1074))%Z (Zpos m). clear n. intros a c n. generalize (n / a)%Z (n mod a)%Z. intros q r D B Q A C.
          split; auto. subst n. split; [ | ].
          + replace ((a * q + r) * c)%Z with (q * (a * c) + r * c)%Z by ring. nia.
          + replace ((a * q + r) * c)%Z with (q * (a * c) + r * c)%Z by ring. replace ((q + 1) * (a * c))%Z with (q * (a * c) + a * c)%Z by ring. nia. }
      destruct K as [K0 K]. unfold whole_part. cbn [size negative]. injection E as <-.
      assert (Ab : Z.abs (if s then (- k)%Z else k) = k) by (destruct s; lia). rewrite Ab. repeat split; try exact I; try apply K; destruct s; auto; lia. }
  split; [apply G | ]. intros W. destruct (py_int_of_float f) as [n | e] eqn:E.
  - f_equal. eapply whole_unique; eauto.
  - exfalso. destruct W as (F & _). destruct f; cbn in *; try tauto; discriminate.
Qed.
(** ** The casts *)
Theorem cast_number : forall v x, cast_element v "number" = Ok x <-> exists f, as_float v f /\ x = VFloat f.
Proof.
  intros v x. unfold cast_element. change (value_type_of "number") with TNumber. cbv iota. destruct (py_float_of v) as [f | e] eqn:E; cbn [bind].
  - apply as_float_iff in E. split; [intros X; injection X as <-; eauto | intros (g & G & ->)]. apply as_float_iff in E, G. congruence.
  - split; [discriminate | intros (g & G & _)]. apply as_float_iff in G. congruence.
Qed.
Theorem cast_integer : forall v x, (forall g, v = VFloat g -> is_float g) -> (cast_element v "integer" = Ok x <-> exists f z, as_float v f /\ whole_part f z /\ x = VInt z).
Proof.
  intros v x V. unfold cast_element. change (value_type_of "integer") with TInteger. cbv iota. destruct (py_float_of v) as [f | e] eqn:E; cbn [bind].
  - apply as_float_iff in E. assert (Vf := as_float_valid _ _ V E). destruct (py_int_of_float f) as [z | e] eqn:Ez; cbn [bind].
    + split; [intros X; injection X as <-; exists f, z; rewrite <- whole_part_iff; auto | ]. intros (g & z' & G & W & ->).
      apply as_float_iff in E, G. assert (g = f) by congruence. subst g. apply whole_part_iff in W; auto. congruence.
    + split; [discriminate | ]. intros (g & z' & G & W & _). apply as_float_iff in E, G. assert (g = f) by congruence. subst g. apply whole_part_iff in W; auto. congruence.
  - split; [discriminate | intros (g & z & G & _)]. apply as_float_iff in G. congruence.
Qed.
Theorem cast_string : forall v x, json_value v -> (cast_element v "string" = Ok x <-> exists s, said v s /\ x = VStr s).
Proof.
  intros v x J. change (cast_element v "string") with (Ok (VStr (py_str v))). split.
  - intros E. injection E as <-. exists (py_str v). split; auto. apply str_said; auto.
  - intros (s & H & ->). apply str_said in H; auto. congruence.
Qed.
Lemma true_letters : Forall (fun d => (97 <= code d <= 122)%N) (chars "true").
Proof. cbn. repeat constructor; vm_compute; discriminate. Qed.
Lemma false_letters : Forall (fun d => (97 <= code d <= 122)%N) (chars "false").
Proof. cbn. repeat constructor; vm_compute; discriminate. Qed.
Lemma two_words : forall t, word_text "true" t -> word_text "false" t -> False.
Proof.
  intros t A B. assert (L : forall w, word_text w t -> length t = String.length w).
  { clear. intros w H. rewrite <- chars_length. unfold word_text in H. revert H. generalize (chars w). intros l H. induction H; cbn; auto; f_equal; auto. }
  apply L in A. apply L in B. rewrite A in B. discriminate.
Qed.
Theorem cast_boolean : forall v x, cast_element v "boolean" = Ok x <-> as_boolean v x.
Proof.
  intros v x. unfold cast_element. change (value_type_of "boolean") with TBoolean. cbv iota.
  destruct v as [ | b | z | f | s | l | d]; try (split; [discriminate | intros H; inversion H]).
  - split; [intros E; injection E as <-; constructor | intros H; inversion H; auto].
  - pose proof (lower_word "true" (chars s) true_letters) as T. pose proof (lower_word "false" (chars s) false_letters) as F. cbv zeta.
    destruct (seqb (unchars (map lower (chars s))) "true"); [ | destruct (seqb (unchars (map lower (chars s))) "false")].
    + split; [intros E; injection E as <-; constructor; tauto | intros H; inversion H; subst; auto; exfalso].
      * match goal with W : word_text "false" _ |- _ => exact (two_words _ (proj1 T eq_refl) W) end.
      * tauto.
    + split; [intros E; injection E as <-; constructor; tauto | intros H; inversion H; subst; auto; exfalso].
      * apply T in H1. discriminate.
      * tauto.
    + split; [intros E; injection E as <-; constructor; intros W; [apply T in W | apply F in W]; discriminate | intros H; inversion H; subst; auto; exfalso].
      * apply T in H1. discriminate.
      * apply F in H1. discriminate.
Qed.
Theorem cast_errors : forall v t e, cast_element v t = Err e ->
  (exists w, e = EValue w) \/ (exists w, e = EType w) \/ e = EOverflow.
Proof.
  intros v t e E. unfold cast_element in E. assert (Fl : forall e', py_float_of v = Err e' -> (exists w, e' = EValue w) \/ (exists w, e' = EType w) \/ e' = EOverflow).
  { intros e' X. destruct v as [ | b | z | f | s | l | d]; cbn [py_float_of] in X; try discriminate; try (injection X as <-; eauto).
    - destruct b; discriminate.
    - pose proof (float_of_Z_rounds z) as R. rewrite X in R. destruct R as [-> _]. auto.
    - destruct (py_float _); [discriminate | ]. injection X as <-. eauto. }
  destruct (value_type_of t).
  - destruct (py_float_of v); cbn [bind] in E; [discriminate | ]. injection E as <-. destruct (Fl _ eq_refl) as [X | [X | X]]; auto.
  - destruct (py_float_of v) as [f | e'] eqn:X; cbn [bind] in E.
    + destruct f; cbn in E; try discriminate; injection E as <-; eauto.
    + injection E as <-. destruct (Fl _ eq_refl) as [Y | [Y | Y]]; auto.
  - destruct v as [ | [ | ] | | | | | ]; cbn in E; try discriminate; injection E as <-; eauto.
  - destruct v; try discriminate; injection E as <-; eauto.
  - discriminate.
Qed.

Lemma no_float_iff : forall v r, (exists e, py_float_of v = Err e /\ raised r e) <-> no_float v r.
Proof.
  intros v r. destruct v as [ | b | z | f | s | l | d]; cbn [py_float_of].
  - split; [intros (e & E & R); injection E as <-; destruct r; cbn in R; try discriminate; try (destruct R as [? R]; discriminate); apply nf_none | intros H; inversion H; eexists; split; [reflexivity | cbn; eauto]].
  - split; [intros (e & E & _); destruct b; discriminate | intros H; inversion H].
  - pose proof (float_of_Z_rounds z) as Z. destruct (float_of_Z z) as [g | e'].
    + split; [intros (e & E & _); discriminate | intros H; inversion H as [ | | | | z' R]; subst]. exfalso. destruct Z as [Z F].
      assert (X : S754_infinity (z <? 0)%Z = g) by (eapply rounds_unique; eauto; lia). subst g. destruct F.
    + destruct Z as [-> Z]. split; [intros (e & E & R); injection E as <-; destruct r; cbn in R; try discriminate; try (destruct R as [? R]; discriminate); constructor; auto | intros H; inversion H; eexists; split; [reflexivity | cbn; eauto]].
  - split; [intros (e & E & _); discriminate | intros H; inversion H].
  - destruct (py_float (folded s)) as [g | ] eqn:E.
    + split; [intros (e & X & _); discriminate | intros H; inversion H as [ | | | s' N | ]; subst]. exfalso. apply (N (folded s) g); [apply folded_iff; auto | apply py_float_iff; auto].
    + split; [intros (e & X & R); injection X as <-; destruct r; cbn in R; try discriminate; try (destruct R as [? R]; discriminate) | intros H; inversion H; eexists; split; [reflexivity | cbn; eauto]].
      constructor. intros l f Rd T. apply folded_iff in Rd as <-. apply py_float_iff in T. congruence.
  - split; [intros (e & E & R); injection E as <-; destruct r; cbn in R; try discriminate; try (destruct R as [? R]; discriminate); constructor | intros H; inversion H; eexists; split; [reflexivity | cbn; eauto]].
  - split; [intros (e & E & R); injection E as <-; destruct r; cbn in R; try discriminate; try (destruct R as [? R]; discriminate); constructor | intros H; inversion H; eexists; split; [reflexivity | cbn; eauto]].
Qed.
Theorem cast_refused_iff : forall v t r, (exists e, cast_element v t = Err e /\ raised r e) <-> cast_refused v t r.
Proof.
  intros v t r. split.
  - intros (e & E & R). unfold cast_element, value_type_of in E. destruct (seqb t "number") eqn:T1; [ | destruct (seqb t "integer") eqn:T2; [ | destruct (seqb t "string") eqn:T3; [discriminate | destruct (seqb t "boolean") eqn:T4; [ | discriminate]]]].
    + apply String.eqb_eq in T1 as ->. destruct (py_float_of v) as [f | y] eqn:F; cbn [bind] in E; [discriminate | ]. injection E as ->. apply cr_number, no_float_iff. eauto.
    + apply String.eqb_eq in T2 as ->. destruct (py_float_of v) as [f | y] eqn:F; cbn [bind] in E.
      * apply as_float_iff in F. destruct f as [b | b | | b m x]; cbn in E; try discriminate; injection E as <-; destruct r; cbn in R; try discriminate; try (destruct R as [? R]; discriminate); [eapply cr_infinity; eauto | apply cr_nan; auto].
      * injection E as ->. apply cr_integer, no_float_iff. eauto.
    + apply String.eqb_eq in T4 as ->. destruct v; try discriminate; injection E as <-; destruct r; cbn in R; try discriminate; try (destruct R as [? R]; discriminate); constructor; discriminate.
  - intros H. destruct H as [v r H | v r H | v H | v b H | v N1 N2].
    + apply no_float_iff in H as (e & E & R). exists e. split; auto. unfold cast_element. change (value_type_of "number") with TNumber. cbv iota. rewrite E. auto.
    + apply no_float_iff in H as (e & E & R). exists e. split; auto. unfold cast_element. change (value_type_of "integer") with TInteger. cbv iota. rewrite E. auto.
    + apply as_float_iff in H. eexists. unfold cast_element. change (value_type_of "integer") with TInteger. cbv iota. rewrite H. split; [reflexivity | cbn; eauto].
    + apply as_float_iff in H. eexists. unfold cast_element. change (value_type_of "integer") with TInteger. cbv iota. rewrite H. split; [reflexivity | cbn; eauto].
    + unfold cast_element. change (value_type_of "boolean") with TBoolean. cbv iota. destruct v; try (eexists; split; [reflexivity | cbn; eauto]); exfalso; [eapply N1 | eapply N2]; eauto.
Qed.

(** ** Tags *)
Lemma strip_word : forall n, blanks_around "scale" n <-> unchars (strip n) = "scale".
Proof.
  intros n. split.
  - intros (b1 & b2 & F1 & F2 & ->). apply white_all in F1, F2. rewrite strip_around; auto; [ | discriminate]. cbn. repeat constructor.
  - intros E. destruct (strip_spec is_space n) as (b1 & b2 & En & F1 & F2). apply white_all in F1, F2. exists b1, b2. rewrite <- E, chars_unchars. auto.
Qed.
Theorem tags_iff : forall s d, get_tags_from_name s = Ok d <->
  (tags_of s [] /\ d = []) \/
  (exists n v f, tags_of s [(n, v)] /\ blanks_around "scale" n /\ stripped_float v f /\ d = [("scale", f)]).
Proof.
  intros s d. assert (Fd : tags_of s (find_tags s)) by (apply findall_iff; auto). pose proof (get_tags_cases s _ Fd) as C. split.
  - intros E. destruct (find_tags s) as [ | [n v] [ | t ts]].
    + left. split; auto. congruence.
    + right. destruct C as [(f & N & P & X) | (_ & w & X)]; [ | congruence]. exists n, v, f. cbn [fst snd] in *. apply strip_word in N. apply strip_float in P. repeat split; auto. congruence.
    + destruct C as (w & X). congruence.
  - intros [(F & ->) | (n & v & f & F & N & T & ->)].
    + apply findall_iff in F. rewrite <- F in C. auto.
    + apply findall_iff in F. rewrite <- F in C. cbn [fst snd] in C. apply strip_word in N. apply strip_float in T. destruct C as [(g & _ & P & X) | ([X | X] & _)]; unfold value_of, name_of in *; cbn [fst snd] in *; try congruence. rewrite X. assert (g = f) by congruence. subst. reflexivity.
Qed.
Theorem tags_refused : forall s e, get_tags_from_name s = Err e -> exists w, e = EValue w.
Proof.
  intros s e E. assert (Fd : tags_of s (find_tags s)) by (apply findall_iff; auto). pose proof (get_tags_cases s _ Fd) as C.
  destruct (find_tags s) as [ | t [ | t' ts]]; [congruence | | ].
  - destruct C as [(f & _ & _ & X) | (_ & w & X)]; [congruence | ]. exists w. congruence.
  - destruct C as (w & X). exists w. congruence.
Qed.
Corollary scale_in_name_iff : forall s f, scale_in_name s = Ok f <->
  (tags_of s [] /\ f = f_one) \/ (exists n v, tags_of s [(n, v)] /\ blanks_around "scale" n /\ stripped_float v f).
Proof.
  intros s f. unfold scale_in_name. destruct (get_tags_from_name s) as [d | e] eqn:E; cbn [bind].
  - apply tags_iff in E. split.
    + intros X. injection X as <-. destruct E as [(F & ->) | (n & v & g & F & N & T & ->)]; [left; auto | right; exists n, v; auto].
    + intros H. f_equal. destruct E as [(F & ->) | (n & v & g & F & N & T & ->)], H as [(F' & ->) | (n' & v' & F' & N' & T')]; auto;
        apply findall_iff in F, F'; rewrite <- F in F'; try discriminate. injection F' as -> ->. cbn. apply strip_float in T, T'. congruence.
  - split; [discriminate | ]. intros H. exfalso. assert (exists d, get_tags_from_name s = Ok d) as (d & X); [ | congruence].
    destruct H as [(F & ->) | (n & v & F & N & T)]; eexists; apply tags_iff; [left | right]; eauto 8.
Qed.
